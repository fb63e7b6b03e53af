import sys; sys.path.insert(0,'/verif/tools')
from gen import *
I=[]
a=I.append
L2=dict(pre='(LL : NumLaws2 N)',args='LL')
L23=dict(pre='(LL : NumLaws2 N) (LLL : NumLaws3 N)',args='LL LLL')
a(thm('C18_kept_fields','kept_fields','C18: what keep_internals keeps: the local costs, the cumulative costs with the distance at the end point,\n    and the two series (as columns) of a two-argument call.'))
a(ex('C18_case_fields','density_case'))
a(thm('C45_density','density_normalized','C45: every cell is normalized like the distance of an alignment ending there; at the end point the plot\n    shows normalizedDistance.'))
a(thm('C45_plain','density_plain','C45: without normalize, the cumulative costs.'))
a(thm('C45_rejects','density_rejects','C45.'))
a(ex('C45_case','density_case')); a(ex('C45_case_NA','density_na_case'))
a(thm('C46_twoway','twoway_result','C46: the two-way plot of a two-argument call with keep_internals: both series, and guides joining\n    matched points of the two curves ([twoway_drawing], [guides]).',**L2))
a(thm('C46_twoway_given','twoway_draws','C46: the same for series passed to the plot, or kept in the object.',**L2))
a(thm('C46_threeway','threeway_result','C46: three-way plot.',**L2))
a(thm('C46_negative','negative_guides','C46: a negative number of guides.'))
a(thm('C46_outside_twoway','twoway_outside','C46: a requested position that is not on the curve.'))
a(thm('C46_outside_threeway','threeway_outside','C46: the same in the three-way plot.'))
a(ex('C46_case','twoway_case')); a(ex('C46_case_hypotheses','twoway_hyps')); a(ex('C46_case_default','twoway_default_case')); a(ex('C46_case_threeway','threeway_case'))
a(ex('C46_case_outside','outside_case')); a(ex('C46_case_rounding','guide_rounding_case','C46: positions are not always the exact integer parts.'))
a(thm('C47_types','plot_types','C47: the four plot types; every other string, abbreviations included, is rejected.'))
a(thm('C47_alignment','alignment_plot','C47: the alignment plot is the warping curve.'))
a(thm('C47_need_alignment','plots_need_alignment','C47: a distance_only result cannot be plotted.'))
a(ex('C47_case','abbreviation_case'))
a(thm('C48_required','series_required','C48.'))
a(thm('C48_matrix_call','matrix_call_no_series','C48: a call with a cost matrix keeps no series.'))
a(thm('C48_lone_series','lone_series_ignored','C48: a series passed alone is ignored.'))
a(thm('C48_vectors','vectors_rejected','C48: one-dimensional vectors raise IndexError.'))
a(thm('C48_multivariate','multivariate_rejected','C48.'))
a(ex('C48_case','matrix_plot_case'))
a(thm('C49_cli','cli_is_api','C49: what the command line tool prints.'))
a(ex('C49_case','cli_case'))
a('''(** The laws used are those of exact rationals, of binary64 and of binary64 with fused multiply-add. *)
Theorem C46_arithmetic : NumLaws3 NumQ /\\ NumLaws3 NumF /\\ NumLaws3 NumFMA.
Proof. exact (conj NumQ_laws3 (conj NumF_laws3 NumFMA_laws3)). Qed.
Print Assumptions C46_arithmetic.
''')
write(7,'C18, C45 to C49: kept fields, plots, command line.','CoreProof DtwProof ApiThms Thm1 Thm3 Thm4 Thm10 Derived Examples Examples3 Warp WarpSpec Laws2 Plot PlotSpec Laws3 Thm19 Thm20 Examples5',I)
