import sys; sys.path.insert(0,'/verif/tools')
from gen import *
I=[]
a=I.append
L2=dict(pre='(LL : NumLaws2 N)',args='LL')
a(thm('C34_means','warp_closed','C34: entry k is the mean, rounded down, of the source indices matched to k.  [warp_size_ok] bounds the\n    size so that the sums of indices are exact in binary64.'))
a(thm('C34_usable','warp_gapless','C34: without gaps the result is a non-decreasing vector of valid source indices.'))
a(thm('C34_named','warp_named','C34: the predefined patterns without gaps, by name.'))
a(thm('C34_single_valued','warp_function','C34: one match per query index: the image of each.'))
a(thm('C34_row_by_row','warp_row_by_row','C34: patterns that advance the query one by one, whatever the size and the begin mode.'))
a(thm('C34_open_begin','warp_open','C34: open begin.'))
a(thm('C34_needs_alignment','warp_needs_alignment','C34, C36: a distance_only result has no alignment to warp.'))
a(ex('C34_case','warp_ties_case')); a(ex('C34_case_names','gapless_case')); a(ex('C34_case_open','warp_open_case'))
a(ex('C34_case_distance_only','area_distonly_case'))
a(ex('C35_refuted','warp_gap_case','C35: a gap is not interpolated: the entry is the smallest 64-bit integer.  (C34_means says this of\n    every gap of every closed-begin alignment.)',kw='Theorem'))
a(thm('C36_sum','area_closed','C36: warpArea is the sum over query indices of the distance between the curve and the diagonal, each\n    term computed in the arithmetic at hand ([curve_value], [diagonal_value]).',**L2))
a(thm('C36_exact','area_exact','C36: in exact arithmetic, with the curve and the diagonal as rational functions.',fixed=True))
a(thm('C36_row_by_row','area_row_by_row','C36: single-valued alignments, open begin included.',**L2))
a(thm('C36_nonneg','area_nonneg','C36.',**L2))
a(thm('C36_identity','area_identity','C36: the identity alignment of equal lengths.',**L2))
a(ex('C36_case_identity','area_identity_case')); a(ex('C36_case','warp_ties_case')); a(ex('C36_case_gap','area_gap_case')); a(ex('C36_case_row','warp_gap_case'))
a('''(** The laws used are those of exact rationals, of binary64 and of binary64 with fused multiply-add. *)
Theorem C36_arithmetic : NumLaws2 NumQ /\\ NumLaws2 NumF /\\ NumLaws2 NumFMA.
Proof. exact (conj NumQ_laws2 (conj NumF_laws2 NumFMA_laws2)). Qed.
Print Assumptions C36_arithmetic.
''')
write(6,'C34 to C36: warp and warpArea.','CoreProof DtwProof ApiThms Thm1 Thm3 Thm10 Derived Examples Warp WarpSpec Laws2 Thm16 Thm17 Thm18 Examples4',I,pre='From Coq Require Import QArith Qcanon Qcabs.\n')
