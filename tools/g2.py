import sys; sys.path.insert(0,'/verif/tools')
from gen import *
I=[]
a=I.append
a(ex('C09_inner_point_outside_window','inner_rejected','C09: the window does not constrain every point of the alignment.  With typeIIIc and a Sakoe-Chiba\n    band of width 0 the returned index1/index2 contain a point off the diagonal (an intermediate point).',kw='Theorem'))
a(ex('C09_first_point_outside_window','first_rejected','C09: the first point (0,0) is not checked: the Itakura window rejects it in every problem.',kw='Theorem'))
a("Print Assumptions C09_inner_point_outside_window.\nPrint Assumptions C09_first_point_outside_window.\n")
a(thm('C10_sakoe_chiba_points','sakoe_points','C10: every point of index1s/index2s lies in the band.'))
a(thm('C10_sakoe_chiba_too_narrow','sakoe_too_narrow','C10: a band narrower than the difference of the lengths: always an error.'))
a(thm('C10_sakoe_chiba_wide','sakoe_wide','C10: a wide band is no window at all; the results differ in the recorded window only.'))
a(ex('C10_case','exSC')); a(ex('C10_case_narrow','exSCnarrow'))
a(thm('C11_itakura_corner','itakura_corner','C11: the sizes for which the Itakura window contains the final corner.'))
a(thm('C11_itakura_excluded','itakura_corner_excluded','C11: otherwise every closed-end call raises.'))
a(thm('C11_itakura_points','itakura_points','C11: the inequalities satisfied by every point of index1s/index2s but the first.'))
a(thm('C11_slanted_corner','slanted_corner','C11: the slanted band contains the final corner only if |M/N - 1| <= window_size (exact arithmetic).',fixed=True))
a(thm('C11_slanted_excluded','slanted_corner_excluded','C11: otherwise every closed-end call raises (exact arithmetic; then any arithmetic).',fixed=True))
a(thm('C11_slanted_excluded_any','slanted_corner_raises'))
a(thm('C11_slanted_2_5','slanted_2_5','C11: for instance every 2 x 5 problem with window_size 1 in binary64.',fixed=True))
a(ex('C11_case_itakura','exIta')); a(ex('C11_case_itakura_excluded','exItaLong')); a(ex('C11_case_slanted','exSlOk')); a(ex('C11_case_slanted_excluded','exSl'))
a(thm('C12_wider_window','relaxed_closed_end','C12: a window that admits more cells: still an alignment, and no larger distance.'))
a(thm('C12_wider_window_open_end','relaxed_open_end','C12: with open end the normalized distance is what is minimized.'))
a(ex('C12_case','exSC')); 
a(ex('C12_case_wider','sakoe_within_none','A Sakoe-Chiba band of width 1 lies within no window at all.'))
a(thm('C13_open_end_choice','open_end_choice','C13: jmin is the first end of least normalized cost among all ends that can be reached.'))
a(thm('C13_open_end_below_closed','open_end_below_closed','C13: opening the end never increases the normalized distance.'))
a(ex('C13_case','exE'))
a(thm('C14_open_begin_optimal','open_begin_optimal','C14: the distance is attained by the returned walk from some cell of the virtual row, and no walk\n    from any cell of that row is cheaper.'))
a(thm('C14_open_begin_found_iff','open_begin_found_iff'))
a(ex('C14_case','exOB'))
a(thm('C15_open_begin_needs_N','open_begin_needs_N','C15: normalization requirements.'))
a(thm('C15_open_end_needs_normalization','open_end_needs_norm',law=False))
a(thm('C15_open_end_needs_normalization_msg','open_end_needs_norm_msg'))
a(thm('C15_normalized_distance','normalization_rule'))
a(ex('C15_case','exMori')); a(ex('C15_case_NA','needs_norm_case')); a(ex('C15_case_begin','needs_N_case'))
a(thm('C16_asymmetric_starts_anywhere','asymmetric_starts_anywhere','C16: for every size and every reference index there is a matrix on which the open-begin alignment\n    with asymmetric matches exactly that index.'))
a(thm('C16_rigid_never_first','rigid_open_begin_short','C16: a rigid open-begin alignment never uses reference index 0 and needs a longer reference.'))
a(thm('C16_rigid_equal_lengths_raise','rigid_open_begin_raises'))
a(thm('C16_advancing_never_first','open_begin_never_first','C16: the same for every pattern whose productions all advance along the reference.'))
a(thm('C16_advancing_patterns','advancing_names_ok',law=None))
a(ex('C16_case_rigid','exRigid')); a(ex('C16_case_rigid_raises','exRigidLong'))
a(thm('C17_distance_only','distance_only_same','C17: distance_only only removes the alignment.'))
a(thm('C17_distance_only_open_begin','distance_only_open_begin','C17: with open begin it raises AttributeError whenever the call without it succeeds.',law=None))
a(thm('C17_distance_only_open_begin_never','distance_only_open_begin_never',law=None))
a(ex('C17_case','exDonly')); a(ex('C17_case_open_begin','exOB'))
a(thm('C18_keep_internals','keep_internals_only_keeps','C18: keep_internals only adds the matrices and the series (shapes: C06).',law=None))
a(ex('C18_case','exB'))
write(2,'C09 to C18: windows, open ends, normalization, options.','ApiThms Thm1 Thm3 Thm4 Thm8 Thm10 Thm11 Derived Examples Examples2 Thm13',I)
