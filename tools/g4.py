import sys; sys.path.insert(0,'/verif/tools')
from gen import *
I=[]
a=I.append
a(thm('C28_construction','rj_pattern','C28: the systematic construction of Rabiner and Juang: family t (RJ.family), slope weighting s,\n    smoothing m give the productions RJ.chain of the family, with the documented hint.'))
a(thm('C28_predefined','rj_predefined','C28: the predefined tables listed in rj_names have, up to numbering, the productions, weights and hint\n    of the construction.'))
a(ex('C28_names','rj_names_are'))
a(thm('C28_names_cover','rj_names_cover','C28: every predefined name is in the list, apart from six (rj_others).'))
a(ex('C28_others','rj_others_are'))
a(thm('C28_order_irrelevant','same_productions','C28: the numbering does not matter for the distance.'))
a(ex('C28_case','exA'))
a(thm('C29_builder','builder','C29: the table rows built from a chain of elementary steps: the start row has the total displacement\n    and marker -1, each later row the distance still to go (RJ.chain).'))
a(thm('C29_weight_sum','builder_weight_sum','C29: exact arithmetic: the weights sum to the total slope weighting, smoothed or not ...',fixed=True))
a(thm('C29_weight_totals','weighting_totals','... which is the total di for (c), di+dj for (d).',fixed=True))
a(thm('C29_unsupported_subtype','builder_unsupported','C29: unsupported subtypes.'))
a(thm('C29_unsupported_weighting','rj_bad_weighting'))
a(thm('C29_unsupported_type','rj_bad_type','C29: unsupported types raise TypeError (the code meant to raise ValueError "Invalid type").'))
a(ex('C29_case','builder_case'))
a(thm('C30_involution','T_involution','C30: transposition of step patterns.'))
a(thm('C30_rows','T_rows')); a(thm('C30_hints','T_hints'))
a(ex('C30_case','T_case'))
a(thm('C31_every_cell','count_cells','C31: every entry of the matrix of counts is the number of admitted production sequences.'))
a(thm('C31_closed','count_closed','C31: the count returned.'))
a(thm('C31_open_end','count_open_end'))
a(thm('C31_counts_fit','counts_fit_small','C31: the counts are exact for (number of productions + 1)^(N+M) <= 2^53.'))
a(thm('C31_named_patterns','named_no_marker','C31: the condition on the weights holds for every predefined pattern but one.'))
a(ex('C31_case','exCount')); a(ex('C31_case_open_end','exCountEnd')); a(ex('C31_case_window','exCountSC')); a(ex('C31_case_fit','fit_case'))
a(thm('C32_found_iff_exact','found_iff_count_exact','C32: an alignment is found if and only if the number of admitted paths is positive.',fixed=True))
a(thm('C32_found_iff_binary64','found_iff_count_binary64',fixed=True))
a(thm('C32_found_iff_fma','found_iff_count_fma',fixed=True))
a(thm('C32_count_positive','count_positive','C32: countPaths on the result of a successful closed call is positive.'))
a(ex('C32_case','exCount'))
a(thm('C33_window_args','count_no_window_args','C33: window_args without a window: dtw() ignores them, countPaths raises.'))
a(ex('C33_window_args_case','exArgs',kw='Theorem'))
a(thm('C33_weight_marker_exact','velichko_exact','C33: a weight that truncates to -1.',fixed=True))
a(thm('C33_weight_marker_binary64','velichko_binary64',fixed=True))
a(thm('C33_weight_marker_fma','velichko_fma',fixed=True))
a(ex('C33_weight_marker_case','exVel',kw='Theorem'))
a(thm('C33_open_begin','count_open_begin','C33: open begin: what is counted (counted_open) ...'))
a(ex('C33_open_begin_differs','open_mismatch','... is not the number of paths of the problem that was solved: 1 instead of 3 here.',kw='Theorem'))
a(ex('C33_open_begin_window','open_window_mismatch','... and may be 0 although dtw() found a path.',kw='Theorem'))
write(4,'C28 to C33: Rabiner-Juang construction, transposition of patterns, path counts.','ApiThms Thm1 Thm3 Thm7 Thm8 RJSpec RJ RJ2 CountPaths CountSpec CountProof CountThm CountThm2 CountEx Feas Bound BoundF Thm9 Thm11 Derived Derived2 Examples',I,pre='From Coq Require Import Qcanon Permutation.\n')
