import sys; sys.path.insert(0,'/verif/tools')
from gen import *
I=[]
a=I.append
a(thm('C37_no_fault','always_returns','C37: for every well-formed pattern, whatever the costs, window and options, a call whose matrix of\n    cumulative costs has at most 2^31-1 cells returns a value or raises a Python exception: [safe] excludes\n    every undefined behaviour of the C code (index out of the arrays, int overflow), process exit and fuel\n    exhaustion.  The hypotheses on cdist and on a user-supplied window say the same of those callables.'))
a(thm('C37_outcome','well_posed_outcome','C37, C12: on well posed problems only three outcomes are possible.'))
a(thm('C37_bad_id_exits','bad_id_exits','C37: a pattern id that is not between 1 and the number of rows terminates the process.'))
a(thm('C37_oversized','oversized_overflows','C37: the size limit is sharp: with more cells than INT_MAX the core computes an overflowing int.'))
a(ex('C37_negative_step','negative_step_ub','C37: a negative displacement: undefined behaviour.',kw='Theorem'))
a(ex('C37_descending_ids','descending_ids_ub','C37: non-ascending ids: undefined behaviour.',kw='Theorem'))
a(ex('C37_zero_id','zero_id_exit',kw='Theorem'))
a(ex('C37_case_bad_id','bad_id_case'))
a(ex('C37_case','two_series'))
a(ex('C37_case_cdist','city_ok'))
a(thm('C38_terminates','backtrack_steps','C38: the backtracking loop takes at most (rows - 1) + jmin steps.  (That it always terminates is part of\n    C37_no_fault: [safe] excludes fuel exhaustion.)'))
a(ex('C38_case','two_series'))
a(thm('C39_convention','steps_follow_table','C39: each step taken moves along the query by the second and along the reference by the third column\n    of the starting row of the production it names.'))
a(ex('C39_case','convention_case'))
a(thm('C40_two_arguments','two_arguments','C40.'))
a(thm('C40_too_many_dimensions','too_many_dimensions'))
a(thm('C40_not_a_matrix','not_a_matrix'))
a(ex('C40_case','two_series')); a(ex('C40_case_costs','two_series_costs'))
a(thm('C41_never','wrong_layout_never','C41.'))
a(thm('C41_message','wrong_layout_msg'))
a(ex('C41_case','wrong_layout_case'))
a(thm('C42_obstacles','obstacles_closed','C42: no charged cell is NaN or +infinity.'))
a(ex('C42_case','obstacle_case'))
a(thm('C43_window_by_name','window_by_name','C43.'))
a(thm('C43_window_omitted','window_omitted'))
a(thm('C43_pattern_by_name','pattern_by_name'))
a(thm('C43_unknown_window','unknown_window'))
a(thm('C43_unknown_pattern','unknown_pattern'))
a(ex('C43_case','convention_case'))
write(5,'C37 to C43: native core, calling conventions, names.','ApiThms CoreProof DtwProof Thm1 Thm3 Thm4 Thm5 Thm8 Thm10 Derived Thm14 Thm15 Examples Examples3',I,pre='')
