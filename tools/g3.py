import sys; sys.path.insert(0,'/verif/tools')
from gen import *
I=[]
a=I.append
a(thm('C19_total_weight','path_weight','C19: the weights along any admissible path, plus 1 for the first cell, add up to 1 + al*i + be*j,\n    where (al,be) is (1,0) for hint N and (1,1) for hint N+M (hint_law); exact arithmetic.',fixed=True))
a(thm('C19_distance_bounds','distance_bounds','C19: hence bounds of the distance by the extreme local costs.',fixed=True))
a(thm('C19_average_N','average_N','C19: for hint N the normalized distance lies between the least and the greatest local cost.',fixed=True))
a(thm('C19_constant_cost','constant_cost','C19: the distance for a constant local cost c: c*N for hint N, c*(N+M-1) for N+M (so the normalized\n    distance is not the average), c*(3M-2) for M (mori2006).',fixed=True))
a(ex('C19_case','exQ2')); a(ex('C19_case_N','exQa'))
a(thm('C20_transposed','transposed','C20: transposing costs, window and step pattern.'))
a(thm('C20_symmetric_patterns','symmetric_named','C20: the symmetric predefined patterns.'))
a(thm('C20_symmetric_general','symmetric_pattern','C20: any pattern closed under transposition, any symmetric window.'))
a(thm('C20_sakoe_chiba_symmetric','symmetric_sakoe'))
a(ex('C20_case','exA'))
a(ex('C20_names','symmetric_names_are'))
a(thm('C21_raised_costs','raised_closed_end','C21: lowering costs keeps success and does not increase the distance.'))
a(thm('C21_raised_costs_open_end','raised_open_end'))
a(ex('C21_case','raised_case'))
a(thm('C22_nonnegative','dtw_nonneg','C22: non-negative costs and weights.'))
a(thm('C22_nonnegative_named','nonneg_named'))
a(thm('C22_identity','dtw_identity','C22: zero diagonal.'))
a(thm('C22_identity_named','identity_named'))
a(ex('C22_negative_names','negative_names_are')); a(ex('C22_case','exSq'))
a(thm('C23_scaled','scaled_costs','C23: multiplying every local cost by c > 0 (exact arithmetic).',fixed=True))
a(ex('C23_case','exQa'))
a(thm('C24_one_per_query','one_per_query_named','C24: asymmetric and rigid match every query element exactly once.'))
a(thm('C24_one_per_query_mvm','one_per_query_mvm'))
a(ex('C24_names','one_per_query_are')); a(ex('C24_case','exAsym'))
a(thm('C25_limits_respected','limits_respected','C25: the table slope_limits gives for each pattern the least and greatest slope; the alignment keeps\n    them.'))
a(thm('C25_limits_exceeded','limits_exceeded','C25: outside the limits every closed call raises.'))
a(thm('C25_limits_sufficient_exact','limits_sufficient_exact','C25: the limits are sufficient, for every pattern: finite costs in exact arithmetic, costs up to\n    2^960 in binary64.',fixed=True))
a(thm('C25_limits_sufficient_binary64','limits_sufficient_binary64',fixed=True))
a(thm('C25_limits_sufficient_fma','limits_sufficient_fma',fixed=True))
a(thm('C25_unlimited_exact','unlimited_exact','C25: the other patterns align series of any lengths.',fixed=True))
a(thm('C25_unlimited_binary64','unlimited_binary64',fixed=True))
a(thm('C25_unlimited_fma','unlimited_fma',fixed=True))
a(thm('C25_every_pattern','limits_cover',fixed=True)); a(ex('C25_unlimited_names','unlimited_are'))
 
a(ex('C25_table','slope_limits_are')); a(ex('C25_case','exB'))
a(thm('C26_symmetric1_textbook','symmetric1_optimum','C26: the textbook definition (Textbook.v); symmetric1 counts diagonal steps once, symmetric2 twice.'))
a(thm('C26_symmetric2_textbook','symmetric2_optimum'))
a(thm('C26_always_found_binary64','unlimited_binary64','C26: a path always exists for costs up to 2^960 (names: C25_unlimited_names).',fixed=True))
a(thm('C26_always_found_fma','unlimited_fma',fixed=True))
a(thm('C26_always_found_exact','unlimited_exact',fixed=True))

a(ex('C26_case','exA')); a(ex('C26_case_symmetric1','exS1'))
a(thm('C27_mvm_alignment','mvm_alignment','C27: minimum variance matching.'))
a(thm('C27_mvm_limits','mvm_limits')); a(thm('C27_mvm_feasible_exact','mvm_feasible_exact',fixed=True)); a(thm('C27_mvm_feasible_binary64','mvm_feasible_binary64',fixed=True)); a(ex('C27_case','exMvm'))

write(3,'C19 to C27: normalization, symmetry, monotonicity, predefined patterns.','ApiThms Textbook Thm1 Thm3 Thm4 Thm6 Thm7 Bound BoundF Feas Thm8 Thm9 Thm10 Thm11 Thm12 Derived Derived2 Examples Examples2 Thm13',I,pre='From Coq Require Import Qcanon.\n')
