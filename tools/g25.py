import sys; sys.path.insert(0,'/verif/tools')
from gen import *
I=[]; a=I.append
a(thm('C80_costs_irrelevant','count_costs','C80: the count does not depend on the costs.'))
a(thm('C80_more_admitted','count_more','C80: with a wider window or with more productions (of the same numbers) it does not decrease.'))
a(thm('C80_wider_band','count_wider_band','C80: a wider Sakoe-Chiba band.'))
a(thm('C80_larger_elasticity','count_mvm','C80: a larger elasticity of mvmStepPattern().'))
a(thm('C80_transposed','count_transposed','C80: the transposed problem has as many alignments.'))
a(ex('C80_case_costs','costs23'))
a(ex('C80_case_mvm','mvm23'))
a(ex('C80_case_transposed','transposed23'))
write(25,'C80: how the number of alignments changes with the problem.','CountPaths CountSpec Thm8 Thm10 Examples Examples2 CountEx Count3 Examples23',I)
