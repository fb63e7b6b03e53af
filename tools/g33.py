import sys; sys.path.insert(0,'/verif/tools')
from gen import *
I=[]; a=I.append
a(thm('C88_sum','sum_of_costs','C88 (exact arithmetic): if the local costs are the sums of those of two other problems, both of these have an alignment, and the distance is at least the sum of their distances; with open end the same holds for normalized distances.',fixed=True))
a(thm('C88_sum_named','sum_of_costs_named','C88: the predefined step patterns.',fixed=True))
a(thm('C88_mixture','mixed_costs','C88: the distance is a concave function of the local costs: for costs p a + q b it is at least p times the distance for a plus q times that for b.',fixed=True))
a(ex('C88_case_summed','summed33'))
a(ex('C88_case_channels','channels33'))
a(ex('C88_case_same','same33'))
a(ex('C88_case_open','open33'))
a(ex('C88_case_mixture','mixed33'))
write(33,'C88: sums of local costs.','SumSpec Sum Mix Examples Examples7 Examples33',I,pre='From Coq Require Import QArith Qcanon.\n')
