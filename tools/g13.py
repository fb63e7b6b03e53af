import sys; sys.path.insert(0,'/verif/tools')
from gen import *
I=[]; a=I.append
a(thm('C61_integers_exact_named','integers_exact_named','C61: integer costs, predefined patterns with whole weights: the same result in every arithmetic.',fixed=True))
a(thm('C61_integers_exact','integers_exact','C61: integer costs, any pattern with whole weights.',fixed=True))
a(thm('C61_integer_series','integer_series','C61: two series whose pairwise distances are integers.',fixed=True))
a(ex('C61_case_closed','int_closed_case'))
a(ex('C61_case_open','int_open_case'))
write(13,'C61.','Laws4 IntSpec Thm31 Examples Examples11',I)
