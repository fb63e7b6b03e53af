import sys; sys.path.insert(0,'/verif/tools')
from gen import *
I=[]; a=I.append
a(thm('C83_search','gapless_search','C83: rigid, open begin and end: the query is laid over every place of the reference.'))
a(thm('C83_closed_end','gapless_closed_end','C83: rigid, open begin only: compared with the end of the reference.'))
a(thm('C83_found','occurrence_found','C83: an occurrence is found, any step pattern which may start there and advance.'))
a(thm('C83_found_named','occurrence_named','C83: asymmetric and rigid.'))
a(thm('C83_found_mvm','occurrence_mvm','C83: mvmStepPattern(e).'))
a(thm('C83_zero_occurs','gapless_zero','C83: conversely, a zero distance names an occurrence.',pre='(M : modelled N)',args='M'))
a(thm('C83_exact','occurrence_exact','C83: in exact arithmetic the distance of an occurrence is zero.',fixed=True))
a(ex('C83_case_search','search26'))
a(ex('C83_case_closed','closed26'))
a(ex('C83_case_start','occurs26'))
a(ex('C83_case_found','found26'))
write(27,'C83: finding the query in the reference.','SeriesSpec SearchSpec Search Examples Examples2 Examples26',I)
