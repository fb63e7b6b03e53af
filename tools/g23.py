import sys; sys.path.insert(0,'/verif/tools')
from gen import *
I=[]; a=I.append
a(thm('C75_first','returned_first','C75: the returned alignment is cheapest throughout, and read from its end it takes the lower numbered production wherever\n    another alignment that is cheapest throughout parts from it.'))
a(thm('C75_first_exact','returned_first_exact','C75, exact arithmetic: the same against every alignment of the same cost.',fixed=True))
a(ex('C75_case','tie21'))
a(thm('C76_identity','identity_alignment','C76: zero costs on the diagonal, and the first production is the diagonal step: the identity is returned.'))
a(thm('C76_identity_named','identity_alignment_named','C76: for the predefined step patterns whose first production is the diagonal step.'))
a(thm('C76_identity_mvm','identity_alignment_mvm','C76: for minimum variance matching.'))
a(ex('C76_case','self21'))
write(23,'C75, C76: which alignment is returned.','TieSpec Tie Examples Examples7 Examples21',I)
