import sys; sys.path.insert(0,'/verif/tools')
from gen import *
I=[]; a=I.append
a(thm('C87_more_closed_end','more_closed_end','C87: a step pattern with more productions finds an alignment whenever one with fewer does, and its distance is not larger, whatever the costs and weights.'))
a(thm('C87_more_open_end','more_open_end','C87, open end: the same for the normalized distance.'))
a(thm('C87_same','same_rules','C87: the order in which productions are listed, and listing one twice, changes neither the distance nor the end of the alignment (the numbers in stepsTaken, and the choice among alignments of equal cost, do depend on it),'))
a(thm('C87_same_raise','same_rules_raise','C87: nor the exception.'))
a(thm('C87_any_order','any_order','C87: every order of the productions of a pattern gives a well-formed pattern.'))
a(ex('C87_case_backwards','backwards_ok'))
a(ex('C87_case_backwards_runs','backwards_runs'))
a(ex('C87_case_ties','backwards_ties'))
a(ex('C87_case_more','more32'))
write(32,'C87: the productions of a step pattern.','PatSpec SameRules Examples Examples32',I,pre='From Coq Require Import Permutation.\n')
