import sys; sys.path.insert(0,'/verif/tools')
from gen import *
I=[]; a=I.append
a(thm('C86_result','rows_reordered','C86: listing the rows of a step pattern in another order changes neither the result nor the exception.'))
a(thm('C86_text','rows_reordered_text','C86: nor the text of the pattern,'))
a(thm('C86_T','rows_reordered_T','C86: and the transposes are rearrangements of each other too.'))
a(thm('C86_count','rows_reordered_count','C86: nor the number of warping paths.'))
a(thm('C86_case_same','mixed_same','Concrete case: symmetricP1 with its rows mixed up.'))
a(thm('C86_case_rules','mixed_rules','Concrete case.'))
a(ex('C86_case_runs','mixed_runs'))
a(ex('C86_case_last','last_matters'))
write(31,'C86: the order of the rows of a step pattern.','Print CountPaths RowSpec Reorder Examples Examples31',I)
