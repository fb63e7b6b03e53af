import sys; sys.path.insert(0,'/verif/tools')
from gen import *
I=[]; a=I.append
a(thm('C64_distance','stable_closed','C64: local costs changed by at most e each change the distance by at most e times the weight of the normalization (closed end).',fixed=True))
a(thm('C64_normalized','stable_normalized','C64: and the normalized distance by at most e (3e for hint M), open ends included.',fixed=True))
a(ex('C64_case','stable_case'))
a(ex('C64_case_open','stable_case_open'))
write(16,'C64.','StableSpec Stable Examples Examples7 Examples14',I,pre='From Coq Require Import QArith Qcanon.\n')
