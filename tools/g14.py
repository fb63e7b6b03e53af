import sys; sys.path.insert(0,'/verif/tools')
from gen import *
I=[]; a=I.append
a(thm('C62_fused_same_named','fused_same_named','C62: predefined patterns with weights 0, 1, 2: contraction of multiply-add changes no bit of the result.',fixed=True))
a(thm('C62_fused_same','fused_same','C62: any pattern with weights 0, 1, 2.',fixed=True))
a(thm('C62_fused_series','fused_series','C62: two series.',fixed=True))
a(ex('C62_case','fused_case'))
a(ex('C62_thirds_differ','thirds_differ','C62: not so with weights 1/3.',kw='Theorem'))
write(14,'C62.','IntSpec Exact FloatSpec Thm32 Examples11 Examples12',I,pre='From Flocq Require Import BinarySingleNaN.\n')
