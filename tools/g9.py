import sys; sys.path.insert(0,'/verif/tools')
from gen import *
I=[]
def a(s):
    s=s.replace('(fun N L fmt => @str_pattern_text N L fmt)','(fun N L fmt => @str_pattern_text N fmt L)').replace('(fun N L fmt => @str_pattern_inj N L fmt fmt_d)','(fun N L fmt fmt_d => @str_pattern_inj N fmt fmt_d L)')
    I.append(s)
P=dict(pre='(fmt : N -> string)',args='fmt')
a(thm('C50_text','str_pattern_text','C50: print(step_pattern) writes exactly the productions, in order, and the normalization hint.',**P))
a(thm('C50_text_injective','str_pattern_inj','C50: two patterns that print alike have the same productions and hint, up to weights that are formatted\n    alike (weights are formatted to two significant digits).',pre='(fmt : N -> string) (fmt_d : forall w : N, lacks "d"%char (fmt w) = true)',args='fmt fmt_d'))
a(thm('C50_plot','plot_pattern_shapes','C50: step_pattern.plot() draws one curve per production, through its points, labelled with its weights.'))
a(ex('C50_case_symmetric2','symmetric2_text')); a(ex('C50_case_symmetricP1','symmetricP1_text')); a(ex('C50_case_repr','repr_text'))
a(thm('C51_distance','plus_constant','C51: raising every local cost by c (exact arithmetic): same alignment, distance raised by c times the\n    total weight of the pattern normalization.',fixed=True))
a(thm('C51_normalized','plus_constant_N','C51: for hint N the normalized distance is raised by c.',fixed=True))
a(thm('C51_failures','plus_constant_fails','C51: the same calls fail.',fixed=True))
a(ex('C51_case_symmetric1','shift_symmetric1')); a(ex('C51_case_symmetric2','shift_symmetric2')); a(ex('C51_case_open','shift_asymmetric'))
write(9,'C50, C51: printed patterns; shifted costs.','CoreProof DtwProof ApiThms Thm1 Thm10 Thm11 Derived Examples Print PrintSpec Thm21 Thm22 Examples7',I,pre='From Coq Require Import Ascii QArith Qcanon.\n')
