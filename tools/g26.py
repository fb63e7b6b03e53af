import sys; sys.path.insert(0,'/verif/tools')
from gen import *
I=[]; a=I.append
a(thm('C81_self_test','self_test_any','C81: the built-in check of the native core, every size.'))
a(thm('C81_empty','self_test_empty','C81: TS = 0.'))
a(ex('C81_case_five','self24'))
a(ex('C81_case_largest','largest24'))
a(thm('C82_factor_closed_end','factor_closed_end','C82: any two step patterns, closed end.',fixed=True,pre='(k : NumQ) (Kf : isfin k = true) (K1 : leb (ofZ 1) k = true)',args=''))
a(thm('C82_factor_open_end','factor_open_end','C82: open end, the normalized distances.',fixed=True,pre='(k : NumQ) (Kf : isfin k = true) (K1 : leb (ofZ 1) k = true)',args=''))
a(thm('C82_factor_named','factor_named','C82: the predefined step patterns, with the factors of [factor_table].',fixed=True))
a(thm('C82_factor_named_open','factor_named_open','C82: the predefined step patterns, open end.',fixed=True))
a(ex('C82_case_attained','attained25'))
a(ex('C82_case_below','below25'))
a(ex('C82_case_open','open25'))
write(26,'C81: the built-in check of the native core; C82: factors between the distances of step patterns.','SeriesSpec PatSpec SelfTest SelfSpec SelfThm FactorSpec Factor Examples Examples7 Examples24 Examples25',I)
