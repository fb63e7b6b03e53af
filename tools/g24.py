import sys; sys.path.insert(0,'/verif/tools')
from gen import *
I=[]; a=I.append
M=dict(pre='(M : modelled N)',args='M')
a(thm('C77_narrower_window','narrower_window','C77: a narrower window that still admits the returned alignment gives the same alignment and distances.'))
a(thm('C77_wide_enough_band','wide_enough_band','C77: in particular a Sakoe-Chiba band as wide as the alignment found without a window.'))
a(thm('C77_raised_elsewhere','raised_elsewhere','C77: larger local costs away from the returned alignment do not change it.'))
a(ex('C77_case','narrow22'))
a(thm('C78_earlier_rows','earlier_rows_m','C78: every accumulated cost is at least an accumulated cost in the h rows before (no step spans more than h query samples).',**M))
a(thm('C78_abandon','abandon_m','C78: h successive rows of accumulated costs above a bound put the distance above the bound.',**M))
a(thm('C78_abandon_named','abandon_named_m','C78: one row, for the step patterns that advance by at most one query sample.',**M))
a(thm('C78_along','costs_along_m','C78: along the returned alignment the accumulated costs never decrease, up to the distance.',**M))
a(thm('C78_along_named','costs_along_named_m','C78: for the predefined step patterns.',**M))
a(ex('C78_case','grow22'))
a(thm('C79_default_call','default_call','C79: what dtw(x, y) with no other arguments returns.'))
a(thm('C79_default_found','default_found_binary64','C79: it does not fail on finite costs (binary64).',fixed=True))
a(thm('C79_default_found_fma','default_found_fma','C79: the same with fused multiply-add.',fixed=True))
a(ex('C79_case','two_series'))
write(24,'C77-C79: off the alignment; accumulated costs never decrease; the default call.','SeriesSpec Thm8 ZeroSum SeriesSpec NarrowSpec Narrow Grow Examples Examples7 Examples8 Examples10 Examples22 Textbook Default Examples3',I)
