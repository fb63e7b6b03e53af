import sys; sys.path.insert(0,'/verif/tools')
from gen import *
I=[]; a=I.append
a(thm('C73_needed','window_args_needed','C73: a call with a window other than "none" only returns if window_args are what the window takes.'))
a(thm('C73_rejected','window_args_rejected','C73: otherwise it raises TypeError (once the local costs and the step pattern are accepted).'))
a(thm('C73_unknown_window','unknown_window_type_error','C73: an unknown window name raises TypeError.'))
a(thm('C73_unknown_pattern','unknown_pattern_attribute_error','C73: an unknown step pattern name raises AttributeError.'))
a(thm('C73_ignored','window_args_ignored','C73: without a window the window_args are ignored, whatever they are.'))
a(ex('C73_case','args20'))
a(thm('C74_closed_end','looser_closed_end','C74: if every production has a counterpart with the same displacement that charges less (any window), or can be cut\n    into productions that together charge less (no window), the other step pattern finds an alignment too and its\n    distance is not larger.',pre='(M : modelled N)',args='M'))
a(thm('C74_open_end','looser_open_end','C74, open end: the same for the normalized distance of step patterns with the same normalization.',pre='(M : modelled N)',args='M'))
a(thm('C74_named','looser_named','C74: the listed comparisons of predefined step patterns.',pre='(M : modelled N)',args='M'))
a(thm('C74_mvm','looser_mvm','C74: a more elastic minimum variance matching never has a larger distance.',pre='(M : modelled N)',args='M'))
a(ex('C74_case_slopes','slopes20')); a(ex('C74_case_nonneg','l20_nonneg')); a(ex('C74_window_matters','window20'))
write(22,'C73, C74: arguments of windows; comparison of step patterns.','ArgSpec Thm34 PatSpec SeriesSpec Looser Examples Examples7 Examples20',I)
