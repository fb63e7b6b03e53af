import sys; sys.path.insert(0,'/verif/tools')
from gen import *
I=[]; a=I.append
a(thm('C55_mask','window_mask','C55: for patterns that charge only the cell they enter, a window is the same as missing local costs outside it:\n    same distance, alignment, matrices or exception.'))
a(thm('C55_patterns','end_point_predefined')); a(thm('C55_patterns_mvm','end_point_mvm'))
a(ex('C55_case','mask_case'))
a(ex('C55_inner_points_differ','mask_inner_differs','C55: patterns with inner points are not of this kind.',kw='Theorem'))
a(thm('C56_prefix','open_end_is_prefix','C56: an open-end result is the closed-end result for the reference cut after the matched part, and that\n    cut is the first one with the least normalized distance.'))
a(ex('C56_case','prefix_case'))
a(thm('C57_passes','result_passes_through','C57: cut at any of its breakpoints, the returned alignment is the one returned for the cut series.'))
a(ex('C57_case','passes_case'))
a(thm('C58_longer','longer_reference','C58: with open_end, a longer reference can only lower the normalized distance.'))
a(ex('C58_case','longer_case'))
a(thm('C59_delannoy','count_delannoy','C59: without window, countPaths returns a Delannoy number for the symmetric patterns ...'))
a(thm('C59_trinomial','count_trinomial','C59: ... and a trinomial coefficient for asymmetric.'))
a(ex('C59_case','count_case'))
a(thm('C60_suffix','open_begin_is_suffix','C60: with asymmetric, open_begin finds the best place to cut the beginning off the reference\n    (exact arithmetic).',fixed=True))
a(ex('C60_case','suffix_case'))
write(11,'C55 to C60: masks, cut series, closed forms of countPaths.','CountPaths CountSpec CoreProof DtwProof ApiThms Thm1 Thm5 Thm10 Thm11 Thm13 CountEx Derived Examples Examples3 Examples7 Examples8 SeriesSpec PathSpec Thm23 Thm26 Thm27 Thm28 Thm29 Examples9',I,pre='From Coq Require Import QArith Qcanon.\n')
