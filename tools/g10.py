import sys; sys.path.insert(0,'/verif/tools')
from gen import *
I=[]; a=I.append
a(thm('C52_closed','reversed_closed','C52: for patterns that charge each cell they enter with weight one, aligning both series backwards gives\n    the same distance and normalized distance (exact arithmetic).',fixed=True))
a(thm('C52_closed_failures','reversed_fails','C52: ... and the same calls fail.',fixed=True))
a(thm('C52_open','reversed_open','C52: for asymmetric-like patterns, open_begin backwards is open_end forwards and conversely.',fixed=True))
a(thm('C52_series','backwards_costs','C52: reading both series backwards turns the local cost matrix around.'))
a(thm('C52_costs','rot_cell','C52: the local cost matrix turned around.'))
a(thm('C52_patterns','unit_predefined','C52: predefined patterns of this kind.',fixed=True))
a(thm('C52_patterns_mvm','unit_mvm',fixed=True))
a(thm('C52_patterns_open','strides_asymmetric',fixed=True))
a(thm('C52_no_window','reversible_none'))
a(thm('C52_sakoe_chiba','reversible_sakoe'))
a(ex('C52_case_symmetric1','rev_symmetric1'))
a(ex('C52_symmetric2_differs','rev_symmetric2_differs','C52: symmetric2 is not of this kind, and its distance does change.',kw='Theorem'))
a(ex('C52_case_open','rev_open')); a(ex('C52_case_series','series_backwards')); a(ex('C52_case_cdist','cdist_of_entrywise'))
a(thm('C53_zero','zero_distance','C53: when labels (sample values) are equal exactly where the local cost is zero, the distance is zero exactly\n    when both series are the same series with samples repeated.',fixed=True))
a(ex('C53_case_zero','zero_case')); a(ex('C53_case_labels','zero_labels')); a(ex('C53_case_nonzero','nonzero_case'))
a(thm('C54_lower','row_lower_bound','C54: the sum over query samples of any lower bound of the costs inside the window is a lower bound of the\n    distance, as computed in floating point.',fixed=True))
a(thm('C54_upper','lock_upper_bound','C54: the cost of the lock-step alignment is an upper bound.'))
a(thm('C54_lower_patterns','row_by_row_predefined')); a(thm('C54_lower_mvm','row_by_row_mvm')); a(thm('C54_upper_patterns','lock_step_predefined'))
a(ex('C54_case','bounds_case'))
write(10,'C52, C53, C54: time reversal, zero distance, bounds.','CoreProof DtwProof ApiThms Thm1 Thm10 Thm11 Derived Examples Examples3 Examples7 SeriesSpec Thm23 Thm24 Thm25 Examples8',I,pre='From Coq Require Import QArith Qcanon.\n')
