import sys; sys.path.insert(0,'/verif/tools')
from gen import *
I=[]; a=I.append
a(thm('C01_every_path','optimal_every_path','C01: the distance is at most the cost of every admissible path, also of one of infinite cost.'))
a(ex('C01_case_infinite','infinite_path_case'))
a(thm('C05_steps_follow_table_open_begin','steps_follow_table_open','C05: with open begin, too; the first step leaves the virtual row before the query.'))
a(thm('C05_refined','alignment_closed','C05: index1/index2 pass through the intermediate points of every production and then its end point ([replay]),\n    index1s/index2s through the end points only ([replay_ends]).'))
a(thm('C05_refined_open_begin','alignment_open','C05: with open begin.'))
a(ex('C05_case_open_begin','area_open_case'))
a(thm('C10_sakoe_chiba_points_open_begin','sakoe_points_open','C10: with open begin the band is measured from the query with one virtual sample in front of it.'))
a(ex('C10_case_open_begin','band_open_case'))
a(thm('C13_last_row','open_end_matrix','C13: jmin in terms of the last row of the cumulative cost matrix.'))
a(ex('C13_case_last_row','last_row_case'))
a(thm('C22_nonnegative_matrix','matrix_nonneg','C22: no entry of the cumulative cost matrix is negative.'))
a(ex('C22_case_matrix','last_row_case'))
a(thm('C36_open_begin','area_open','C36: with open begin warpArea needs query sample 0 to be matched.'))
a(ex('C36_case_open_begin','area_open_case'))
a(thm('C39_convention_open_begin','steps_follow_table_open','C39: with open begin.'))
a(thm('C42_obstacles_open_begin','obstacles_open','C42: with open begin (offsets beyond the first query sample lie in the virtual row).'))
a(ex('C42_case_open_begin','obstacle_open_case'))
write(12,'further forms of C01, C05, C10, C13, C22, C36, C39 and C42.','CoreProof DtwProof ApiThms Thm1 Thm3 Thm8 Thm10 Derived Warp WarpSpec Laws2 Examples Examples3 Examples9 Thm19 Thm30 Examples10',I)
