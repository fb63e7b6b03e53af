import sys; sys.path.insert(0,'/verif/tools')
from gen import *
I=[]; a=I.append
a(thm('C84_length','alignment_length','C84: any step pattern that lists no point twice.'))
a(thm('C84_length_named','alignment_length_named','C84: every predefined step pattern.'))
a(thm('C84_length_mvm','alignment_length_mvm','C84: mvmStepPattern(e).'))
a(thm('C84_all_matched','all_matched','C84: step patterns whose productions leave out no sample.'))
a(thm('C84_all_matched_named','all_matched_named','C84: the predefined step patterns.'))
a(ex('C84_case_longest','longest27'))
a(ex('C84_case_shortest','shortest27'))
a(ex('C84_case_skips','skips27'))
a(ex('C84_case_mvm','mvm27'))
write(28,'C84: the number of points of an alignment.','WarpSpec SeriesSpec PointsSpec Points Examples Examples2 Examples27',I)
