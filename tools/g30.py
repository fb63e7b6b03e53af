import sys; sys.path.insert(0,'/verif/tools')
from gen import *
I=[]; a=I.append
a(thm('C50_labels','plot_labels','C50: in step_pattern.plot(), label k of a production stands in the middle of its k-th segment.'))
a(ex('C50_case_labels','labels29'))
a(ex('C50_case_segments','segments29'))
write(30,'C50: label positions of plotted step patterns.','SeriesSpec PatSpec Print PrintSpec Plot LabelSpec Labels Examples Examples7 Examples29',I)
