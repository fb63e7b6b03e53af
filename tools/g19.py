import sys; sys.path.insert(0,'/verif/tools')
from gen import *
I=[]; a=I.append
a(thm('C68_weak_triangle','weak_triangle','C68: local costs that obey the triangle inequality: the distance of the outer pair is at most the two other\n    distances, each multiplied by the length of the series that does not take part in it.',fixed=True))
a(thm('C68_weak_triangle_series','weak_triangle_series','C68: three series compared sample by sample by a function that obeys the triangle inequality.',fixed=True))
a(thm('C68_windows_none','compose_none','C68: no window for the third call: any windows for the first two.',fixed=True))
a(thm('C68_windows_sakoe','compose_sakoe','C68: Sakoe-Chiba bands compose; their widths add.',fixed=True))
a(ex('C68_case_triangle','t_triangle')); a(ex('C68_case_not_metric','t_runs')); a(ex('C68_case_bands','t_runs_band')); a(ex('C68_case_series','t_series'))
write(19,'C68: the weak triangle inequality.','SeriesSpec Thm23 TriSpec Tri Tri2 Examples Examples7 Examples8 Examples17',I,pre='From Coq Require Import QArith Qcanon.\n')
