import sys; sys.path.insert(0,'/verif/tools')
from gen import *
I=[]; a=I.append
a(thm('C65_held_named','held_named','C65: series with held samples are at least as far apart as the original series: symmetric1, symmetric2 (both series), asymmetric (reference).',fixed=True))
a(thm('C65_held','held_any','C65: any pattern whose steps can be shortened, any pair of windows that fit; exact and binary64 arithmetic.',fixed=True))
a(ex('C65_case','held_case'))
a(thm('C66_joined_named','joined_named','C66: aligning two pairs of series joined end to end costs at most the sum of the two distances, plus the extra weight of the diagonal step across the joint.',fixed=True))
a(thm('C66_joined','joined_distance','C66: any pattern with a diagonal production of weight w.',fixed=True))
a(ex('C66_case','joined_case'))
write(17,'C65 and C66.','SeriesSpec ZeroSum HoldSpec Hold JoinSpec Join Examples Examples7 Examples15',I,pre='From Coq Require Import QArith Qcanon.\n')
