import sys; sys.path.insert(0,'/verif/tools')
from gen import *
I=[]; a=I.append
a(thm('C63_unit_named','unit_named','C63: predefined step patterns: multiplying all costs by a power of two multiplies the distances exactly and changes nothing else.',fixed=True))
a(thm('C63_unit','unit_any','C63: any step pattern of at most a million rows, series or matrix.',fixed=True))
a(ex('C63_case','unit_case'))
a(ex('C63_ten_differs','ten_differs','C63: multiplication by ten can change the alignment.',kw='Theorem'))
write(15,'C63.','IntSpec Exact FloatSpec ScaleSpec Thm33 Examples11 Examples13',I,pre='From Flocq Require Import BinarySingleNaN.\n')
