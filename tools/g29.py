import sys; sys.path.insert(0,'/verif/tools')
from gen import *
I=['Open Scope Z_scope.']; a=I.append
a(thm('C85_value','printed_value','C85: the text is that of the nearest number with p significant digits, ties to even.',fixed=True))
a(thm('C85_special','printed_special','C85: NaN and infinities.',fixed=True))
a(thm('C85_close','printed_close','C85: relative error of at most half a unit of the last digit.',fixed=True))
a(thm('C85_order','printed_order','C85: printing never reverses an order.',fixed=True))
a(thm('C85_exact','printed_exact','C85: numbers with at most p significant digits are printed exactly.',fixed=True))
a(thm('C85_zero','printed_zero','C85: only zero is printed as zero.',fixed=True))
a(thm('C85_command_line','cli_text','C85: the output of the command line tool.',fixed=True))
a(thm('C85_patterns','pattern_text_digits','C85: step patterns that print alike.',fixed=True))
a(thm('C85_layout','printed_layout','C85: how the digits are laid out: positional notation between 0.0001 and 10^p, otherwise an exponent of at least two digits; no superfluous zeros.',fixed=True))
a(thm('C85_zero_text','printed_zero_text','C85: zeros.',fixed=True))
a(thm('C85_same','printed_same','C85: two numbers have the same text exactly if they round to the same number (and are zeros of the same sign).',fixed=True))
a(thm('C85_width','printed_width','C85: the width in printed step patterns.',fixed=True))
a(ex('C85_case_layouts','layouts30'))
a(ex('C85_case_width','width30'))
a(ex('C85_case_numbers','numbers28'))
a(ex('C85_case_reading','reading28'))
a(ex('C85_case_command_line','cli28'))
a(ex('C85_case_pattern','pattern28'))
write(29,'C85: printed numbers.','SeriesSpec PatSpec Print Plot Format FormatSpec FormatThm Format2 FormSpec FormThm Examples Examples3 Examples5 Examples7 Examples28 Examples30',I,pre='From Coq Require Import Reals.\nFrom Flocq Require Import Core BinarySingleNaN.\n')
