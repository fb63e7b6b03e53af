import sys; sys.path.insert(0,'/verif/tools')
from gen import *
I=[]; a=I.append
def t(name,lemma,comment):
    s=thm(name,lemma,comment,fixed=True,pre='(fused : bool)')
    a(s.replace('mat N)','mat (double fused))'))
t('C67_normalized','accuracy_normalized','C67: the normalized distance against the least exact cost to the same end column, divided exactly by\n    the length the hint names (2^-1075: underflow of the division).')
t('C67_open_end','accuracy_open_end','C67: open end: the normalized distance against the least exact normalized cost over all end columns.')
t('C67_open_end_exists','best_column_exists','C67: a column of least exact normalized cost exists.')
t('C67_end_column','accuracy_end_column','C67: open end: no end column has a noticeably smaller exact normalized cost than the reported one.')
a(ex('C67_case_costs','tenths4_fine')); a(ex('C67_case','tenths4_run'))
write(18,'C67: accuracy of the normalized distance.','CoreProof DtwProof ApiThms Thm1 Thm10 Derived Examples Exact LengthSpec Accuracy4 Examples6 Examples16',I,pre='From Coq Require Import Reals.\nFrom Flocq Require Import BinarySingleNaN.\n')
