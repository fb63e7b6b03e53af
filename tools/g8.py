import sys; sys.path.insert(0,'/verif/tools')
from gen import *
I=[]
a=I.append
F=dict(fixed=True,pre='(fused : bool)')
N='(double fused)'
def t(name,lemma,comment):
    s=thm(name,lemma,comment,**F)
    s=s.replace('mat N)','mat (double fused))')
    a(s)
a('''(** [double fused] is binary64 arithmetic, with separate or fused multiply-add. *)
Theorem C44_double : double false = NumF /\\ double true = NumFMA.
Proof. exact (conj double_F double_FMA). Qed.
Print Assumptions C44_double.
''')
t('C44_accuracy','accuracy','C44: patterns with weights 0, 1, 2: the distance against the least exact cost.')
t('C44_accuracy_fractions','accuracy_fractions','C44: every predefined pattern with non-negative weights, when no cost is between 0 and 2^-1020.')
t('C44_accuracy_open','accuracy_open','C44: open ends: against the best alignment to the same reference column.')
t('C44_accuracy_alignment','accuracy_alignment','C44: the exact cost R of the returned alignment: the distance is close to R, and R close to the least\n    exact cost E.')
a(ex('C44_case_costs','tenths_fine')); a(ex('C44_case','tenths_run')); a(ex('C44_case_fractions','tenths_run_fractions'))
write(8,'C44: accuracy in binary64.','CoreProof DtwProof ApiThms Thm1 Thm10 Derived Examples Exact Accuracy3 Examples6',I,pre='From Coq Require Import Reals.\nFrom Flocq Require Import BinarySingleNaN.\n')
