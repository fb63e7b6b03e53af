(** Examples16.v - an open-end call that meets the hypotheses of the theorems on the accuracy
    of the normalized distance. *)
From Coq Require Import ZifyBool ZifyNat Reals Lra Lia.
From Flocq Require Import Core BinarySingleNaN.
From Verif Require Import Base Num StepPattern Window Core Backtrack Dtw Spec Api Tables Vocab Terms
  NumF NumFLaws Laws2 ApiThms Derived Thm8 Thm10 Examples Exact Accuracy Accuracy2 Accuracy3 Examples6.
Open Scope string_scope.
Open Scope list_scope.
Open Scope nat_scope.

(** Costs in tenths, four reference samples. *)
Definition mTenths4 : mat (double false) :=
  Mat 3 4 (map (fun z => div (@ofZ NumF z) (ofZ 10)) [1;3;7;9; 7;2;3;9; 8;7;3;9]%Z).
Lemma tenths4_fine : costs_fine mTenths4 /\ costs_not_tiny mTenths4.
Proof. apply cells_fine; [reflexivity|vm_compute; reflexivity]. Qed.

(** The alignment stops at the third of the four reference samples; 1.1/6 is computed with an error. *)
Lemma tenths4_run : succeeds (mTenths4 : mat NumF) (named "symmetric2" WTNone [] true false true false) "symmetric2" NoWindow
  (fun d => isfin (r_distance d) && align_is [0;1;2]%Z [0;1;2]%Z [1;1]%Z d && (r_jmin d =? 2)%nat &&
     negb (eqb (r_normalizedDistance d) (div (ofZ 11) (ofZ 60)))).
Proof. ex_ok NumF_laws. Qed.
