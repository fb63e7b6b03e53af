(** SumSpec.v - specification vocabulary for C88 (no proofs): a local cost matrix that is the sum of two. *)
From Coq Require Import QArith Qcanon.
From Verif Require Import Base Num NumQ StepPattern Spec.
Open Scope nat_scope.

(** A number, or a missing value. *)
Definition number_or_missing (v : NumQ) : Prop := isfin v = true \/ isnan v = true.
(** Costs in [lm] are the sums of those in [a] and [b] (missing where one of them is). *)
Definition summed (a b lm : mat NumQ) : Prop :=
  nr a = nr lm /\ nc a = nc lm /\ nr b = nr lm /\ nc b = nc lm /\
  forall i j, i < nr lm -> j < nc lm -> number_or_missing (cell a i j) /\ number_or_missing (cell b i j) /\ cell lm i j = add (cell a i j) (cell b i j).
(** Costs in [lm] are p times those in [a] plus q times those in [b]. *)
Definition mixed (p q : Qc) (a b lm : mat NumQ) : Prop :=
  nr a = nr lm /\ nc a = nc lm /\ nr b = nr lm /\ nc b = nc lm /\
  forall i j, i < nr lm -> j < nc lm -> number_or_missing (cell a i j) /\ number_or_missing (cell b i j) /\
    cell lm i j = add (mul (XFin p : NumQ) (cell a i j)) (mul (XFin q : NumQ) (cell b i j)).
