(** StableSpec.v - local costs known up to an error (specification). *)
From Coq Require Import QArith Qcanon.
From Verif Require Import Base Num NumQ NumQLaws StepPattern Window Core Backtrack Dtw Spec Api Tables Vocab Terms.

(** Two local costs that differ by at most [e]; missing and forbidden cells agree. *)
Definition near (e : Qc) (v v' : NumQ) : Prop :=
  match v, v' with
  | XFin a, XFin b => (a <= b + e /\ b <= a + e)%Qc
  | XNan, XNan | XPInf, XPInf => True
  | _, _ => False
  end.
(** Two matrices of local costs that differ by at most [e] everywhere. *)
Definition perturbed (e : Qc) (lm lm' : mat NumQ) : Prop :=
  nr lm' = nr lm /\ nc lm' = nc lm /\
  forall i j, (i < nr lm)%nat -> (j < nc lm)%nat -> near e (cell lm i j) (cell lm' i j).
(** Two numbers that differ by at most [b] (or both infinite). *)
Definition differ_at_most (b u v : NumQ) : Prop :=
  leb u (add v b) = true /\ leb v (add u b) = true.
