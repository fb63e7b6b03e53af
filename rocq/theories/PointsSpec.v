(** PointsSpec.v - specification vocabulary for C84 (no proofs). *)
From Verif Require Import Base Num StepPattern Spec.
Open Scope list_scope.
Open Scope nat_scope.

Section PointsSpec.
Context {N : Num}.
(** From offset (di, dj) through the listed offsets to (0, 0): every point differs from the one before.
    (Points listed at (0, 0) are the end point itself.) *)
Fixpoint keeps_moving (di dj : nat) (l : list (nat * nat * N)) : bool :=
  match l with
  | nil => negb ((di =? 0) && (dj =? 0))
  | (oi, oj, _) :: l' =>
      if (oi =? 0) && (oj =? 0) then keeps_moving di dj l'
      else negb ((oi =? di) && (oj =? dj)) && keeps_moving oi oj l'
  end.
(** No production lists a point twice. *)
Definition no_point_twice (rules : list (rule N)) : Prop :=
  forall r, In r rules -> keeps_moving (r_di r) (r_dj r) (r_add r) = true.
(** The points of an alignment. *)
Definition points (i1 i2 : list Z) : list (Z * Z) := combine i1 i2.
(** Each point is later than the one before, in one series at least. *)
Definition advances (i1 i2 : list Z) : Prop :=
  forall a b p q, a < b -> nth_error (points i1 i2) a = Some p -> nth_error (points i1 i2) b = Some q ->
    (fst p + snd p < fst q + snd q)%Z.
End PointsSpec.
