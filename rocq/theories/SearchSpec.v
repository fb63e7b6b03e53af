(** SearchSpec.v - specification vocabulary for C83 (no proofs). *)
From Verif Require Import Base Num StepPattern Window Spec.
Open Scope list_scope.
Open Scope nat_scope.

Section SearchSpec.
Context {N : Num}.
(** The query laid over the reference with its first sample on reference sample [s]: the local costs added up from the left. *)
Definition overlay (lm : mat N) (s : nat) : N :=
  fold_left (fun c i => macc c (ofZ 1) (cell lm i (s + i))) (seq 0 (nr lm)) (ofZ 0).
(** [s] is a place dtw() considers: not the very first sample, the query fits, and all its points are in the window
    (which is asked with the query index plus one, because of the row put before the query). *)
Definition place (lm : mat N) (w : winfun N) (kw : kwargs N) (s : nat) : Prop :=
  1 <= s /\ s + nr lm <= nc lm /\ forall i, i < nr lm -> in_window w kw (nr lm + 1) (nc lm) (i + 1) (s + i).
(** The query occurs at reference sample [s]. *)
Definition occurs (lm : mat N) (s : nat) : Prop :=
  s + nr lm <= nc lm /\ forall i, i < nr lm -> eqb (cell lm i (s + i)) (ofZ 0) = true.
(** A production that takes one query sample and charges only the cell it enters. *)
Definition one_sample (r : rule N) : Prop :=
  r_di r = 1 /\ forall a, In a (r_add r) -> fst a = (0, 0) /\ isfin (snd a) = true.
(** With productions [rules] an open-begin alignment may start on reference sample [s]. *)
Definition may_start (rules : list (rule N)) (s : nat) : Prop :=
  exists r, In r rules /\ one_sample r /\ r_dj r <= s.
(** ... and may go on diagonally. *)
Definition may_advance (rules : list (rule N)) : Prop :=
  exists r, In r rules /\ one_sample r /\ r_dj r = 1.
End SearchSpec.
