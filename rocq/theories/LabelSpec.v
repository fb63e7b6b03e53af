(** LabelSpec.v - specification vocabulary for the label positions of C50 (no proofs). *)
From Verif Require Import Base Num StepPattern Spec PrintSpec.
Import ListNotations.
Open Scope list_scope.
Open Scope nat_scope.

(** Consecutive points. *)
Fixpoint segments {A} (l : list A) : list (A * A) :=
  match l with
  | p :: ((q :: _) as l') => (p, q) :: segments l'
  | _ => []
  end.
(** [x] is the middle of -a and -b. *)
Definition halfway {N : Num} (x : N) (a b : nat) : Prop := eqb (add x x) (ofZ (- (Z.of_nat a + Z.of_nat b))) = true.
(** The label stands in the middle of the segment from [p] to [q], drawn at minus their coordinates. *)
Definition in_the_middle {N : Num} (label : string * (N * N)) (pq : (nat * nat) * (nat * nat)) : Prop :=
  halfway (fst (snd label)) (fst (fst pq)) (fst (snd pq)) /\ halfway (snd (snd label)) (snd (fst pq)) (snd (snd pq)).
