(** TieSpec.v - which of several equally cheap alignments is returned (vocabulary for C75).

    [W ks vs ts q c] stands for a kind of alignment: the productions [ks] lead through the
    cells [vs] to the cell [q] at the cost [c] (see [admissible] in Api.v). *)
From Verif Require Import Base Num StepPattern Backtrack Spec.
Open Scope list_scope.
Open Scope nat_scope.

Section TieSpec.
Context {N : Num}.
Variable W : list nat -> list point -> list point -> point -> N -> Prop.

(** [c] is the cost of the alignment [ks] to [q], and no alignment to [q] costs less. *)
Definition least_at (ks : list nat) (q : point) (c : N) : Prop :=
  usable ks c /\ forall ks' vs' ts' c', W ks' vs' ts' q c' -> usable ks' c' -> leb c c' = true.

(** Wherever the alignment is cut, its first part is one of the cheapest ways to get to
    the cell where it was cut. *)
Definition least_throughout (ks : list nat) (vs : list point) : Prop :=
  forall k1 k2 v1 v2 t1 q c, ks = k1 ++ k2 -> vs = v1 ++ v2 -> W k1 v1 t1 q c -> least_at k1 q c.
End TieSpec.

(** Read from their ends, the two alignments take the same productions until [ks] takes one
    that stands before the one [ks'] takes in the step pattern (or they do not differ). *)
Definition parts_with_lower (ks ks' : list nat) : Prop :=
  ks = ks' \/ exists u a u' b common, ks = u ++ a :: common /\ ks' = u' ++ b :: common /\ a < b.

(** The predefined step patterns whose first production is the diagonal step. *)
Definition diagonal_first : list string :=
  ["symmetric1"; "symmetric2"; "symmetricP0"; "typeIIa"; "typeIIb"; "typeIIc"; "typeIId"; "typeIVc"; "rigid"]%string.

(** The alignment that matches the first sample with the first, the second with the second, ... *)
Definition identity_map (n : nat) : mapping :=
  let l := map Z.of_nat (seq 0 n) in Mapping l l l l (repeat 1%Z (n - 1)).
