(** SelfSpec.v - specification vocabulary for C81 (no proofs). *)
From Verif Require Import Base.
Open Scope nat_scope.

(** 1 + 2 + ... + n *)
Fixpoint triangle (n : nat) : nat := match n with O => 0 | S n' => n + triangle n' end.
(** The total of (d+1)*1 ... : the products (d+k)*k for k = 2 .. a+1. *)
Fixpoint diagonal (d a : nat) : nat := match a with O => 0 | S a' => (d + a + 1) * (a + 1) + diagonal d a' end.

(** From the corner (1,1) of a multiplication table, straight along its border and then diagonally to row i+1, column j+1:
    the sum of the entries passed. *)
Definition border_then_diagonal (i j : nat) : nat :=
  triangle (Nat.max i j - Nat.min i j + 1) + diagonal (Nat.max i j - Nat.min i j) (Nat.min i j).
(** Production 1 comes from the row above, 2 from the diagonal, 3 from the column before; the start has none (INT_MIN). *)
Definition test_direction (i j : nat) : Z :=
  match i, j with
  | O, O => INT_MIN
  | S _, O => 1
  | O, S _ => 3
  | S _, S _ => 2
  end%Z.
