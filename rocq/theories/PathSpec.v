(** PathSpec.v - two classical tables of numbers (no proofs). *)
From Coq Require Import ZArith.
Open Scope nat_scope.

(** Delannoy numbers: ways from (0,0) to (i,j) by unit steps right, up and diagonally *)
Fixpoint delannoy (i : nat) : nat -> nat :=
  match i with
  | 0 => fun _ => 1
  | S i' => fix row (j : nat) : nat :=
      match j with
      | 0 => 1
      | S j' => delannoy i' j' + delannoy i' j + row j'
      end
  end.

(** Trinomial coefficients: the coefficient of x^k in (1 + x + x^2)^n, that is, the number of
    ways to write k as an ordered sum of n numbers out of 0, 1, 2 *)
Fixpoint trinomial (n k : nat) : nat :=
  match n with
  | 0 => match k with 0 => 1 | _ => 0 end
  | S n' => trinomial n' k + (match k with 0 => 0 | S k' => trinomial n' k' end)
            + (match k with S (S k') => trinomial n' k' | _ => 0 end)
  end.
