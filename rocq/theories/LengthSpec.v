(** LengthSpec.v - what the total cost is divided by to obtain the normalized distance
    (specification). *)
From Coq Require Import String Arith.
Open Scope string_scope.
Open Scope nat_scope.

(** For a query of [n] samples aligned with the first [j + 1] samples of the reference, under
    the normalization hint [h] of the step pattern (README: "N", "N+M", "M"). *)
Definition path_length (h : string) (n j : nat) : nat :=
  if String.eqb h "N+M" then n + (j + 1) else if String.eqb h "N" then n
  else if String.eqb h "M" then j + 1 else 1.
