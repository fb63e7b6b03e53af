(** JoinSpec.v - series joined end to end (specification for C66). *)
From Verif Require Import Base Num StepPattern Window Core Backtrack Dtw Spec Api Tables Vocab Terms.
Open Scope string_scope.
Open Scope list_scope.
Open Scope nat_scope.

(** Local costs of query1 ++ query2 against reference1 ++ reference2: those of the first parts in the first
    block of the diagonal, those of the second parts in the second; the other two blocks are arbitrary. *)
Definition joined {N : Num} (lm1 lm2 lm : mat N) : Prop :=
  nr lm = nr lm1 + nr lm2 /\ nc lm = nc lm1 + nc lm2 /\
  (forall i j, i < nr lm1 -> j < nc lm1 -> cell lm i j = cell lm1 i j) /\
  (forall i j, i < nr lm2 -> j < nc lm2 -> cell lm (nr lm1 + i) (nc lm1 + j) = cell lm2 i j).

(** What the predefined patterns charge for a diagonal step: the local cost this many times. *)
Definition diagonal_weight (k : string) : Z :=
  if existsb (String.eqb k) ["symmetric2"; "symmetricP0"; "symmetricP05"; "symmetricP1"; "symmetricP2"; "typeId"; "typeIds"; "typeIId"]
  then 2 else if String.eqb k "mori2006" then 3 else 1.
