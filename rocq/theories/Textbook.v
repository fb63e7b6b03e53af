(** Textbook.v - the textbook definition of dynamic time warping (specification only).

    A warping path is a sequence of cells from (0,0) to (n-1,m-1) in which each cell is
    followed by its right, lower or lower-right neighbour.  Its cost is the local cost of
    the first cell plus the local costs of the others, diagonal steps counting [diag]
    times. *)
From Verif Require Import Base Num StepPattern Window Core Backtrack Dtw Spec Api Tables Vocab.
Open Scope list_scope.
Open Scope nat_scope.

Definition neighbour (p p' : point) : Prop :=
  p' = (fst p, S (snd p)) \/ p' = (S (fst p), snd p) \/ p' = (S (fst p), S (snd p)).

(** the cells [ps] continue the path from [p] and end in [q] *)
Fixpoint continues (p : point) (ps : list point) (q : point) : Prop :=
  match ps with
  | [] => p = q
  | p' :: ps' => neighbour p p' /\ continues p' ps' q
  end.

Definition warping_path (n m : nat) (path : list point) : Prop :=
  exists ps, path = (0, 0) :: ps /\ continues (0, 0) ps (n - 1, m - 1).

Section Cost.
Context {N : Num}.
Variable diag : Z.
Variable lm : mat N.

Definition step_count (p p' : point) : Z :=
  if (fst p <? fst p') && (snd p <? snd p') then diag else 1%Z.

Fixpoint cost_from (p : point) (c : N) (ps : list point) : N :=
  match ps with
  | [] => c
  | p' :: ps' => cost_from p' (macc c (ofZ (step_count p p')) (cell lm (fst p') (snd p'))) ps'
  end.

Definition path_cost (path : list point) : N :=
  match path with
  | [] => nan
  | p :: ps => cost_from p (cell lm (fst p) (snd p)) ps
  end.
End Cost.

(** The cells of an alignment. *)
Definition cells (mp : mapping) : list point :=
  combine (map Z.to_nat (index1 mp)) (map Z.to_nat (index2 mp)).

(** The call returned the textbook optimum; diagonal steps count [diag] times. *)
Definition textbook_optimum {N : Num} (diag : Z) (lm : mat N) (d : DTW N) : Prop :=
  exists mp, r_map d = Some mp /\
    warping_path (nr lm) (nc lm) (cells mp) /\ path_cost diag lm (cells mp) = r_distance d /\
    List.length (index1 mp) = List.length (cells mp) /\
    List.length (index2 mp) = List.length (cells mp) /\
    Nat.max (nr lm) (nc lm) <= List.length (cells mp) <= nr lm + nc lm - 1 /\
    (forall i, i < nr lm -> In (Z.of_nat i) (index1 mp)) /\
    (forall j, j < nc lm -> In (Z.of_nat j) (index2 mp)) /\
    forall path, warping_path (nr lm) (nc lm) path -> isnan (path_cost diag lm path) = false ->
      (1 < List.length path -> good (path_cost diag lm path)) ->
      leb (r_distance d) (path_cost diag lm path) = true.
