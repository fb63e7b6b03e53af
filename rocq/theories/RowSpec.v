(** RowSpec.v - specification vocabulary for C86 (no proofs): step pattern tables that list the same productions with
    their rows in another order. *)
From Coq Require Import Permutation.
From Verif Require Import Base Num StepPattern Window Core Backtrack Dtw.
Open Scope Z_scope.

Section S.
Context {N : Num}.
Definition rows_of_production (s : steppat N) (k : Z) : list (row N) := List.filter (fun r => eqb (c0 r) (ofZ k)) (mx s).
Definition last_number (s : steppat N) : option N := option_map c0 (List.nth_error (mx s) (List.length (mx s) - 1)).
(** The same rows, those of each production in the same order, the last row of the table being of the same production. *)
Definition same_productions (s s' : steppat N) : Prop :=
  hint s' = hint s /\ Permutation (mx s) (mx s') /\ (forall k, 1 <= k <= Z.of_nat (List.length (mx s)) -> rows_of_production s' k = rows_of_production s k) /\ last_number s' = last_number s.
(** The starting points are listed in the same order. *)
Definition same_starts (s s' : steppat N) : Prop :=
  List.filter (fun r => np_int32 (c3 r) =? -1) (mx s') = List.filter (fun r => np_int32 (c3 r) =? -1) (mx s).

Definition use_pattern (s : steppat N) (o : opts N) : opts N :=
  mkOpts (SPObj s) (o_window_type o) (o_window_args o) (o_keep_internals o) (o_distance_only o) (o_open_end o) (o_open_begin o).
Definition with_pattern (s : steppat N) (d : DTW N) : DTW N :=
  mkDTW (r_N d) (r_M d) (r_openEnd d) (r_openBegin d) (r_windowFunction d) (r_windowArgs d) s (r_jmin d) (r_distance d)
        (r_normalizedDistance d) (r_map d) (r_costMatrix d) (r_directionMatrix d) (r_localCostMatrix d) (r_query d) (r_reference d).
End S.
