(** Properties23.v - C75, C76: which alignment is returned.

    Only theorem statements, each closed by a lemma proved elsewhere, and concrete cases
    that meet their hypotheses.  See Properties1.v for the arithmetic [N] and [NumLaws]. *)
From Verif Require Import Base Num StepPattern Window Core Backtrack Dtw Spec Api Tables Vocab Terms.
From Verif Require Import NumQ NumQLaws NumF NumFLaws.
From Verif Require Import TieSpec Tie Examples Examples7 Examples21.
Open Scope string_scope.
Open Scope list_scope.
Open Scope nat_scope.

(** C75: the returned alignment is cheapest throughout, and read from its end it takes the lower numbered production wherever
    another alignment that is cheapest throughout parts from it. *)
Theorem C75_first : forall (N : Num) (L : NumLaws N) cdist x y o (lm : mat N) d rules,
  costs_of cdist x y lm ->
  dtw cdist x y o = Ok d -> pattern_rules (r_stepPattern d) rules -> 0 < nr lm -> o_distance_only o = false ->
  let W := admissible (o_open_begin o) rules lm (r_windowFunction d) (r_windowArgs d) in
  exists mp ks vs ts, r_map d = Some mp /\ W ks vs ts (end_cell (o_open_begin o) lm (r_jmin d)) (r_distance d) /\
    (if o_open_begin o then describes_open mp ks vs ts else describes mp ks vs ts) /\
    least_throughout W ks vs /\
    forall ks' vs' ts' c', W ks' vs' ts' (end_cell (o_open_begin o) lm (r_jmin d)) c' -> usable ks' c' ->
      least_throughout W ks' vs' -> parts_with_lower ks ks'.
Proof. exact (fun N L  => @returned_first N L). Qed.
Print Assumptions C75_first.

(** C75, exact arithmetic: the same against every alignment of the same cost. *)
Theorem C75_first_exact : forall cdist x y o (lm : mat NumQ) d rules,
  costs_of cdist x y lm ->
  dtw cdist x y o = Ok d -> pattern_rules (r_stepPattern d) rules -> 0 < nr lm -> o_distance_only o = false ->
  isfin (r_distance d) = true ->
  let W := admissible (o_open_begin o) rules lm (r_windowFunction d) (r_windowArgs d) in
  exists mp ks vs ts, r_map d = Some mp /\ W ks vs ts (end_cell (o_open_begin o) lm (r_jmin d)) (r_distance d) /\
    (if o_open_begin o then describes_open mp ks vs ts else describes mp ks vs ts) /\
    forall ks' vs' ts', W ks' vs' ts' (end_cell (o_open_begin o) lm (r_jmin d)) (r_distance d) ->
      parts_with_lower ks ks'.
Proof. exact returned_first_exact. Qed.
Print Assumptions C75_first_exact.

Example C75_case : succeeds (z21 2 3) (oQ "symmetric1") "symmetric1" NoWindow (fun d => dist_is 0 d && align_is [0;0;1]%Z [0;1;2]%Z [2;1]%Z d && isfin (r_distance d)) /\
  (exists l vs ts, lookup "symmetric1" predefined = Some l /\
     @closed_walk NumQ (productions l) (z21 2 3) NoWindow [] [1; 2] vs ts (1, 2) (ofZ 0)) /\
  parts_with_lower [2; 1] [1; 2] /\ ~ parts_with_lower [1; 2] [2; 1].
Proof. exact tie21. Qed.

(** C76: zero costs on the diagonal, and the first production is the diagonal step: the identity is returned. *)
Theorem C76_identity : forall (N : Num) (L : NumLaws N) cdist x y o (lm : mat N) sp rules w r,
  well_posed cdist x y o lm sp rules w ->
  o_open_begin o = false -> o_open_end o = false -> o_distance_only o = false -> nr lm = nc lm ->
  nonneg_weights rules -> nonneg_costs lm ->
  rule_no rules 1 = Some r -> diagonal_rule r ->
  (forall i, i < nr lm -> eqb (cell lm i i) (ofZ 0) = true) ->
  (forall i, 0 < i -> i < nr lm -> in_window w (o_window_args o) (nr lm) (nc lm) i i) ->
  exists d, dtw cdist x y o = Ok d /\ r_map d = Some (identity_map (nr lm)).
Proof. exact (fun N L  => @identity_alignment N L). Qed.
Print Assumptions C76_identity.

(** C76: for the predefined step patterns whose first production is the diagonal step. *)
Theorem C76_identity_named : forall (N : Num) (L : NumLaws N) cdist x y o (lm : mat N) k sp rules w,
  well_posed cdist x y o lm sp rules w ->
  lookup k pattern_table = Some sp -> In k diagonal_first ->
  o_open_begin o = false -> o_open_end o = false -> o_distance_only o = false -> nr lm = nc lm -> nonneg_costs lm ->
  (forall i, i < nr lm -> eqb (cell lm i i) (ofZ 0) = true) ->
  (forall i, 0 < i -> i < nr lm -> in_window w (o_window_args o) (nr lm) (nc lm) i i) ->
  exists d, dtw cdist x y o = Ok d /\ r_map d = Some (identity_map (nr lm)).
Proof. exact (fun N L  => @identity_alignment_named N L). Qed.
Print Assumptions C76_identity_named.

(** C76: for minimum variance matching. *)
Theorem C76_identity_mvm : forall (N : Num) (L : NumLaws N) cdist x y o (lm : mat N) e rules w,
  1 <= e -> (8 * Z.of_nat e <= INT_MAX)%Z ->
  well_posed cdist x y o lm (mvmStepPattern e) rules w ->
  o_open_begin o = false -> o_open_end o = false -> o_distance_only o = false -> nr lm = nc lm -> nonneg_costs lm ->
  (forall i, i < nr lm -> eqb (cell lm i i) (ofZ 0) = true) ->
  (forall i, 0 < i -> i < nr lm -> in_window w (o_window_args o) (nr lm) (nc lm) i i) ->
  exists d, dtw cdist x y o = Ok d /\ r_map d = Some (identity_map (nr lm)).
Proof. exact (fun N L  => @identity_alignment_mvm N L). Qed.
Print Assumptions C76_identity_mvm.

Example C76_case : succeeds (z21 3 3) (oQ "symmetric2") "symmetric2" NoWindow (align_is [0;1;2]%Z [0;1;2]%Z [1;1]%Z) /\
  succeeds (z21 3 3) (oQ "asymmetric") "asymmetric" NoWindow (align_is [0;1;2]%Z [0;2;2]%Z [3;1]%Z) /\
  nonneg_costs (z21 3 3) /\ (forall i, i < 3 -> eqb (cell (z21 3 3) i i) (ofZ 0) = true).
Proof. exact self21. Qed.
