(** Properties27.v - C83: finding the query in the reference.

    Only theorem statements, each closed by a lemma proved elsewhere, and concrete cases
    that meet their hypotheses.  See Properties1.v for the arithmetic [N] and [NumLaws]. *)
From Verif Require Import Base Num StepPattern Window Core Backtrack Dtw Spec Api Tables Vocab Terms.
From Verif Require Import NumQ NumQLaws NumF NumFLaws.
From Verif Require Import SeriesSpec SearchSpec Search Examples Examples2 Examples26.
Open Scope string_scope.
Open Scope list_scope.
Open Scope nat_scope.

(** C83: rigid, open begin and end: the query is laid over every place of the reference. *)
Theorem C83_search : forall (N : Num) (L : NumLaws N) cdist x y o (lm : mat N) rules w,
  well_posed cdist x y o lm rigid rules w -> o_open_begin o = true -> o_open_end o = true ->
  (dtw cdist x y o = Raise (ValueError "All-NaN slice encountered") /\
   forall s, place lm w (o_window_args o) s -> ~ good (overlay lm s)) \/
  (exists d mp s, dtw cdist x y o = Ok d /\ r_map d = Some mp /\
    place lm w (o_window_args o) s /\ good (overlay lm s) /\
    r_distance d = overlay lm s /\ r_normalizedDistance d = div (overlay lm s) (ofZ (Z.of_nat (nr lm))) /\
    index1 mp = map Z.of_nat (seq 0 (nr lm)) /\ index2 mp = map Z.of_nat (seq s (nr lm)) /\ r_jmin d = s + nr lm - 1 /\
    forall s', place lm w (o_window_args o) s' -> good (overlay lm s') ->
      leb (r_normalizedDistance d) (div (overlay lm s') (ofZ (Z.of_nat (nr lm)))) = true /\
      (s' < s -> ltb (r_normalizedDistance d) (div (overlay lm s') (ofZ (Z.of_nat (nr lm)))) = true)).
Proof. exact (fun N L  => @gapless_search N L). Qed.
Print Assumptions C83_search.

(** C83: rigid, open begin only: compared with the end of the reference. *)
Theorem C83_closed_end : forall (N : Num) (L : NumLaws N) cdist x y o (lm : mat N) rules w,
  well_posed cdist x y o lm rigid rules w -> o_open_begin o = true -> o_open_end o = false ->
  (dtw cdist x y o = Raise no_path /\
   (place lm w (o_window_args o) (nc lm - nr lm) -> ~ good (overlay lm (nc lm - nr lm)))) \/
  (exists d, dtw cdist x y o = Ok d /\ place lm w (o_window_args o) (nc lm - nr lm) /\ good (overlay lm (nc lm - nr lm)) /\
    r_distance d = overlay lm (nc lm - nr lm)).
Proof. exact (fun N L  => @gapless_closed_end N L). Qed.
Print Assumptions C83_closed_end.

(** C83: an occurrence is found, any step pattern which may start there and advance. *)
Theorem C83_found : forall (N : Num) (L : NumLaws N) cdist x y o (lm : mat N) sp rules w s,
  well_posed cdist x y o lm sp rules w -> o_open_begin o = true -> o_open_end o = true ->
  nonneg_weights rules -> nonneg_costs lm -> may_start rules s -> may_advance rules -> occurs lm s ->
  (forall i, i < nr lm -> in_window w (o_window_args o) (nr lm + 1) (nc lm) (i + 1) (s + i)) ->
  exists d, dtw cdist x y o = Ok d /\ eqb (r_normalizedDistance d) (ofZ 0) = true /\ r_jmin d <= s + nr lm - 1.
Proof. exact (fun N L  => @occurrence_found N L). Qed.
Print Assumptions C83_found.

(** C83: asymmetric and rigid. *)
Theorem C83_found_named : forall (N : Num) (L : NumLaws N) cdist x y o (lm : mat N) k sp rules s,
  well_posed cdist x y o lm sp rules NoWindow -> lookup k pattern_table = Some sp ->
  k = "asymmetric" \/ (k = "rigid" /\ 1 <= s) ->
  o_open_begin o = true -> o_open_end o = true -> nonneg_costs lm -> occurs lm s ->
  exists d, dtw cdist x y o = Ok d /\ eqb (r_normalizedDistance d) (ofZ 0) = true /\ r_jmin d <= s + nr lm - 1.
Proof. exact (fun N L  => @occurrence_named N L). Qed.
Print Assumptions C83_found_named.

(** C83: mvmStepPattern(e). *)
Theorem C83_found_mvm : forall (N : Num) (L : NumLaws N) cdist x y o (lm : mat N) e rules s,
  well_posed cdist x y o lm (mvmStepPattern e) rules NoWindow -> 1 <= e -> (8 * Z.of_nat e <= INT_MAX)%Z -> 1 <= s ->
  o_open_begin o = true -> o_open_end o = true -> nonneg_costs lm -> occurs lm s ->
  exists d, dtw cdist x y o = Ok d /\ eqb (r_normalizedDistance d) (ofZ 0) = true /\ r_jmin d <= s + nr lm - 1.
Proof. exact (fun N L  => @occurrence_mvm N L). Qed.
Print Assumptions C83_found_mvm.

(** C83: conversely, a zero distance names an occurrence. *)
Theorem C83_zero_occurs : forall (N : Num) (M : modelled N) cdist x y o (lm : mat N) d,
  costs_of cdist x y lm -> dtw cdist x y o = Ok d -> 0 < nr lm ->
  r_stepPattern d = rigid -> o_open_begin o = true -> nonneg_costs lm -> eqb (r_distance d) (ofZ 0) = true ->
  exists mp s, r_map d = Some mp /\ index2 mp = map Z.of_nat (seq s (nr lm)) /\ 1 <= s /\ occurs lm s.
Proof. exact (fun N M => @gapless_zero N M). Qed.
Print Assumptions C83_zero_occurs.

(** C83: in exact arithmetic the distance of an occurrence is zero. *)
Theorem C83_exact : forall cdist x y o (lm : mat NumQ) d rules,
  costs_of cdist x y lm -> dtw cdist x y o = Ok d -> pattern_rules (r_stepPattern d) rules -> 0 < nr lm -> o_open_begin o = true ->
  eqb (r_normalizedDistance d) (ofZ 0) = true -> eqb (r_distance d) (ofZ 0) = true.
Proof. exact occurrence_exact. Qed.
Print Assumptions C83_exact.

Example C83_case_search : succeeds m26 (search "rigid" true) "rigid" NoWindow (fun d => dist_is 3 d && align_is [0;1]%Z [2;3]%Z [1;1]%Z d && (r_jmin d =? 3)) /\
  place m26 NoWindow [] 1 /\ place m26 NoWindow [] 2 /\ place m26 NoWindow [] 3 /\
  eqb (overlay m26 1) (ofZ 5) = true /\ eqb (overlay m26 2) (ofZ 3) = true /\ eqb (overlay m26 3) (ofZ 3) = true /\
  eqb (overlay m26 0) (ofZ 0) = true.
Proof. exact search26. Qed.

Example C83_case_closed : succeeds m26 (search "rigid" false) "rigid" NoWindow (dist_is 3) /\ nc m26 - nr m26 = 3.
Proof. exact closed26. Qed.

Example C83_case_start : occurs m26 0 /\ succeeds m26 (search "asymmetric" true) "asymmetric" NoWindow
  (fun d => dist_is 0 d && align_is [0;1]%Z [0;1]%Z [1;2]%Z d && (r_jmin d =? 1)).
Proof. exact occurs26. Qed.

Example C83_case_found : occurs n26 2 /\ succeeds n26 (search "rigid" true) "rigid" NoWindow
  (fun d => dist_is 0 d && align_is [0;1]%Z [2;3]%Z [1;1]%Z d) /\
  checkOk (run n26 (mkOpts (SPObj (mvmStepPattern 2)) WTNone [] true false true true)) (fun d => dist_is 0 d && (r_jmin d =? 3)) = true.
Proof. exact found26. Qed.
