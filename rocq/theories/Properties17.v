(** Properties17.v - C65 and C66.

    Only theorem statements, each closed by a lemma proved elsewhere, and concrete cases
    that meet their hypotheses.  See Properties1.v for the arithmetic [N] and [NumLaws]. *)
From Coq Require Import QArith Qcanon.
From Verif Require Import Base Num StepPattern Window Core Backtrack Dtw Spec Api Tables Vocab Terms.
From Verif Require Import NumQ NumQLaws NumF NumFLaws.
From Verif Require Import SeriesSpec ZeroSum HoldSpec Hold JoinSpec Join Examples Examples7 Examples15.
Open Scope string_scope.
Open Scope list_scope.
Open Scope nat_scope.

(** C65: series with held samples are at least as far apart as the original series: symmetric1, symmetric2 (both series), asymmetric (reference). *)
Theorem C65_held_named : forall (N : Num) f h cdist x y cdist' x' y' o (lm lm' : mat N) d' nm,
  modelled N -> costs_of cdist' x' y' lm' -> dtw cdist' x' y' o = Ok d' -> 0 < nr lm' ->
  lookup nm pattern_table = Some (r_stepPattern d') ->
  nm = "symmetric1" \/ nm = "symmetric2" \/ (nm = "asymmetric" /\ forall t, t < nr lm' -> f t = t) ->
  r_windowFunction d' = NoWindow -> o_open_begin o = false -> o_open_end o = false ->
  costs_of cdist x y lm -> native_array x y -> 0 < nr lm -> 0 < nc lm ->
  held f h lm lm' -> nonneg_costs lm ->
  exists d, dtw cdist x y o = Ok d /\ leb (r_distance d) (r_distance d') = true.
Proof. exact held_named. Qed.
Print Assumptions C65_held_named.

(** C65: any pattern whose steps can be shortened, any pair of windows that fit; exact and binary64 arithmetic. *)
Theorem C65_held : forall (N : Num) q r f h cdist x y cdist' x' y' o (lm lm' : mat N) d' rules t2 kw2 w2,
  modelled N ->
  costs_of cdist' x' y' lm' -> dtw cdist' x' y' o = Ok d' -> pattern_rules (r_stepPattern d') rules ->
  can_shorten q r rules ->
  (q = false -> forall t, t < nr lm' -> f t = t) -> (r = false -> forall t, t < nc lm' -> h t = t) ->
  o_open_begin o = false -> o_open_end o = false ->
  costs_of cdist x y lm -> native_array x y -> 0 < nr lm -> 0 < nc lm -> nr lm' <> 0 -> held f h lm lm' -> nonneg_costs lm ->
  window_of t2 w2 -> window_total w2 kw2 (nr lm) (nc lm) ->
  (forall i j, i < nr lm' -> j < nc lm' -> in_window (r_windowFunction d') (o_window_args o) (nr lm') (nc lm') i j ->
     in_window w2 kw2 (nr lm) (nc lm) (f i) (h j)) ->
  exists d, dtw cdist x y (set_window o t2 kw2) = Ok d /\ leb (r_distance d) (r_distance d') = true.
Proof. exact held_any. Qed.
Print Assumptions C65_held.

Example C65_case : held hf hh h_lm h_lm' /\
  succeeds h_lm' (oKeep "symmetric2") "symmetric2" NoWindow (fun d => dist_is 11 d) /\
  succeeds h_lm (oKeep "symmetric2") "symmetric2" NoWindow (fun d => dist_is 9 d).
Proof. exact held_case. Qed.

(** C66: aligning two pairs of series joined end to end costs at most the sum of the two distances, plus the extra weight of the diagonal step across the joint. *)
Theorem C66_joined_named : forall cdist x y cdist1 x1 y1 cdist2 x2 y2 o (lm lm1 lm2 : mat NumQ) k sp d1 d2 v1 v2 s,
  lookup k pattern_table = Some sp -> ~ In k negative_names -> pattern_of (o_step_pattern o) sp ->
  window_of (o_window_type o) NoWindow -> o_open_begin o = false -> o_open_end o = false ->
  costs_of cdist x y lm -> native_array x y -> size_ok (nr lm) (nc lm) ->
  costs_of cdist1 x1 y1 lm1 -> dtw cdist1 x1 y1 o = Ok d1 -> r_distance d1 = XFin v1 -> 0 < nr lm1 ->
  costs_of cdist2 x2 y2 lm2 -> dtw cdist2 x2 y2 o = Ok d2 -> r_distance d2 = XFin v2 -> 0 < nr lm2 ->
  joined lm1 lm2 lm -> cell lm2 0 0 = XFin s ->
  exists d, dtw cdist x y o = Ok d /\
    leb (r_distance d) (XFin (v1 + v2 + (qc_ofZ (diagonal_weight k) - Q2Qc 1) * s)%Qc : NumQ) = true.
Proof. exact joined_named. Qed.
Print Assumptions C66_joined_named.

(** C66: any pattern with a diagonal production of weight w. *)
Theorem C66_joined : forall cdist x y cdist1 x1 y1 cdist2 x2 y2 o (lm lm1 lm2 : mat NumQ) sp rules d1 d2 k w v1 v2,
  well_posed cdist x y o lm sp rules NoWindow -> o_open_begin o = false -> o_open_end o = false ->
  rule_no rules k = Some (Rule 1 1 [(0, 0, XFin w : NumQ)]) ->
  costs_of cdist1 x1 y1 lm1 -> dtw cdist1 x1 y1 o = Ok d1 -> r_distance d1 = XFin v1 -> 0 < nr lm1 ->
  costs_of cdist2 x2 y2 lm2 -> dtw cdist2 x2 y2 o = Ok d2 -> r_distance d2 = XFin v2 -> 0 < nr lm2 ->
  joined lm1 lm2 lm ->
  exists d s, cell lm2 0 0 = XFin s /\ dtw cdist x y o = Ok d /\
    leb (r_distance d) (XFin (v1 + v2 + (w - Q2Qc 1) * s)%Qc : NumQ) = true.
Proof. exact joined_distance. Qed.
Print Assumptions C66_joined.

Example C66_case : joined j_1 j_2 j_12 /\
  succeeds j_1 (oQ "symmetric2") "symmetric2" NoWindow (fun d => dist_is 0 d) /\
  succeeds j_2 (oQ "symmetric2") "symmetric2" NoWindow (fun d => dist_is 5 d) /\
  succeeds j_12 (oQ "symmetric2") "symmetric2" NoWindow (fun d => dist_is 8 d).
Proof. exact joined_case. Qed.
