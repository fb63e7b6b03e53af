(** Properties22.v - C73, C74: arguments of windows; comparison of step patterns.

    Only theorem statements, each closed by a lemma proved elsewhere, and concrete cases
    that meet their hypotheses.  See Properties1.v for the arithmetic [N] and [NumLaws]. *)
From Verif Require Import Base Num StepPattern Window Core Backtrack Dtw Spec Api Tables Vocab Terms.
From Verif Require Import NumQ NumQLaws NumF NumFLaws.
From Verif Require Import ArgSpec Thm34 PatSpec SeriesSpec Looser Examples Examples7 Examples20.
Open Scope string_scope.
Open Scope list_scope.
Open Scope nat_scope.

(** C73: a call with a window other than "none" only returns if window_args are what the window takes. *)
Theorem C73_needed : forall (N : Num) cdist x y (o : opts N) w d,
  window_of (o_window_type o) w -> w <> NoWindow ->
  dtw cdist x y o = Ok d -> takes w (o_window_args o).
Proof. exact (fun N  => @window_args_needed N). Qed.
Print Assumptions C73_needed.

(** C73: otherwise it raises TypeError (once the local costs and the step pattern are accepted). *)
Theorem C73_rejected : forall (N : Num) cdist x y (o : opts N) lm sp w,
  costs_of cdist x y lm -> pattern_of (o_step_pattern o) sp ->
  window_of (o_window_type o) w -> w <> NoWindow -> ~ takes w (o_window_args o) ->
  (o_open_begin o = true -> hint sp = "N") -> dtw cdist x y o = Raise TypeError.
Proof. exact (fun N  => @window_args_rejected N). Qed.
Print Assumptions C73_rejected.

(** C73: an unknown window name raises TypeError. *)
Theorem C73_unknown_window : forall (N : Num) cdist x y (o : opts N) lm sp nm,
  costs_of cdist x y lm -> pattern_of (o_step_pattern o) sp ->
  o_window_type o = WTName nm -> nm <> "none" -> nm <> "sakoechiba" -> nm <> "itakura" -> nm <> "slantedband" ->
  (o_open_begin o = true -> hint sp = "N") -> dtw cdist x y o = Raise TypeError.
Proof. exact (fun N  => @unknown_window_type_error N). Qed.
Print Assumptions C73_unknown_window.

(** C73: an unknown step pattern name raises AttributeError. *)
Theorem C73_unknown_pattern : forall (N : Num) cdist x y (o : opts N) lm nm,
  costs_of cdist x y lm ->
  o_step_pattern o = SPName nm -> lookup nm (@pattern_table N) = None -> dtw cdist x y o = Raise AttributeError.
Proof. exact (fun N  => @unknown_pattern_attribute_error N). Qed.
Print Assumptions C73_unknown_pattern.

(** C73: without a window the window_args are ignored, whatever they are. *)
Theorem C73_ignored : forall (N : Num) cdist x y (o : opts N) kw1 kw2,
  window_of (o_window_type o) NoWindow ->
  same_but_args (dtw cdist x y (with_args o kw1)) (dtw cdist x y (with_args o kw2)).
Proof. exact (fun N  => @window_args_ignored N). Qed.
Print Assumptions C73_ignored.

Example C73_case : succeeds m20 (b20 "symmetric2" "sakoechiba" [("window_size", ofZ 1)]) "symmetric2" SakoeChiba (dist_is 2) /\
  takes SakoeChiba [("window_size", @ofZ NumQ 1)] /\ ~ takes SakoeChiba [("windowSize", @ofZ NumQ 1)] /\ ~ takes (@SakoeChiba NumQ) [] /\ ~ takes Itakura [("window_size", @ofZ NumQ 1)] /\
  is_type_error (run m20 (b20 "symmetric2" "sakoechiba" [("windowSize", ofZ 1)])) = true /\
  is_type_error (run m20 (b20 "symmetric2" "slantedband" [])) = true /\
  is_type_error (run m20 (b20 "symmetric2" "itakura" [("window_size", ofZ 1)])) = true /\
  is_type_error (run m20 (b20 "symmetric2" "sakoe" [])) = true /\
  succeeds m20 (b20 "symmetric2" "none" [("window_size", ofZ 1)]) "symmetric2" NoWindow (dist_is 2).
Proof. exact args20. Qed.

(** C74: if every production has a counterpart with the same displacement that charges less (any window), or can be cut
    into productions that together charge less (no window), the other step pattern finds an alignment too and its
    distance is not larger. *)
Theorem C74_closed_end : forall (N : Num) (M : modelled N) cdist x y (o : opts N) lm d rules s' sp' rules',
  costs_of cdist x y lm -> 0 < nr lm -> nonneg_costs lm ->
  dtw cdist x y o = Ok d -> pattern_rules (r_stepPattern d) rules -> o_open_end o = false ->
  pattern_of s' sp' -> pattern_rules sp' rules' -> (o_open_begin o = true -> hint sp' = "N") ->
  cheaper_steps rules' rules \/
    (window_of (o_window_type o) NoWindow /\ finer_steps rules' rules /\ (o_open_begin o = true -> forall r, In r rules' -> 1 <= r_di r)) ->
  exists d', dtw cdist x y (with_pattern o s') = Ok d' /\ r_stepPattern d' = sp' /\ leb (r_distance d') (r_distance d) = true.
Proof. exact (fun N M => @looser_closed_end N M). Qed.
Print Assumptions C74_closed_end.

(** C74, open end: the same for the normalized distance of step patterns with the same normalization. *)
Theorem C74_open_end : forall (N : Num) (M : modelled N) cdist x y (o : opts N) lm d rules s' sp' rules',
  costs_of cdist x y lm -> 0 < nr lm -> nonneg_costs lm ->
  dtw cdist x y o = Ok d -> pattern_rules (r_stepPattern d) rules -> o_open_end o = true ->
  pattern_of s' sp' -> pattern_rules sp' rules' -> hint sp' = hint (r_stepPattern d) ->
  cheaper_steps rules' rules \/
    (window_of (o_window_type o) NoWindow /\ finer_steps rules' rules /\ (o_open_begin o = true -> forall r, In r rules' -> 1 <= r_di r)) ->
  exists d', dtw cdist x y (with_pattern o s') = Ok d' /\ r_stepPattern d' = sp' /\
    leb (r_normalizedDistance d') (r_normalizedDistance d) = true.
Proof. exact (fun N M => @looser_open_end N M). Qed.
Print Assumptions C74_open_end.

(** C74: the listed comparisons of predefined step patterns. *)
Theorem C74_named : forall (N : Num) (M : modelled N) cdist x y (o : opts N) lm d k' k sp',
  costs_of cdist x y lm -> 0 < nr lm -> nonneg_costs lm ->
  o_step_pattern o = SPName k -> dtw cdist x y o = Ok d -> o_open_end o = false ->
  lookup k' (@pattern_table N) = Some sp' -> (o_open_begin o = true -> hint sp' = "N") ->
  listed looser_any_window k' k \/ (window_of (o_window_type o) NoWindow /\ listed looser_no_window k' k /\ (o_open_begin o = true -> k' = "asymmetric")) ->
  exists d', dtw cdist x y (with_pattern o (SPName k')) = Ok d' /\ leb (r_distance d') (r_distance d) = true.
Proof. exact (fun N M => @looser_named N M). Qed.
Print Assumptions C74_named.

(** C74: a more elastic minimum variance matching never has a larger distance. *)
Theorem C74_mvm : forall (N : Num) (M : modelled N) cdist x y (o : opts N) lm d e e',
  costs_of cdist x y lm -> 0 < nr lm -> nonneg_costs lm ->
  o_step_pattern o = SPObj (mvmStepPattern e) -> dtw cdist x y o = Ok d -> o_open_end o = false ->
  1 <= e <= e' -> (8 * Z.of_nat e' <= INT_MAX)%Z ->
  exists d', dtw cdist x y (with_pattern o (SPObj (mvmStepPattern e'))) = Ok d' /\ leb (r_distance d') (r_distance d) = true.
Proof. exact (fun N M => @looser_mvm N M). Qed.
Print Assumptions C74_mvm.

Example C74_case_slopes : succeeds l20 (oQ "symmetric1") "symmetric1" NoWindow (dist_is 4) /\
  succeeds l20 (oQ "symmetric2") "symmetric2" NoWindow (dist_is 6) /\
  succeeds l20 (oQ "symmetricP05") "symmetricP05" NoWindow (dist_is 22) /\
  succeeds l20 (oQ "symmetricP1") "symmetricP1" NoWindow (dist_is 22) /\
  succeeds l20 (oQ "symmetricP2") "symmetricP2" NoWindow (dist_is 38) /\
  listed looser_any_window "symmetric1" "symmetric2" /\ listed looser_no_window "symmetric2" "symmetricP05" /\
  listed looser_any_window "symmetricP05" "symmetricP1" /\ listed looser_no_window "symmetricP1" "symmetricP2".
Proof. exact slopes20. Qed.

Example C74_case_nonneg : nonneg_costs l20.
Proof. exact l20_nonneg. Qed.

Example C74_window_matters : succeeds m20 (named "symmetricP1" (WTFun w20) [] true false false false) "symmetricP1" w20 (dist_is 2) /\
  succeeds m20 (named "symmetric2" (WTFun w20) [] true false false false) "symmetric2" w20 (dist_is 8).
Proof. exact window20. Qed.
