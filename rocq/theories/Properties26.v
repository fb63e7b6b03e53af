(** Properties26.v - C81: the built-in check of the native core; C82: factors between the distances of step patterns.

    Only theorem statements, each closed by a lemma proved elsewhere, and concrete cases
    that meet their hypotheses.  See Properties1.v for the arithmetic [N] and [NumLaws]. *)
From Verif Require Import Base Num StepPattern Window Core Backtrack Dtw Spec Api Tables Vocab Terms.
From Verif Require Import NumQ NumQLaws NumF NumFLaws.
From Verif Require Import SeriesSpec PatSpec SelfTest SelfSpec SelfThm FactorSpec Factor Examples Examples7 Examples24 Examples25.
Open Scope string_scope.
Open Scope list_scope.
Open Scope nat_scope.

(** C81: the built-in check of the native core, every size. *)
Theorem C81_self_test : forall (N : Num) (M : modelled N) ts,
  1 <= ts -> (Z.of_nat ts * Z.of_nat ts <= INT_MAX)%Z ->
  exists cm sm, @test_computeCM N ts = Ok (cm, sm) /\ nr cm = ts /\ nc cm = ts /\ nr sm = ts /\ nc sm = ts /\
    forall i j, i < ts -> j < ts ->
      mget cm i j = Some (ofZ (Z.of_nat (border_then_diagonal i j))) /\ mget sm i j = Some (test_direction i j).
Proof. exact (fun N  => @self_test_any N). Qed.
Print Assumptions C81_self_test.

(** C81: TS = 0. *)
Theorem C81_empty : forall (N : Num),
  @test_computeCM N 0 = Raise IndexError.
Proof. exact (fun N  => @self_test_empty N). Qed.
Print Assumptions C81_empty.

Example C81_case_five : match @test_computeCM NumF 5 with
  | Ok (cm, sm) => cells_eq cm [1;3;6;10;15; 3;5;9;14;20; 6;9;14;21;29; 10;14;21;30;41; 15;20;29;41;55] &&
                   forallb (fun p => (fst p =? snd p)%Z) (combine (tl (dat sm)) [3;3;3;3; 1;2;2;2;2; 1;2;2;2;2; 1;2;2;2;2; 1;2;2;2;2])
  | _ => false
  end%Z = true /\
  border_then_diagonal 4 4 = 55 /\ border_then_diagonal 4 1 = 20 /\ border_then_diagonal 1 3 = 14 /\ border_then_diagonal 0 4 = 15.
Proof. exact self24. Qed.

Example C81_case_largest : (46340 * 46340 <= INT_MAX)%Z /\ (INT_MAX < 46341 * 46341)%Z.
Proof. exact largest24. Qed.

(** C82: any two step patterns, closed end. *)
Theorem C82_factor_closed_end : forall (k : NumQ) (Kf : isfin k = true) (K1 : leb (ofZ 1) k = true) cdist x y (o : opts NumQ) lm d rules s' sp' rules',
  costs_of cdist x y lm -> 0 < nr lm -> nonneg_costs lm ->
  dtw cdist x y o = Ok d -> pattern_rules (r_stepPattern d) rules -> o_open_end o = false ->
  pattern_of s' sp' -> pattern_rules sp' rules' -> (o_open_begin o = true -> hint sp' = "N") ->
  cheaper_steps rules' (times k rules) \/
    (window_of (o_window_type o) NoWindow /\ finer_steps rules' (times k rules) /\ (o_open_begin o = true -> forall r, In r rules' -> 1 <= r_di r)) ->
  exists d', dtw cdist x y (with_pattern o s') = Ok d' /\ r_stepPattern d' = sp' /\ leb (r_distance d') (mul k (r_distance d)) = true.
Proof. exact factor_closed_end. Qed.
Print Assumptions C82_factor_closed_end.

(** C82: open end, the normalized distances. *)
Theorem C82_factor_open_end : forall (k : NumQ) (Kf : isfin k = true) (K1 : leb (ofZ 1) k = true) cdist x y (o : opts NumQ) lm d rules s' sp' rules',
  costs_of cdist x y lm -> 0 < nr lm -> nonneg_costs lm ->
  dtw cdist x y o = Ok d -> pattern_rules (r_stepPattern d) rules -> o_open_end o = true ->
  pattern_of s' sp' -> pattern_rules sp' rules' -> hint sp' = hint (r_stepPattern d) ->
  cheaper_steps rules' (times k rules) \/
    (window_of (o_window_type o) NoWindow /\ finer_steps rules' (times k rules) /\ (o_open_begin o = true -> forall r, In r rules' -> 1 <= r_di r)) ->
  exists d', dtw cdist x y (with_pattern o s') = Ok d' /\ r_stepPattern d' = sp' /\
    leb (r_normalizedDistance d') (mul k (r_normalizedDistance d)) = true.
Proof. exact factor_open_end. Qed.
Print Assumptions C82_factor_open_end.

(** C82: the predefined step patterns, with the factors of [factor_table]. *)
Theorem C82_factor_named : forall cdist x y (o : opts NumQ) lm d k' k z sp',
  costs_of cdist x y lm -> 0 < nr lm -> nonneg_costs lm ->
  o_step_pattern o = SPName k -> dtw cdist x y o = Ok d -> o_open_end o = false ->
  factor_listed k' k z -> lookup k' (@pattern_table NumQ) = Some sp' -> (o_open_begin o = true -> hint sp' = "N") ->
  exists d', dtw cdist x y (with_pattern o (SPName k')) = Ok d' /\ leb (r_distance d') (mul (ofZ z) (r_distance d)) = true.
Proof. exact factor_named. Qed.
Print Assumptions C82_factor_named.

(** C82: the predefined step patterns, open end. *)
Theorem C82_factor_named_open : forall cdist x y (o : opts NumQ) lm d k' k z sp',
  costs_of cdist x y lm -> 0 < nr lm -> nonneg_costs lm ->
  o_step_pattern o = SPName k -> dtw cdist x y o = Ok d -> o_open_end o = true ->
  factor_listed k' k z -> lookup k' (@pattern_table NumQ) = Some sp' -> hint sp' = hint (r_stepPattern d) ->
  exists d', dtw cdist x y (with_pattern o (SPName k')) = Ok d' /\ leb (r_normalizedDistance d') (mul (ofZ z) (r_normalizedDistance d)) = true.
Proof. exact factor_named_open. Qed.
Print Assumptions C82_factor_named_open.

Example C82_case_attained : factor_listed "symmetric2" "symmetric1" 2 /\
  succeeds m25 (oQ "symmetric1") "symmetric1" NoWindow (dist_is 1) /\ succeeds m25 (oQ "symmetric2") "symmetric2" NoWindow (dist_is 2).
Proof. exact attained25. Qed.

Example C82_case_below : succeeds n25 (oQ "symmetric1") "symmetric1" NoWindow (dist_is 4) /\ succeeds n25 (oQ "symmetric2") "symmetric2" NoWindow (dist_is 6).
Proof. exact below25. Qed.

Example C82_case_open : factor_listed "typeIc" "asymmetricP1" 2 /\
  (exists s s', lookup "asymmetricP1" (@pattern_table NumQ) = Some s /\ lookup "typeIc" (@pattern_table NumQ) = Some s' /\ hint s = hint s') /\
  succeeds n25 (named "asymmetricP1" WTNone [] true false true false) "asymmetricP1" NoWindow (fun d => norm_is 3 3 d) /\
  succeeds n25 (named "typeIc" WTNone [] true false true false) "typeIc" NoWindow (fun d => norm_is 3 3 d).
Proof. exact open25. Qed.
