(** Derived2.v - instances of the feasibility, textbook and scaling theorems (proofs). *)
From Coq Require Import QArith Qcanon.
From Verif Require Import Base Num StepPattern Window Core Backtrack Dtw Spec Api Tables Vocab Terms
  NumQ NumQLaws NumF NumFLaws ApiThms Bound BoundF Feas Textbook Thm4 Thm7 Thm9 Thm10 Thm11 Thm12 Derived.
Open Scope string_scope.
Open Scope list_scope.
Open Scope nat_scope.


Lemma finite_moderate lm : all_finite lm -> all_moderate bndQ lm.
Proof. intros H i j Hi Hj. exact (H i j Hi Hj). Qed.
Lemma moderate_f (lm : mat NumF) : moderate lm -> @all_moderate NumF bndR lm.
Proof. intros H i j Hi Hj. apply bndR_leb. exact (H i j Hi Hj). Qed.
Lemma moderate_fma (lm : mat NumFMA) : moderate lm -> @all_moderate NumFMA bndR lm.
Proof. intros H i j Hi Hj. apply bndR_leb. exact (H i j Hi Hj). Qed.

(** ** C25 *)
Theorem limits_sufficient_exact cdist x y o (lm : mat NumQ) k s sp rules :
  well_posed cdist x y o lm sp rules NoWindow -> o_open_begin o = false -> o_open_end o = false ->
  In (k, s) slope_limits -> lookup k pattern_table = Some sp -> all_finite lm ->
  ((exists d, dtw cdist x y o = Ok d) <-> within_limits s (nr lm) (nc lm)).
Proof. intros. eapply (limits_sufficient NumQ_laws _ NumQ_bound); eauto. Qed.
Theorem limits_sufficient_binary64 cdist x y o (lm : mat NumF) k s sp rules :
  well_posed cdist x y o lm sp rules NoWindow -> o_open_begin o = false -> o_open_end o = false ->
  In (k, s) slope_limits -> lookup k pattern_table = Some sp -> moderate lm ->
  ((exists d, dtw cdist x y o = Ok d) <-> within_limits s (nr lm) (nc lm)).
Proof. intros. eapply (limits_sufficient NumF_laws _ NumF_bound); eauto using moderate_f. Qed.
Theorem limits_sufficient_fma cdist x y o (lm : mat NumFMA) k s sp rules :
  well_posed cdist x y o lm sp rules NoWindow -> o_open_begin o = false -> o_open_end o = false ->
  In (k, s) slope_limits -> lookup k pattern_table = Some sp -> moderate lm ->
  ((exists d, dtw cdist x y o = Ok d) <-> within_limits s (nr lm) (nc lm)).
Proof. intros. eapply (limits_sufficient NumFMA_laws _ NumFMA_bound); eauto using moderate_fma. Qed.

Theorem unlimited_exact cdist x y o (lm : mat NumQ) k sp rules :
  well_posed cdist x y o lm sp rules NoWindow -> o_open_begin o = false -> o_open_end o = false ->
  In k unlimited -> lookup k pattern_table = Some sp -> all_finite lm ->
  exists d, dtw cdist x y o = Ok d.
Proof. intros. eapply (unlimited_succeeds NumQ_laws _ NumQ_bound); eauto. Qed.
Theorem unlimited_binary64 cdist x y o (lm : mat NumF) k sp rules :
  well_posed cdist x y o lm sp rules NoWindow -> o_open_begin o = false -> o_open_end o = false ->
  In k unlimited -> lookup k pattern_table = Some sp -> moderate lm ->
  exists d, dtw cdist x y o = Ok d.
Proof. intros. eapply (unlimited_succeeds NumF_laws _ NumF_bound); eauto using moderate_f. Qed.
Theorem unlimited_fma cdist x y o (lm : mat NumFMA) k sp rules :
  well_posed cdist x y o lm sp rules NoWindow -> o_open_begin o = false -> o_open_end o = false ->
  In k unlimited -> lookup k pattern_table = Some sp -> moderate lm ->
  exists d, dtw cdist x y o = Ok d.
Proof. intros. eapply (unlimited_succeeds NumFMA_laws _ NumFMA_bound); eauto using moderate_fma. Qed.

(** ** C26 *)
Section TB.
Context {N : Num}.
Variable L : NumLaws N.

Theorem symmetric1_optimum cdist x y o (lm : mat N) d :
  costs_of cdist x y lm -> dtw cdist x y o = Ok d ->
  r_stepPattern d = symmetric1 -> r_windowFunction d = NoWindow ->
  o_open_begin o = false -> o_open_end o = false -> o_distance_only o = false -> 0 < nr lm ->
  textbook_optimum 1 lm d.
Proof.
  intros H1 H2 H3 H4 H5 H6 H7 H8. eapply (textbook_result L 1); eauto.
  rewrite H3. exact (symmetric1_textbook L).
Qed.
Theorem symmetric2_optimum cdist x y o (lm : mat N) d :
  costs_of cdist x y lm -> dtw cdist x y o = Ok d ->
  r_stepPattern d = symmetric2 -> r_windowFunction d = NoWindow ->
  o_open_begin o = false -> o_open_end o = false -> o_distance_only o = false -> 0 < nr lm ->
  textbook_optimum 2 lm d.
Proof.
  intros H1 H2 H3 H4 H5 H6 H7 H8. eapply (textbook_result L 2); eauto.
  rewrite H3. exact (symmetric2_textbook L).
Qed.
End TB.

(** ** C27 *)
Theorem mvm_feasible_exact cdist x y o (lm : mat NumQ) sp rules e :
  well_posed cdist x y o lm sp rules NoWindow -> sp = mvmStepPattern e -> 1 <= e -> (8 * Z.of_nat e <= INT_MAX)%Z ->
  o_open_begin o = false -> o_open_end o = false -> all_finite lm ->
  ((exists d, dtw cdist x y o = Ok d) <-> nr lm - 1 <= nc lm - 1 <= e * (nr lm - 1)).
Proof. intros. eapply (mvm_feasible NumQ_laws _ NumQ_bound); eauto. Qed.
Theorem mvm_feasible_binary64 cdist x y o (lm : mat NumF) sp rules e :
  well_posed cdist x y o lm sp rules NoWindow -> sp = mvmStepPattern e -> 1 <= e -> (8 * Z.of_nat e <= INT_MAX)%Z ->
  o_open_begin o = false -> o_open_end o = false -> moderate lm ->
  ((exists d, dtw cdist x y o = Ok d) <-> nr lm - 1 <= nc lm - 1 <= e * (nr lm - 1)).
Proof. intros. eapply (mvm_feasible NumF_laws _ NumF_bound); eauto using moderate_f. Qed.

(** ** C23 *)
Theorem scaled_costs c cdist x y o (lm : mat NumQ) sp rules w cdist' x' y' : (Q2Qc 0 < c)%Qc ->
  well_posed cdist x y o lm sp rules w ->
  costs_of cdist' x' y' (scaled c lm) -> (o_open_begin o = true \/ native_array x' y') ->
  (forall d, dtw cdist x y o = Ok d -> exists d', dtw cdist' x' y' o = Ok d' /\
     r_distance d' = mul (XFin c : NumQ) (r_distance d) /\
     r_normalizedDistance d' = mul (XFin c : NumQ) (r_normalizedDistance d) /\
     r_jmin d' = r_jmin d /\ r_map d' = r_map d /\
     r_costMatrix d' = option_map (scaled c) (r_costMatrix d) /\
     r_directionMatrix d' = r_directionMatrix d) /\
  (forall e, dtw cdist x y o = Raise e -> dtw cdist' x' y' o = Raise e).
Proof.
  intros Hc WP HC HN.
  assert (E : forall g : mat NumQ, scaled c g = map_mat (xscale c) g).
  { intros g. unfold scaled, map_mat. f_equal. apply map_ext. intros v. symmetry. apply xscale_mul. exact Hc. }
  rewrite E in HC.
  destruct (rescaled NumQ_laws (xscale c) (xscale_rescaling c Hc) _ _ _ _ _ _ _ _ _ _ _ WP HC HN) as [A B].
  split; [|exact B]. intros d Hd. destruct (A d Hd) as [d' [A1 [A2 [A3 [A4 [A5 [A6 A7]]]]]]].
  exists d'. rewrite <- !xscale_mul by exact Hc. repeat (split; [assumption|]). split; [|exact A7].
  rewrite A6. destruct (r_costMatrix d); [|reflexivity]. cbn [option_map]. rewrite E. reflexivity.
Qed.
