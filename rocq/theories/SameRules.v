(** SameRules.v - which productions a step pattern has determines the distance (C87). *)
From Coq Require Import Permutation ZifyBool ZifyNat.
From Verif Require Import Base Num StepPattern Window Core Backtrack Dtw Spec Api ApiProof ApiThms Vocab Thm2 Thm5 DPProof Hold Derived Tables Terms PatSpec Looser.
Import ListNotations.
Open Scope string_scope.
Open Scope list_scope.
Open Scope nat_scope.

Section R.
Context {N : Num}.
Variable L : NumLaws N.

(** A walk with productions [rules] is a walk with more productions, through the same points and at the same cost. *)
Lemma walk_incl (rules rules' : list (rule N)) cost n m src al : incl rules rules' ->
  forall ks vs ts p c, walk rules cost n m src al ks vs ts p c ->
  exists ks', walk rules' cost n m src al ks' vs ts p c /\ (ks' = [] -> ks = []) /\ (ks = [] -> ks' = []).
Proof.
  intros Hi ks vs ts p c W. induction W as [i j c Hs Hn Hm|ks vs ts i0 j0 c k r W IH Hk Hn Hm Ha].
  - exists []. split; [apply walk_start; assumption|auto].
  - destruct IH as [ks' [W' _]]. destruct (in_rule_no rules' r (Hi r (rule_no_in _ _ _ Hk))) as [k' Hk'].
    exists (ks' ++ [k']). split; [apply walk_step; assumption|]. split; intros E; apply app_eq_nil in E; destruct E; discriminate.
Qed.
Lemma admissible_incl ob rules rules' (lm : mat N) w kw : incl rules rules' ->
  forall j ks vs ts c, admissible ob rules lm w kw ks vs ts (end_cell ob lm j) c -> usable ks c ->
  exists ks', admissible ob rules' lm w kw ks' vs ts (end_cell ob lm j) c /\ usable ks' c.
Proof.
  intros Hi j ks vs ts c W [U1 U2].
  assert (G : exists ks', admissible ob rules' lm w kw ks' vs ts (end_cell ob lm j) c /\ (ks = [] -> ks' = [])).
  { unfold admissible, open_walk, closed_walk in *. destruct ob; destruct (walk_incl _ _ _ _ _ _ _ Hi _ _ _ _ _ W) as [ks' [W' [_ E]]]; exists ks'; auto. }
  destruct G as [ks' [W' E]]. exists ks'. split; [exact W'|]. split; [exact U1|].
  intros Hne. apply U2. intros C. apply Hne, E, C.
Qed.
Lemma incl_dominates ob rules rules' (lm : mat N) w kw : incl rules rules' -> dominates ob rules rules' lm lm w w kw kw.
Proof.
  intros Hi. split; [reflexivity|]. split; [reflexivity|]. intros j ks vs ts c W U.
  destruct (admissible_incl _ _ _ _ _ _ Hi _ _ _ _ _ W U) as [ks' [W' U']].
  exists ks', vs, ts, c. split; [exact W'|]. split; [exact U'|]. apply (law_le_refl _ L), U.
Qed.
Lemma best_incl ob rules rules' (lm : mat N) w kw j c : incl rules rules' -> incl rules' rules ->
  best_to ob rules lm w kw j c -> best_to ob rules' lm w kw j c.
Proof.
  intros H1 H2 [[ks [vs [ts [W U]]]] B]. split.
  - destruct (admissible_incl _ _ _ _ _ _ H1 _ _ _ _ _ W U) as [ks' [W' U']]. eauto.
  - intros ks' vs' ts' c' W' U'. destruct (admissible_incl _ _ _ _ _ _ H2 _ _ _ _ _ W' U') as [ks2 [W2 U2]]. eauto.
Qed.
Lemma best_unique ob rules (lm : mat N) w kw j c c' : best_to ob rules lm w kw j c -> best_to ob rules lm w kw j c' -> eqb c c' = true.
Proof.
  intros [[ks [vs [ts [W U]]]] B] [[ks' [vs' [ts' [W' U']]]] B']. apply (law_le_antisym _ L); eauto.
Qed.

(** More productions. *)
Theorem more_closed_end cdist x y (o : opts N) (lm : mat N) d rules s' sp' rules' :
  costs_of cdist x y lm -> 0 < nr lm ->
  dtw cdist x y o = Ok d -> pattern_rules (r_stepPattern d) rules -> o_open_end o = false ->
  pattern_of s' sp' -> pattern_rules sp' rules' -> (o_open_begin o = true -> hint sp' = "N") ->
  incl rules rules' ->
  exists d', dtw cdist x y (with_pattern o s') = Ok d' /\ r_stepPattern d' = sp' /\ leb (r_distance d') (r_distance d) = true.
Proof.
  intros HC Hn H Hp He Hs Hr Hb Hi. pose proof (ok_well_posed L _ _ _ _ _ _ _ HC H Hp Hn) as WP.
  pose proof (with_pattern_wp _ _ _ _ _ _ _ _ _ _ _ WP Hs Hr Hb ltac:(intros E; congruence)) as WP'.
  apply (dominates_closed_end L _ _ _ _ _ _ _ _ _ _ _ _ _ _ HC H Hp WP' He He eq_refl).
  apply incl_dominates. exact Hi.
Qed.
Lemma same_hint_wp cdist x y (o : opts N) (lm : mat N) sp rules w s' sp' rules' : well_posed cdist x y o lm sp rules w ->
  pattern_of s' sp' -> pattern_rules sp' rules' -> hint sp' = hint sp -> well_posed cdist x y (with_pattern o s') lm sp' rules' w.
Proof.
  intros WP Hs Hr Hh. eapply with_pattern_wp; [exact WP|exact Hs|exact Hr| |]; rewrite Hh; intros E.
  - apply (wp_begin _ _ _ _ _ _ _ _ WP). exact E.
  - apply (wp_end _ _ _ _ _ _ _ _ WP). exact E.
Qed.
Theorem more_open_end cdist x y (o : opts N) (lm : mat N) d rules s' sp' rules' :
  costs_of cdist x y lm -> 0 < nr lm ->
  dtw cdist x y o = Ok d -> pattern_rules (r_stepPattern d) rules -> o_open_end o = true ->
  pattern_of s' sp' -> pattern_rules sp' rules' -> hint sp' = hint (r_stepPattern d) ->
  incl rules rules' ->
  exists d', dtw cdist x y (with_pattern o s') = Ok d' /\ r_stepPattern d' = sp' /\
    leb (r_normalizedDistance d') (r_normalizedDistance d) = true.
Proof.
  intros HC Hn H Hp He Hs Hr Hh Hi. pose proof (ok_well_posed L _ _ _ _ _ _ _ HC H Hp Hn) as WP.
  pose proof (same_hint_wp _ _ _ _ _ _ _ _ _ _ _ WP Hs Hr Hh) as WP'.
  apply (dominates_open_end L _ _ _ _ _ _ _ _ _ _ _ _ _ _ HC H Hp WP' He eq_refl (eq_sym Hh)).
  apply incl_dominates. exact Hi.
Qed.

(** The same productions, in another order or repeated. *)
Theorem same_rules cdist x y (o : opts N) (lm : mat N) d rules s' sp' rules' :
  costs_of cdist x y lm -> 0 < nr lm ->
  dtw cdist x y o = Ok d -> pattern_rules (r_stepPattern d) rules ->
  pattern_of s' sp' -> pattern_rules sp' rules' -> hint sp' = hint (r_stepPattern d) ->
  (forall r, In r rules <-> In r rules') ->
  exists d', dtw cdist x y (with_pattern o s') = Ok d' /\ r_stepPattern d' = sp' /\ r_jmin d' = r_jmin d /\
    eqb (r_distance d') (r_distance d) = true /\
    (hint sp' <> "NA" -> eqb (r_normalizedDistance d') (r_normalizedDistance d) = true).
Proof.
  intros HC Hn H Hp Hs Hr Hh Hi. assert (I1 : incl rules rules') by (intros r; apply Hi). assert (I2 : incl rules' rules) by (intros r; apply Hi).
  pose proof (ok_well_posed L _ _ _ _ _ _ _ HC H Hp Hn) as WP.
  pose proof (same_hint_wp _ _ _ _ _ _ _ _ _ _ _ WP Hs Hr Hh) as WP'.
  assert (E : exists d', dtw cdist x y (with_pattern o s') = Ok d' /\ r_stepPattern d' = sp').
  { destruct (o_open_end o) eqn:He.
    - destruct (more_open_end _ _ _ _ _ _ _ _ _ _ HC Hn H Hp He Hs Hr Hh I1) as [d' [A [B _]]]. eauto.
    - destruct (more_closed_end _ _ _ _ _ _ _ _ _ _ HC Hn H Hp He Hs Hr) as [d' [A [B _]]]; eauto.
      intros Ho. rewrite Hh. apply (wp_begin _ _ _ _ _ _ _ _ WP). exact Ho. }
  destruct E as [d' [H' E']]. exists d'. split; [exact H'|]. split; [exact E'|].
  assert (Hp' : pattern_rules (r_stepPattern d') rules') by (rewrite E'; exact Hr).
  destruct (dtw_fields L _ _ _ _ _ _ _ HC H Hp) as [F1 [_ [_ [_ [F5 [F6 [_ [F8 [F9 [F10 _]]]]]]]]]].
  destruct (dtw_fields L _ _ _ _ _ _ _ HC H' Hp') as [G1 [_ [_ [_ [G5 [G6 [_ [G8 [G9 [G10 _]]]]]]]]]].
  cbn [with_pattern o_window_type o_window_args o_open_end] in G5, G6, G9.
  assert (W : r_windowFunction d' = r_windowFunction d) by (rewrite <- (window_of_canon _ _ F5), <- (window_of_canon _ _ G5); reflexivity).
  pose proof (dtw_best L _ _ _ _ _ _ _ HC H Hp) as B. pose proof (dtw_best L _ _ _ _ _ _ _ HC H' Hp') as B'.
  cbn [with_pattern o_open_begin] in B'. rewrite F6 in B. rewrite G6, W in B'.
  pose proof (best_incl _ _ _ _ _ _ _ _ I2 I1 B') as B2. pose proof (best_incl _ _ _ _ _ _ _ _ I1 I2 B) as B3.
  assert (J : r_jmin d' = r_jmin d).
  { destruct (o_open_end o) eqn:He; [|rewrite F9, G9 by auto; reflexivity].
    destruct (open_end_choice L _ _ _ _ _ _ _ HC H Hp He Hn) as [_ [_ [C1 C2]]].
    destruct (open_end_choice L _ _ _ _ _ _ _ HC H' Hp' He Hn) as [_ [_ [D1 D2]]].
    cbn [with_pattern o_open_begin] in D2. rewrite F6 in C2. rewrite G6, W in D2.
    rewrite E', Hh in D1, D2.
    destruct (C2 _ _ G8 B2) as [C3 C4]. destruct (D2 _ _ F8 B3) as [D3 D4]. rewrite <- D1 in C3, C4. rewrite <- C1 in D3, D4.
    destruct (Nat.lt_trichotomy (r_jmin d') (r_jmin d)) as [T|[T|T]]; [|exact T|].
    - exfalso. pose proof (law_lt_le_trans _ L _ _ _ (C4 T) D3) as X. rewrite (law_lt_irrefl _ L) in X. discriminate.
    - exfalso. pose proof (law_lt_le_trans _ L _ _ _ (D4 T) C3) as X. rewrite (law_lt_irrefl _ L) in X. discriminate. }
  split; [exact J|]. rewrite J in B2.
  assert (D : eqb (r_distance d') (r_distance d) = true) by (eapply best_unique; eassumption).
  split; [exact D|]. intros Hna. rewrite F10, G10, E', Hh, J, F1, G1. rewrite Hh in Hna. destruct (String.eqb_spec (hint (r_stepPattern d)) "NA"); [contradiction|].
  destruct (wp_small _ _ _ _ _ _ _ _ WP) as [S1 S2].
  apply (law_le_antisym _ L); apply (normalized_mono L); try lia; apply (law_eq_le _ L); [exact D|rewrite (law_eq_sym _ L); exact D].
Qed.
Theorem same_rules_raise cdist x y (o : opts N) (lm : mat N) sp rules w s' sp' rules' e :
  well_posed cdist x y o lm sp rules w ->
  pattern_of s' sp' -> pattern_rules sp' rules' -> hint sp' = hint sp ->
  (forall r, In r rules <-> In r rules') ->
  dtw cdist x y o = Raise e -> dtw cdist x y (with_pattern o s') = Raise e.
Proof.
  intros WP Hs Hr Hh Hi H. pose proof (same_hint_wp _ _ _ _ _ _ _ _ _ _ _ WP Hs Hr Hh) as WP'.
  assert (I2 : incl rules' rules) by (intros r; apply Hi).
  destruct (o_open_end o) eqn:He.
  - destruct (dtw_open_end_iff L _ _ _ _ _ _ _ _ WP He) as [[E U]|[d [E _]]]; [|rewrite E in H; discriminate].
    rewrite E in H. injection H as <-.
    destruct (dtw_open_end_iff L _ _ _ _ _ _ _ _ WP' He) as [[E' _]|[d [_ [_ [_ [j [ks [vs [ts [c [Hj [A V]]]]]]]]]]]]; [exact E'|].
    exfalso. destruct (admissible_incl _ _ _ _ _ _ I2 _ _ _ _ _ A V) as [ks' [A' V']]. exact (U j Hj _ _ _ _ A' V').
  - destruct (dtw_closed_end_iff L _ _ _ _ _ _ _ _ WP He) as [[E U]|[d [E _]]]; [|rewrite E in H; discriminate].
    rewrite E in H. injection H as <-.
    destruct (dtw_closed_end_iff L _ _ _ _ _ _ _ _ WP' He) as [[E' _]|[d [_ [_ [_ [ks [vs [ts [c [A V]]]]]]]]]]; [exact E'|].
    exfalso. destruct (admissible_incl _ _ _ _ _ _ I2 _ _ _ _ _ A V) as [ks' [A' V']]. exact (U _ _ _ _ A' V').
Qed.

(** Every order of the productions of a well-formed pattern gives a well-formed pattern. *)
Lemma table_length (rs : list (rule N)) : forall k, List.length (table_from k rs) = list_sum (map (fun r => S (List.length (r_add r))) rs).
Proof.
  induction rs as [|r rs IH]; intros k; [reflexivity|]. cbn [table_from map]. rewrite app_length, IH.
  unfold rule_rows. cbn [List.length]. rewrite map_length. reflexivity.
Qed.
Lemma list_sum_perm l l' : Permutation l l' -> list_sum l = list_sum l'.
Proof. unfold list_sum. induction 1; cbn [fold_right] in *; lia. Qed.
Theorem any_order sp (rules rules' : list (rule N)) h : pattern_rules sp rules -> Permutation rules rules' ->
  pattern_rules (StepPat (table rules') h) rules' /\ (forall r, In r rules <-> In r rules').
Proof.
  intros [E [Hn [Hv [F1 F2]]]] P. split.
  - split; [reflexivity|]. split; [intros ->; apply Permutation_sym, Permutation_nil in P; contradiction|]. split.
    + rewrite forallb_forall in *. intros r Hr. apply Hv. eapply Permutation_in; [apply Permutation_sym; exact P|exact Hr].
    + split.
      * unfold table in *. rewrite table_length in *. rewrite <- (list_sum_perm _ _ (Permutation_map _ P)). exact F1.
      * rewrite Forall_forall in *. intros r Hr. apply F2. eapply Permutation_in; [apply Permutation_sym; exact P|exact Hr].
  - intros r. split; apply Permutation_in; [exact P|apply Permutation_sym; exact P].
Qed.
End R.
