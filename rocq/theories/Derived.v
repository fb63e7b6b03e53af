(** Derived.v - consequences of the main theorems in the form the properties need. *)
From Coq Require Import ZifyBool ZifyNat.
From Verif Require Import Base Num StepPattern Window Core Backtrack Dtw Spec Api Tables Vocab Terms
  DPProof DtwProof ApiProof ApiThms Thm1 Thm2 Thm3 Thm4 Thm5 Thm6 Thm7 Thm8 Bound Feas Thm9 Thm10.
Open Scope string_scope.
Open Scope list_scope.
Open Scope nat_scope.

Section Derived.
Context {N : Num}.
Variable L : NumLaws N.

Lemma named_rules k (sp : steppat N) l : lookup k pattern_table = Some sp -> lookup k predefined = Some l ->
  pattern_rules sp (productions l).
Proof.
  intros H1 H2. destruct (predefined_rules L k sp H1) as [l' [E R]]. rewrite E in H2. injection H2 as <-. exact R.
Qed.

(** C01 *)
Theorem optimal_closed cdist x y o (lm : mat N) d rules :
  costs_of cdist x y lm -> dtw cdist x y o = Ok d -> pattern_rules (r_stepPattern d) rules ->
  o_open_begin o = false -> o_open_end o = false ->
  forall ks vs ts c,
    closed_walk rules lm (r_windowFunction d) (r_windowArgs d) ks vs ts (nr lm - 1, nc lm - 1) c ->
    usable ks c -> leb (r_distance d) c = true.
Proof.
  intros HC H Hp Hb He ks vs ts c W U.
  destruct (dtw_best L _ _ _ _ _ _ _ HC H Hp) as [_ B].
  destruct (dtw_fields L _ _ _ _ _ _ _ HC H Hp) as [_ [_ [_ [_ [_ [_ [_ [_ [J _]]]]]]]]]. specialize (J He).
  rewrite Hb in B. eapply B; [|exact U]. unfold admissible, end_cell. rewrite J. exact W.
Qed.

(** C03 *)
Theorem found_iff cdist x y o (lm : mat N) sp rules w :
  well_posed cdist x y o lm sp rules w -> o_open_begin o = false -> o_open_end o = false ->
  ((exists d, dtw cdist x y o = Ok d) <->
   exists ks vs ts c, closed_walk rules lm w (o_window_args o) ks vs ts (nr lm - 1, nc lm - 1) c /\ usable ks c) /\
  (dtw cdist x y o = Raise no_path <->
   forall ks vs ts c, closed_walk rules lm w (o_window_args o) ks vs ts (nr lm - 1, nc lm - 1) c -> ~ usable ks c).
Proof.
  intros WP Hb He. destruct (dtw_closed_end_iff L _ _ _ _ _ _ _ _ WP He) as [[E U]|[d [E [_ [_ [ks [vs [ts [c [W U]]]]]]]]]];
  rewrite Hb in *; unfold unreachable, admissible, end_cell in *.
  - split; split.
    + intros [d F]. rewrite E in F. discriminate.
    + intros [ks [vs [ts [c [W Us]]]]]. exfalso. exact (U _ _ _ _ W Us).
    + intros _. exact U.
    + intros _. exact E.
  - split; split.
    + intros _. exists ks, vs, ts, c. auto.
    + intros _. exists d. exact E.
    + intros F. rewrite E in F. discriminate.
    + intros F. exfalso. exact (F _ _ _ _ W U).
Qed.
Theorem found_iff_open_end cdist x y o (lm : mat N) sp rules w :
  well_posed cdist x y o lm sp rules w -> o_open_begin o = false -> o_open_end o = true ->
  ((exists d, dtw cdist x y o = Ok d) <->
   exists j ks vs ts c, j < nc lm /\
     closed_walk rules lm w (o_window_args o) ks vs ts (nr lm - 1, j) c /\ usable ks c) /\
  (dtw cdist x y o = Raise (ValueError "All-NaN slice encountered") <->
   forall j ks vs ts c, j < nc lm ->
     closed_walk rules lm w (o_window_args o) ks vs ts (nr lm - 1, j) c -> ~ usable ks c).
Proof.
  intros WP Hb He. destruct (dtw_open_end_iff L _ _ _ _ _ _ _ _ WP He) as [[E U]|[d [E [_ [_ [j [ks [vs [ts [c [Hj [W U]]]]]]]]]]]];
  rewrite Hb in *; unfold unreachable, admissible, end_cell in *.
  - split; split.
    + intros [d F]. rewrite E in F. discriminate.
    + intros [j [ks [vs [ts [c [Hj [W Us]]]]]]]. exfalso. exact (U _ Hj _ _ _ _ W Us).
    + intros _. intros j ks vs ts c Hj. apply (U j Hj).
    + intros _. exact E.
  - split; split.
    + intros _. exists j, ks, vs, ts, c. auto.
    + intros _. exists d. exact E.
    + intros F. rewrite E in F. discriminate.
    + intros F. exfalso. exact (F _ _ _ _ _ Hj W U).
Qed.

(** C06, printed recursion of symmetric2 *)
Theorem symmetric2_recursion cdist x y o (lm : mat N) d :
  costs_of cdist x y lm -> dtw cdist x y o = Ok d -> r_stepPattern d = symmetric2 ->
  o_keep_internals o = true -> o_open_begin o = false ->
  exists g, r_costMatrix d = Some g /\ nr g = nr lm /\ nc g = nc lm /\
  forall i j, i < nr lm -> j < nc lm -> (i, j) <> (0, 0) ->
    in_window (r_windowFunction d) (r_windowArgs d) (nr lm) (nc lm) i j ->
    exists v, mget g i j = Some v /\
      least_of v (before g i j 1 1 (fun u => macc u (ofZ 2) (cell lm i j)) ++
                  before g i j 0 1 (fun u => macc u (ofZ 1) (cell lm i j)) ++
                  before g i j 1 0 (fun u => macc u (ofZ 1) (cell lm i j))).
Proof.
  intros HC H Hs Hk Hb.
  assert (Hp : pattern_rules (r_stepPattern d) (single_rules [((1, 1), ofZ 2); ((0, 1), ofZ 1); ((1, 0), ofZ 1)])).
  { rewrite Hs. apply (named_rules "symmetric2" symmetric2 _ eq_refl eq_refl). }
  destruct (recursion_single L _ _ _ _ _ _ _ HC H Hp Hk Hb) as [g [E1 [E2 [E3 R]]]].
  exists g. split; [exact E1|]. split; [exact E2|]. split; [exact E3|].
  intros i j Hi Hj Hij Hw. destruct (R i j Hi Hj Hij Hw) as [v [V1 V2]]. exists v. split; [exact V1|].
  cbn [flat_map fst snd app] in V2. rewrite app_nil_r in V2. exact V2.
Qed.

(** C04 *)
Lemma predefined_leaves_row k l : lookup k predefined = Some l -> leaves_row (@productions N l).
Proof.
  intros H.
  assert (G : forallb (fun kl => forallb (fun r => (w_di r =? 0) || forallb (fun a => fst (fst a) <? w_di r) (w_add r)) (snd kl)) predefined = true) by reflexivity.
  rewrite forallb_forall in G. specialize (G _ (lookup_In _ _ _ H)). cbn [snd] in G. rewrite forallb_forall in G.
  intros r a Hr Ha Hd. apply in_map_iff in Hr. destruct Hr as [w [<- Hw]].
  cbn [production r_add r_di] in *. apply in_map_iff in Ha. destruct Ha as [b [<- Hb]]. cbn [fst].
  specialize (G _ Hw). destruct (Nat.eqb_spec (w_di w) 0); [lia|]. cbn [orb] in G.
  rewrite forallb_forall in G. specialize (G _ Hb). lia.
Qed.
(** C07 *)
Lemma windows_ignore_sizes (kw : kwargs N) : ignores_sizes NoWindow kw /\ ignores_sizes SakoeChiba kw.
Proof. split; [exact I|]. intros i j n m n' m'. reflexivity. Qed.

(** C12 *)
Lemma relaxed_wp cdist x y o (lm : mat N) sp rules w t2 kw2 w2 :
  well_posed cdist x y o lm sp rules w -> window_of t2 w2 ->
  window_total w2 kw2 (rows_used (o_open_begin o) lm) (nc lm) ->
  well_posed cdist x y (set_window o t2 kw2) lm sp rules w2.
Proof. intros [A1 A2 A3 A4 A5 A6 A7 A8 A9 A10] Hw Ht. constructor; assumption. Qed.
Theorem relaxed_closed_end cdist x y o (lm : mat N) d rules t2 kw2 w2 :
  costs_of cdist x y lm -> dtw cdist x y o = Ok d -> pattern_rules (r_stepPattern d) rules ->
  0 < nr lm -> o_open_end o = false -> window_of t2 w2 ->
  window_total w2 kw2 (rows_used (o_open_begin o) lm) (nc lm) ->
  window_within (r_windowFunction d) (o_window_args o) w2 kw2 (rows_used (o_open_begin o) lm) (nc lm) ->
  exists d2, dtw cdist x y (set_window o t2 kw2) = Ok d2 /\ leb (r_distance d2) (r_distance d) = true.
Proof.
  intros HC H Hp Hn He Hw Ht Hi.
  pose proof (relaxed_wp _ _ _ _ _ _ _ _ _ _ _ (ok_well_posed L _ _ _ _ _ _ _ HC H Hp Hn) Hw Ht) as WP.
  destruct (dominates_closed_end L _ _ _ _ _ _ _ _ _ _ _ _ _ _ HC H Hp WP He He eq_refl
    ltac:(apply (dominates_window L); exact Hi)) as [d2 [E [_ B]]].
  exists d2. auto.
Qed.
Theorem relaxed_open_end cdist x y o (lm : mat N) d rules t2 kw2 w2 :
  costs_of cdist x y lm -> dtw cdist x y o = Ok d -> pattern_rules (r_stepPattern d) rules ->
  0 < nr lm -> o_open_end o = true -> window_of t2 w2 ->
  window_total w2 kw2 (rows_used (o_open_begin o) lm) (nc lm) ->
  window_within (r_windowFunction d) (o_window_args o) w2 kw2 (rows_used (o_open_begin o) lm) (nc lm) ->
  exists d2, dtw cdist x y (set_window o t2 kw2) = Ok d2 /\
    leb (r_normalizedDistance d2) (r_normalizedDistance d) = true.
Proof.
  intros HC H Hp Hn He Hw Ht Hi.
  pose proof (relaxed_wp _ _ _ _ _ _ _ _ _ _ _ (ok_well_posed L _ _ _ _ _ _ _ HC H Hp Hn) Hw Ht) as WP.
  destruct (dominates_open_end L _ _ _ _ _ _ _ _ _ _ _ _ _ _ HC H Hp WP He eq_refl eq_refl
    ltac:(apply (dominates_window L); exact Hi)) as [d2 [E [_ B]]].
  exists d2. auto.
Qed.

(** C13 *)
Theorem open_end_choice cdist x y o (lm : mat N) d rules :
  costs_of cdist x y lm -> dtw cdist x y o = Ok d -> pattern_rules (r_stepPattern d) rules ->
  o_open_end o = true -> 0 < nr lm ->
  r_jmin d < nc lm /\
  best_to (o_open_begin o) rules lm (r_windowFunction d) (r_windowArgs d) (r_jmin d) (r_distance d) /\
  r_normalizedDistance d = normalized (hint (r_stepPattern d)) (nr lm) (r_jmin d) (r_distance d) /\
  forall j c, j < nc lm ->
    best_to (o_open_begin o) rules lm (r_windowFunction d) (r_windowArgs d) j c ->
    leb (r_normalizedDistance d) (normalized (hint (r_stepPattern d)) (nr lm) j c) = true /\
    (j < r_jmin d ->
     ltb (r_normalizedDistance d) (normalized (hint (r_stepPattern d)) (nr lm) j c) = true).
Proof.
  intros HC H Hp He Hn.
  destruct (dtw_fields L _ _ _ _ _ _ _ HC H Hp) as [F1 [_ [_ [_ [_ [_ [_ [J [_ [F [_ [F2 _]]]]]]]]]]]].
  split; [exact J|]. split; [exact (dtw_best L _ _ _ _ _ _ _ HC H Hp)|]. split.
  - rewrite F, F1. destruct (String.eqb_spec (hint (r_stepPattern d)) "NA"); [|reflexivity].
    exfalso. exact (F2 He e).
  - exact (dtw_open_end_best L _ _ _ _ _ _ _ HC H Hp He Hn).
Qed.
Theorem open_end_below_closed cdist x y o (lm : mat N) d rules :
  costs_of cdist x y lm -> dtw cdist x y (set_open_end false o) = Ok d ->
  pattern_rules (r_stepPattern d) rules -> 0 < nr lm -> hint (r_stepPattern d) <> "NA" ->
  exists d2, dtw cdist x y (set_open_end true o) = Ok d2 /\
    leb (r_normalizedDistance d2) (r_normalizedDistance d) = true.
Proof.
  intros HC H Hp Hn Hh.
  pose proof (ok_well_posed L _ _ _ _ _ _ _ HC H Hp Hn) as WP1.
  assert (WP : well_posed cdist x y (set_open_end true o) lm (r_stepPattern d) rules (r_windowFunction d)).
  { destruct WP1 as [A1 A2 A3 A4 A5 A6 A7 A8 A9 A10]. constructor; try assumption. intros _. exact Hh. }
  assert (D : dominates (o_open_begin (set_open_end false o)) rules rules lm lm (r_windowFunction d) (r_windowFunction d)
    (o_window_args (set_open_end false o)) (o_window_args (set_open_end true o))).
  { apply (dominates_window L). intros i j _ _ Hw. exact Hw. }
  destruct (dominates_open_end L _ _ _ _ _ _ _ _ _ _ _ _ _ _ HC H Hp WP eq_refl eq_refl eq_refl D) as [d2 [E [_ B]]].
  exists d2. auto.
Qed.

(** C14 *)
Theorem open_begin_optimal cdist x y o (lm : mat N) d rules :
  costs_of cdist x y lm -> dtw cdist x y o = Ok d -> pattern_rules (r_stepPattern d) rules ->
  o_open_begin o = true ->
  exists mp ks vs ts, r_map d = Some mp /\
    open_walk rules lm (r_windowFunction d) (r_windowArgs d) ks vs ts (nr lm, r_jmin d) (r_distance d) /\
    usable ks (r_distance d) /\ describes_open mp ks vs ts /\
    forall ks' vs' ts' c,
      open_walk rules lm (r_windowFunction d) (r_windowArgs d) ks' vs' ts' (nr lm, r_jmin d) c ->
      usable ks' c -> leb (r_distance d) c = true.
Proof.
  intros HC H Hp Hb.
  destruct (dtw_fields L _ _ _ _ _ _ _ HC H Hp) as [_ [_ [_ [_ [_ [_ [_ [_ [_ [_ [F _]]]]]]]]]]].
  destruct (dtw_alignment L _ _ _ _ _ _ _ HC H Hp (proj2 (F Hb))) as [mp [ks [vs [ts [E [W [U [_ D]]]]]]]].
  destruct (dtw_best L _ _ _ _ _ _ _ HC H Hp) as [_ B]. rewrite Hb in *.
  exists mp, ks, vs, ts. repeat (split; [assumption|]). exact B.
Qed.
Theorem open_begin_found_iff cdist x y o (lm : mat N) sp rules w :
  well_posed cdist x y o lm sp rules w -> o_open_begin o = true -> o_open_end o = false ->
  ((exists d, dtw cdist x y o = Ok d) <->
   exists ks vs ts c, open_walk rules lm w (o_window_args o) ks vs ts (nr lm, nc lm - 1) c /\ usable ks c) /\
  (dtw cdist x y o = Raise no_path <->
   forall ks vs ts c, open_walk rules lm w (o_window_args o) ks vs ts (nr lm, nc lm - 1) c -> ~ usable ks c).
Proof.
  intros WP Hb He. destruct (dtw_closed_end_iff L _ _ _ _ _ _ _ _ WP He) as [[E U]|[d [E [_ [_ [ks [vs [ts [c [W U]]]]]]]]]];
  rewrite Hb in *; unfold unreachable, admissible, end_cell in *.
  - split; split.
    + intros [d F]. rewrite E in F. discriminate.
    + intros [ks [vs [ts [c [W Us]]]]]. exfalso. exact (U _ _ _ _ W Us).
    + intros _. exact U.
    + intros _. exact E.
  - split; split.
    + intros _. exists ks, vs, ts, c. auto.
    + intros _. exists d. exact E.
    + intros F. rewrite E in F. discriminate.
    + intros F. exfalso. exact (F _ _ _ _ W U).
Qed.

(** C15 *)
Theorem normalization_rule cdist x y o (lm : mat N) d rules :
  costs_of cdist x y lm -> dtw cdist x y o = Ok d -> pattern_rules (r_stepPattern d) rules ->
  (hint (r_stepPattern d) = "N+M" ->
     r_normalizedDistance d = div (r_distance d) (ofZ (Z.of_nat (nr lm) + Z.of_nat (r_jmin d) + 1))) /\
  (hint (r_stepPattern d) = "N" ->
     r_normalizedDistance d = div (r_distance d) (ofZ (Z.of_nat (nr lm)))) /\
  (hint (r_stepPattern d) = "M" ->
     r_normalizedDistance d = div (r_distance d) (ofZ (1 + Z.of_nat (r_jmin d)))) /\
  (hint (r_stepPattern d) = "NA" -> r_normalizedDistance d = nan) /\
  (o_open_end o = false -> r_jmin d = nc lm - 1).
Proof.
  intros HC H Hp.
  destruct (dtw_fields L _ _ _ _ _ _ _ HC H Hp) as [F1 [_ [_ [_ [_ [_ [_ [J [J2 [F _]]]]]]]]]].
  rewrite F, F1. repeat split; try exact J2; intros E; rewrite E; reflexivity.
Qed.

(** C21 *)
Lemma raised_wp cdist x y x' y' o (lm lm' : mat N) d' rules :
  costs_of cdist x y lm -> (o_open_begin o = true \/ native_array x y) ->
  costs_of cdist x' y' lm' -> dtw cdist x' y' o = Ok d' -> pattern_rules (r_stepPattern d') rules ->
  0 < nr lm -> raised lm lm' ->
  well_posed cdist x y o lm (r_stepPattern d') rules (r_windowFunction d').
Proof.
  intros HC Hn HC' H Hp H0 [R1 [R2 _]].
  assert (H0' : 0 < nr lm') by lia.
  assert (Er : rows_used (o_open_begin o) lm' = rows_used (o_open_begin o) lm) by (unfold rows_used; rewrite R1; reflexivity).
  destruct (ok_well_posed L _ _ _ _ _ _ _ HC' H Hp H0') as [A1 A2 A3 A4 A5 A6 A7 A8 A9 A10].
  rewrite Er, R2 in *. constructor; assumption.
Qed.
Theorem raised_closed_end cdist x y x' y' o (lm lm' : mat N) d' rules :
  costs_of cdist x y lm -> (o_open_begin o = true \/ native_array x y) ->
  costs_of cdist x' y' lm' -> dtw cdist x' y' o = Ok d' -> pattern_rules (r_stepPattern d') rules ->
  0 < nr lm -> nonneg_weights rules -> nonneg_costs lm -> raised lm lm' -> o_open_end o = false ->
  exists d, dtw cdist x y o = Ok d /\ leb (r_distance d) (r_distance d') = true.
Proof.
  intros HC Hn HC' H Hp H0 Hw Hc Hr He.
  pose proof (raised_wp _ _ _ _ _ _ _ _ _ _ HC Hn HC' H Hp H0 Hr) as WP.
  assert (Wf : wf_mat lm) by (destruct HC; assumption).
  assert (Wf' : wf_mat lm') by (destruct HC'; assumption).
  destruct (dominates_closed_end L _ _ _ _ _ _ _ _ _ _ _ _ _ _ HC' H Hp WP He He eq_refl) as [d [E [_ B]]].
  { apply (dominates_raised L); try assumption. destruct Hp as [_ [_ [Hv _]]]. exact Hv. }
  exists d. auto.
Qed.
Theorem raised_open_end cdist x y x' y' o (lm lm' : mat N) d' rules :
  costs_of cdist x y lm -> (o_open_begin o = true \/ native_array x y) ->
  costs_of cdist x' y' lm' -> dtw cdist x' y' o = Ok d' -> pattern_rules (r_stepPattern d') rules ->
  0 < nr lm -> nonneg_weights rules -> nonneg_costs lm -> raised lm lm' -> o_open_end o = true ->
  exists d, dtw cdist x y o = Ok d /\ leb (r_normalizedDistance d) (r_normalizedDistance d') = true.
Proof.
  intros HC Hn HC' H Hp H0 Hw Hc Hr He.
  pose proof (raised_wp _ _ _ _ _ _ _ _ _ _ HC Hn HC' H Hp H0 Hr) as WP.
  assert (Wf : wf_mat lm) by (destruct HC; assumption).
  assert (Wf' : wf_mat lm') by (destruct HC'; assumption).
  destruct (dominates_open_end L _ _ _ _ _ _ _ _ _ _ _ _ _ _ HC' H Hp WP He eq_refl eq_refl) as [d [E [_ B]]].
  { apply (dominates_raised L); try assumption. destruct Hp as [_ [_ [Hv _]]]. exact Hv. }
  exists d. auto.
Qed.

Lemma predefined_nonneg k l : lookup k predefined = Some l -> ~ In k negative_names ->
  nonneg_weights (@productions N l).
Proof.
  intros H Hk.
  assert (G : forallb (fun kl => String.eqb (fst kl) "_symmetricVelichkoZagoruyko" || forallb wnonneg (snd kl)) predefined = true) by reflexivity.
  rewrite forallb_forall in G. specialize (G _ (lookup_In _ _ _ H)). cbn [fst snd] in G.
  destruct (String.eqb_spec k "_symmetricVelichkoZagoruyko") as [->|]; [exfalso; apply Hk; left; reflexivity|].
  cbn [orb] in G. rewrite forallb_forall in G.
  destruct (predefined_good _ _ H) as [_ [V _]]. rewrite forallb_forall in V.
  intros r a Hr Ha. apply in_map_iff in Hr. destruct Hr as [w [<- Hw]].
  cbn [production r_add] in Ha. apply in_map_iff in Ha. destruct Ha as [b [<- Hb]]. cbn [snd].
  specialize (G _ Hw). unfold wnonneg in G. rewrite forallb_forall in G. specialize (G _ Hb).
  specialize (V _ Hw). unfold wvalid in V. apply andb_prop in V. destruct V as [V _]. apply andb_prop in V. destruct V as [V _].
  apply andb_prop in V. destruct V as [_ V]. rewrite forallb_forall in V. specialize (V _ Hb).
  apply (weight_nonneg L); [exact V|]. apply Z.leb_le. exact G.
Qed.
Definition wdiagonal (r : wrule) : bool :=
  (w_di r =? 1) && (w_dj r =? 1) &&
  forallb (fun a => (fst (fst a) =? 0) && (snd (fst a) =? 0) && wweight_ok (snd a)) (w_add r).
Lemma predefined_diagonal k l : lookup k predefined = Some l ->
  exists q r, rule_no (@productions N l) q = Some r /\ diagonal_rule r.
Proof.
  intros H.
  assert (G : forallb (fun kl => existsb wdiagonal (snd kl)) predefined = true) by reflexivity.
  rewrite forallb_forall in G. specialize (G _ (lookup_In _ _ _ H)). cbn [snd] in G.
  apply existsb_exists in G. destruct G as [w [Hw Hd]].
  apply In_nth_error in Hw. destruct Hw as [q Hq].
  exists (S q), (production w). split.
  { cbn [rule_no]. unfold productions. rewrite nth_error_map, Hq. reflexivity. }
  unfold wdiagonal in Hd. apply andb_prop in Hd. destruct Hd as [Hd H3].
  split; [cbn [production r_di]; lia|]. split; [cbn [production r_dj]; lia|].
  intros a Ha. cbn [production r_add] in Ha. apply in_map_iff in Ha. destruct Ha as [b [<- Hb]]. cbn [fst snd].
  rewrite forallb_forall in H3. specialize (H3 _ Hb). destruct b as [[p1 p2] q2]. cbn [fst snd] in *.
  apply andb_prop in H3. destruct H3 as [H3 H4]. split; [f_equal; lia|]. apply (weight_fin L). exact H4.
Qed.
Theorem identity_named cdist x y o (lm : mat N) k sp rules :
  well_posed cdist x y o lm sp rules NoWindow ->
  lookup k pattern_table = Some sp -> ~ In k negative_names ->
  o_open_begin o = false -> o_open_end o = false -> nr lm = nc lm -> nonneg_costs lm ->
  (forall i, i < nr lm -> eqb (cell lm i i) (ofZ 0) = true) ->
  exists d, dtw cdist x y o = Ok d /\ eqb (r_distance d) (ofZ 0) = true.
Proof.
  intros WP Hk Hneg Hb He Hsq Hc Hd.
  destruct (predefined_rules L _ _ Hk) as [l [El Hl]].
  assert (WP' : well_posed cdist x y o lm sp (productions l) NoWindow).
  { destruct WP as [A1 A2 A3 A4 A5 A6 A7 A8 A9 A10]. constructor; assumption. }
  destruct (predefined_diagonal _ _ El) as [q [r [Hr Hdr]]].
  eapply (dtw_identity L _ _ _ _ _ _ _ _ _ _ WP'); try eassumption.
  - eapply predefined_nonneg; eassumption.
  - intros i _ _. exact I.
Qed.
Theorem nonneg_named cdist x y o (lm : mat N) d k :
  costs_of cdist x y lm -> dtw cdist x y o = Ok d ->
  lookup k pattern_table = Some (r_stepPattern d) -> ~ In k negative_names -> nonneg_costs lm ->
  leb (ofZ 0) (r_distance d) = true.
Proof.
  intros HC H Hk Hneg Hc. destruct (predefined_rules L _ _ Hk) as [l [El Hl]].
  apply (dtw_nonneg L _ _ _ _ _ _ _ HC H Hl); [eapply predefined_nonneg; eassumption|exact Hc].
Qed.

(** C24 *)
Theorem one_per_query_named cdist x y o (lm : mat N) d k :
  costs_of cdist x y lm -> dtw cdist x y o = Ok d ->
  In k one_per_query -> lookup k pattern_table = Some (r_stepPattern d) ->
  o_distance_only o = false -> 0 < nr lm ->
  exists mp, r_map d = Some mp /\ index1 mp = map Z.of_nat (seq 0 (nr lm)) /\ index1s mp = index1 mp /\
    index2s mp = index2 mp /\ List.length (index2 mp) = nr lm.
Proof.
  intros HC H Hi Hk Hd Hn. destruct (predefined_rules L _ _ Hk) as [l [El Hl]].
  eapply (row_by_row_closed L); try eassumption. eapply one_per_query_ok; eassumption.
Qed.
Theorem one_per_query_mvm cdist x y o (lm : mat N) d e :
  costs_of cdist x y lm -> dtw cdist x y o = Ok d ->
  r_stepPattern d = mvmStepPattern e -> 1 <= e -> (8 * Z.of_nat e <= INT_MAX)%Z ->
  o_distance_only o = false -> 0 < nr lm ->
  exists mp, r_map d = Some mp /\ index1 mp = map Z.of_nat (seq 0 (nr lm)) /\ index1s mp = index1 mp /\
    index2s mp = index2 mp /\ List.length (index2 mp) = nr lm.
Proof.
  intros HC H Hs He He2 Hd Hn. 
  assert (Hp : pattern_rules (r_stepPattern d) (productions (mvm_productions e))) by (rewrite Hs; apply (mvm_rules L); assumption).
  eapply (row_by_row_closed L); try eassumption. apply mvm_row_by_row.
Qed.

(** C20, named symmetric patterns *)
Theorem symmetric_named cdist x y o (lm : mat N) k sp rules x' y' o' :
  well_posed cdist x y o lm sp rules NoWindow ->
  In k symmetric_names -> lookup k pattern_table = Some sp ->
  o_open_begin o = false -> o_open_end o = false ->
  costs_of cdist x' y' (transpose nan lm) -> native_array x' y' ->
  o_step_pattern o' = o_step_pattern o -> o_window_type o' = o_window_type o ->
  o_window_args o' = o_window_args o -> o_open_begin o' = false -> o_open_end o' = false ->
  (forall d, dtw cdist x y o = Ok d ->
    exists d', dtw cdist x' y' o' = Ok d' /\ eqb (r_distance d') (r_distance d) = true) /\
  (dtw cdist x y o = Raise no_path -> dtw cdist x' y' o' = Raise no_path).
Proof.
  intros WP Hi Hk Hb He HC Hn E1 E2 E3 E4 E5.
  destruct (predefined_rules L _ _ Hk) as [l [El Hl]].
  assert (WP' : well_posed cdist x y o lm sp (productions l) NoWindow).
  { destruct WP as [A1 A2 A3 A4 A5 A6 A7 A8 A9 A10]. constructor; assumption. }
  eapply (symmetric_pattern L); try eassumption.
  - eapply symmetric_names_ok; eassumption.
  - apply symmetric_no_window.
Qed.

(** C37, part: outcomes of well-posed calls *)
Theorem well_posed_outcome cdist x y o (lm : mat N) sp rules w :
  well_posed cdist x y o lm sp rules w ->
  (exists d, dtw cdist x y o = Ok d) \/ dtw cdist x y o = Raise no_path \/
  dtw cdist x y o = Raise (ValueError "All-NaN slice encountered").
Proof.
  intros WP. destruct (o_open_end o) eqn:He.
  - destruct (dtw_open_end_iff L _ _ _ _ _ _ _ _ WP He) as [[E _]|[d [E _]]]; eauto.
  - destruct (dtw_closed_end_iff L _ _ _ _ _ _ _ _ WP He) as [[E _]|[d [E _]]]; eauto.
Qed.
(** C38 *)
Theorem backtrack_steps cdist x y o (lm : mat N) d rules :
  costs_of cdist x y lm -> dtw cdist x y o = Ok d -> pattern_rules (r_stepPattern d) rules ->
  o_distance_only o = false ->
  exists mp, r_map d = Some mp /\
    List.length (stepsTaken mp) <= rows_used (o_open_begin o) lm - 1 + r_jmin d.
Proof.
  intros HC H Hp Hd.
  destruct (dtw_alignment L _ _ _ _ _ _ _ HC H Hp Hd) as [mp [ks [vs [ts [E [W [U [Hl D]]]]]]]].
  exists mp. split; [exact E|].
  assert (El : stepsTaken mp = map Z.of_nat ks).
  { destruct (o_open_begin o); [destruct D as [p0 [vs' [ts' [_ [_ [_ [_ [_ [_ D]]]]]]]]]; exact D|destruct D as [_ [_ [_ [_ D]]]]; exact D]. }
  rewrite El, map_length. exact Hl.
Qed.
End Derived.
