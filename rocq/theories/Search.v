(** Search.v - finding the query in the reference (proofs for C83). *)
From Coq Require Import ZifyBool ZifyNat.
From Verif Require Import Base Num NumQ NumQLaws NumF NumFLaws StepPattern Window Core Backtrack Dtw Spec Api Tables Vocab Terms
  CoreProof DPProof DtwProof ApiProof ApiThms WalkGeom Thm2 Thm3 Thm5 Thm10 Thm23 Thm24 ZeroSum SeriesSpec Derived Derived2 SearchSpec.
Import ListNotations.
Open Scope string_scope.
Open Scope list_scope.
Open Scope nat_scope.

Section S.
Context {N : Num}.
Variable L : NumLaws N.

Definition rigid_only : list (rule N) := productions [W 1 1 [(0, 0, (1, 1)%Z)]].
Let diag : rule N := production (W 1 1 [(0, 0, (1, 1)%Z)]).
Lemma rigid_pattern_rules : pattern_rules (@rigid N) rigid_only.
Proof. apply (wgood_rules L); [|reflexivity]. eapply (predefined_good "rigid"). reflexivity. Qed.

Definition upto (lm : mat N) (s i : nat) : N := fold_left (fun c t => macc c (ofZ 1) (cell lm t (s + t))) (seq 0 i) (ofZ 0).
Lemma upto_S lm s i : upto lm s (S i) = macc (upto lm s i) (ofZ 1) (cell lm i (s + i)).
Proof. unfold upto. rewrite seq_S, fold_left_app. reflexivity. Qed.
Lemma rigid_charge (lm : mat N) i j c : wf_mat lm -> i < nr lm -> j + 1 < nc lm ->
  charge (cell (padded lm)) diag (i + 1) (j + 1) c = macc c (ofZ 1) (cell lm i (j + 1)).
Proof.
  intros Hwf Hi Hj. unfold charge, diag. cbn [production r_add w_add map fold_left fst snd weight Z.eqb Pos.eqb].
  rewrite !Nat.sub_0_r, padded_cell by (auto; lia). replace (i + 1 =? 0) with false by lia. replace (i + 1 - 1) with i by lia. reflexivity.
Qed.

Lemma rigid_walk (lm : mat N) w kw ks vs ts q c : wf_mat lm -> open_walk rigid_only lm w kw ks vs ts q c ->
  exists j0, snd q = j0 + fst q /\ snd q < nc lm /\ c = upto lm (S j0) (fst q) /\ vs = map (fun t => (t, j0 + t)) (seq 0 (S (fst q))) /\ ts = vs /\
    forall i, i < fst q -> in_window w kw (nr lm + 1) (nc lm) (i + 1) (S j0 + i).
Proof.
  intros Hwf W. unfold open_walk in W. induction W as [i j c Hs Hi Hj|ks vs ts i0 j0 c k r W IH Hk Hi Hj [Ha1 Ha2]].
  - unfold open_source in Hs. destruct (Nat.eqb_spec i 0) as [->|]; [|discriminate]. injection Hs as <-. exists j. cbn [fst snd].
    split; [lia|]. split; [exact Hj|]. split; [reflexivity|]. split; [cbn; rewrite Nat.add_0_r; reflexivity|]. split; [reflexivity|]. intros i Hi'. lia.
  - destruct k as [|[|[|k]]]; try discriminate.
    assert (Er : diag = r) by exact (f_equal (fun o => match o with Some a => a | None => r end) Hk).
    clear Hk. subst r.
    change (r_di diag) with 1 in *. change (r_dj diag) with 1 in *.
    destruct IH as [s [E1 [E2 [E3 [E4 [E5 E6]]]]]]. cbn [fst snd] in *. subst j0 ts. exists s.
    split; [lia|]. split; [exact Hj|]. split.
    { rewrite rigid_charge by (auto; lia). rewrite (Nat.add_1_r i0), upto_S, E3. f_equal. f_equal. lia. }
    split; [|split].
    + rewrite (Nat.add_1_r i0), (seq_S (S i0)), map_app, E4. cbn [map]. f_equal. f_equal. f_equal. lia.
    + f_equal.
    + intros i Hi'. destruct (Nat.eq_dec i i0) as [->|]; [|apply E6; lia]. replace (S s + i0) with (s + i0 + 1) by lia. exact Ha2.
Qed.
Lemma rigid_walk_back (lm : mat N) w kw s : wf_mat lm -> 1 <= s -> forall i, s + i <= nc lm -> i <= nr lm ->
  (forall t, t < i -> in_window w kw (nr lm + 1) (nc lm) (t + 1) (s + t)) ->
  exists vs ts, open_walk rigid_only lm w kw (repeat 1 i) vs ts (i, s + i - 1) (upto lm s i).
Proof.
  intros Hwf Hs. induction i as [|i IH]; intros Hi Hn Hw.
  - exists [(0, s + 0 - 1)], [(0, s + 0 - 1)]. apply walk_start; [reflexivity|lia|lia].
  - destruct IH as [vs [ts W]]; [lia|lia|intros; apply Hw; lia|].
    replace (repeat 1 (S i)) with (repeat 1 i ++ [1]) by (rewrite <- repeat_cons; reflexivity).
    pose proof (walk_step rigid_only _ _ _ _ (fun a b => 1 <= a /\ in_window w kw (nr lm + 1) (nc lm) a b) _ _ _ _ _ _ 1
      diag W eq_refl) as Q.
    change (r_di diag) with 1 in Q. change (r_dj diag) with 1 in Q.
    rewrite rigid_charge in Q by (auto; lia). replace (s + i - 1 + 1) with (s + i) in Q by lia. rewrite <- upto_S in Q.
    replace (s + S i - 1) with (s + i) by lia. replace (S i, s + i) with (i + 1, s + i) by (f_equal; lia).
    eexists _, _. apply Q; [lia|lia|]. split; [lia|]. apply Hw. lia.
Qed.
Lemma gapless_upto (lm : mat N) s : overlay lm s = upto lm s (nr lm).
Proof. reflexivity. Qed.

(** What it means to end in column j. *)
Lemma rigid_best (lm : mat N) w kw s : wf_mat lm -> 0 < nr lm -> place lm w kw s -> good (overlay lm s) ->
  best_to true rigid_only lm w kw (s + nr lm - 1) (overlay lm s).
Proof.
  intros Hwf Hn [H1 [H2 H3]] G. destruct (rigid_walk_back lm w kw s Hwf H1 (nr lm) H2 (le_n _) H3) as [vs [ts W]]. split.
  - exists (repeat 1 (nr lm)), vs, ts. split; [exact W|]. split; [apply (law_good_not_nan _ L); exact G|intros _; exact G].
  - intros ks' vs' ts' c' W' _. unfold admissible, end_cell in W'. destruct (rigid_walk lm w kw _ _ _ _ _ Hwf W') as [j0 [E1 [_ [E3 _]]]].
    cbn [fst snd] in *. rewrite E3. replace (S j0) with s by lia. apply (law_le_refl _ L), (law_good_not_nan _ L). exact G.
Qed.
Lemma rigid_reached (lm : mat N) w kw j ks vs ts c : wf_mat lm -> 0 < nr lm ->
  admissible true rigid_only lm w kw ks vs ts (end_cell true lm j) c -> usable ks c ->
  exists s, j = s + nr lm - 1 /\ place lm w kw s /\ c = overlay lm s /\ good c.
Proof.
  intros Hwf Hn W U. unfold admissible, end_cell in W. destruct (rigid_walk lm w kw _ _ _ _ _ Hwf W) as [j0 [E1 [E2 [E3 [E4 [E5 E6]]]]]].
  cbn [fst snd] in *. exists (S j0). split; [lia|]. split; [split; [lia|split; [lia|exact E6]]|]. split; [exact E3|].
  apply U. intros Eks. unfold open_walk in W. inversion W as [? ? ? Hsrc|ks0]; subst.
  - unfold open_source in Hsrc. destruct (Nat.eqb_spec (nr lm) 0); [lia|discriminate].
  - destruct ks0; discriminate.
Qed.

Theorem gapless_search cdist x y o (lm : mat N) rules w :
  well_posed cdist x y o lm rigid rules w -> o_open_begin o = true -> o_open_end o = true ->
  (dtw cdist x y o = Raise (ValueError "All-NaN slice encountered") /\
   forall s, place lm w (o_window_args o) s -> ~ good (overlay lm s)) \/
  (exists d mp s, dtw cdist x y o = Ok d /\ r_map d = Some mp /\
    place lm w (o_window_args o) s /\ good (overlay lm s) /\
    r_distance d = overlay lm s /\ r_normalizedDistance d = div (overlay lm s) (ofZ (Z.of_nat (nr lm))) /\
    index1 mp = map Z.of_nat (seq 0 (nr lm)) /\ index2 mp = map Z.of_nat (seq s (nr lm)) /\ r_jmin d = s + nr lm - 1 /\
    forall s', place lm w (o_window_args o) s' -> good (overlay lm s') ->
      leb (r_normalizedDistance d) (div (overlay lm s') (ofZ (Z.of_nat (nr lm)))) = true /\
      (s' < s -> ltb (r_normalizedDistance d) (div (overlay lm s') (ofZ (Z.of_nat (nr lm)))) = true)).
Proof.
  intros WP0 Hb He.
  assert (WP : well_posed cdist x y o lm rigid rigid_only w).
  { destruct WP0 as [w1 w2 w3 w4 w5 w6 w7 w8 w9 w10]. constructor; auto. apply rigid_pattern_rules. }
  clear WP0 rules. pose proof (wp_query _ _ _ _ _ _ _ _ WP) as Hn. pose proof (wp_costs _ _ _ _ _ _ _ _ WP) as HC.
  pose proof (costs_of_wf _ _ _ _ HC) as Hwf.
  destruct (dtw_open_end_iff L _ _ _ _ _ _ _ _ WP He) as [[F Un]|[d [F [F2 [F3 _]]]]].
  - left. split; [exact F|]. intros s P G. rewrite Hb in Un.
    destruct (rigid_best lm w (o_window_args o) s Hwf Hn P G) as [[ks [vs [ts [W U]]]] _].
    apply (Un (s + nr lm - 1) ltac:(destruct P; lia) _ _ _ _ W U).
  - right. assert (Hp : pattern_rules (r_stepPattern d) rigid_only) by (rewrite F2; apply rigid_pattern_rules).
    destruct (open_end_choice L _ _ _ _ _ _ _ HC F Hp He Hn) as [J [B [En C]]].
    destruct (dtw_fields L _ _ _ _ _ _ _ HC F Hp) as [_ [_ [_ [_ [_ [F6 [_ [_ [_ [_ [F11 _]]]]]]]]]]].
    destruct (F11 Hb) as [_ Hd]. destruct (dtw_alignment L _ _ _ _ _ _ _ HC F Hp Hd) as [mp [ks [vs [ts [Em [W [U [_ D]]]]]]]].
    rewrite Hb, F3, F6 in *. rewrite F2 in En, C. change (hint (@rigid N)) with "N" in En, C.
    destruct (rigid_reached lm w (o_window_args o) _ _ _ _ _ Hwf Hn W U) as [s [Ej [P [Ec G]]]].
    exists d, mp, s. split; [exact F|]. split; [exact Em|]. split; [exact P|]. split; [rewrite <- Ec; exact G|]. split; [exact Ec|].
    split; [rewrite <- Ec; exact En|].
    unfold admissible, end_cell in W. destruct (rigid_walk lm w _ _ _ _ _ _ Hwf W) as [j0 [E1 [E2 [_ [E4 [E5 _]]]]]]. cbn [fst snd] in *.
    destruct P as [P1 [P2 P3]].
    assert (E0 : s = S j0) by lia. destruct D as [p0 [v0 [t0 [D1 [D2 [D3 [D4 _]]]]]]].
    rewrite E5, E4 in D2. cbn [seq map] in D2. injection D2 as _ D2. subst t0.
    assert (SH : forall a, seq a (nr lm) = map (fun t => a + t) (seq 0 (nr lm))).
    { clear. intros a. induction (nr lm) as [|n IH]; [reflexivity|]. rewrite !seq_S, map_app, IH. reflexivity. }
    split; [rewrite D3, (SH 1), !map_map; apply map_ext; intros a; unfold query_ix_open; cbn [fst]; lia|].
    split; [rewrite D4, (SH 1), (SH s), !map_map; apply map_ext; intros a; unfold ref_ix; cbn [snd]; lia|]. split; [exact Ej|].
    intros s' P' G'. destruct (C (s' + nr lm - 1) (overlay lm s') ltac:(destruct P'; lia) (rigid_best lm w _ s' Hwf Hn P' G')) as [C1 C2].
    split; [exact C1|]. intros Hlt. apply C2. lia.
Qed.

Theorem gapless_closed_end cdist x y o (lm : mat N) rules w :
  well_posed cdist x y o lm rigid rules w -> o_open_begin o = true -> o_open_end o = false ->
  (dtw cdist x y o = Raise no_path /\
   (place lm w (o_window_args o) (nc lm - nr lm) -> ~ good (overlay lm (nc lm - nr lm)))) \/
  (exists d, dtw cdist x y o = Ok d /\ place lm w (o_window_args o) (nc lm - nr lm) /\ good (overlay lm (nc lm - nr lm)) /\
    r_distance d = overlay lm (nc lm - nr lm)).
Proof.
  intros WP0 Hb He.
  assert (WP : well_posed cdist x y o lm rigid rigid_only w).
  { destruct WP0 as [w1 w2 w3 w4 w5 w6 w7 w8 w9 w10]. constructor; auto. apply rigid_pattern_rules. }
  clear WP0 rules. pose proof (wp_query _ _ _ _ _ _ _ _ WP) as Hn. pose proof (wp_costs _ _ _ _ _ _ _ _ WP) as HC.
  pose proof (costs_of_wf _ _ _ _ HC) as Hwf.
  destruct (dtw_closed_end_iff L _ _ _ _ _ _ _ _ WP He) as [[F Un]|[d [F [F2 [F3 _]]]]].
  - left. split; [exact F|]. intros P G. rewrite Hb in Un.
    destruct (rigid_best lm w (o_window_args o) _ Hwf Hn P G) as [[ks [vs [ts [W U]]]] _].
    replace (nc lm - nr lm + nr lm - 1) with (nc lm - 1) in W by (destruct P; lia). apply (Un _ _ _ _ W U).
  - right. assert (Hp : pattern_rules (r_stepPattern d) rigid_only) by (rewrite F2; apply rigid_pattern_rules).
    destruct (dtw_fields L _ _ _ _ _ _ _ HC F Hp) as [_ [_ [_ [_ [_ [F6 [_ [_ [F9 _]]]]]]]]].
    destruct (dtw_best L _ _ _ _ _ _ _ HC F Hp) as [[ks [vs [ts [W U]]]] _]. rewrite Hb, F3, F6, (F9 He) in W.
    destruct (rigid_reached lm w (o_window_args o) _ _ _ _ _ Hwf Hn W U) as [s [Ej [P [Ec G]]]].
    assert (Es : s = nc lm - nr lm) by (pose proof (wp_size _ _ _ _ _ _ _ _ WP) as [_ [Hm _]]; destruct P as [P1 [P2 _]]; lia).
    subst s. exists d. rewrite <- Ec. auto.
Qed.

(** ** Occurrences *)
Lemma one_sample_zero (lm : mat N) (r : rule N) i j c : wf_mat lm -> one_sample r -> i < nr lm -> j < nc lm ->
  eqb (cell lm i j) (ofZ 0) = true -> eqb c (ofZ 0) = true -> eqb (charge (cell (padded lm)) r (i + 1) j c) (ofZ 0) = true.
Proof.
  intros Hwf [_ H] Hi Hj Hz Hc. unfold charge. apply (chg_zero L); [|exact H|exact Hc].
  rewrite padded_cell by (auto; lia). replace (i + 1 =? 0) with false by lia. replace (i + 1 - 1) with i by lia. exact Hz.
Qed.
Lemma occurrence_walk rules (lm : mat N) w kw s : wf_mat lm -> may_start rules s -> may_advance rules -> occurs lm s ->
  (forall i, i < nr lm -> in_window w kw (nr lm + 1) (nc lm) (i + 1) (s + i)) ->
  forall i, i < nr lm -> exists ks vs ts c, open_walk rules lm w kw ks vs ts (i + 1, s + i) c /\ eqb c (ofZ 0) = true.
Proof.
  intros Hwf [f [Hf [Of Lf]]] [g [Hg [Og Lg]]] [Hs Hz] Hw. induction i as [|i IH]; intros Hi.
  - destruct (In_rule_no _ _ Hf) as [k Hk].
    assert (W0 : open_walk rules lm w kw [] [(0, s - r_dj f)] [(0, s - r_dj f)] (0, s - r_dj f) (ofZ 0)).
    { apply walk_start; [reflexivity|lia|lia]. }
    pose proof (walk_step rules _ _ _ _ (fun a b => 1 <= a /\ in_window w kw (nr lm + 1) (nc lm) a b) _ _ _ _ _ _ _ _ W0 Hk) as Q.
    rewrite (proj1 Of) in Q. replace (s - r_dj f + r_dj f) with s in Q by lia. rewrite Nat.add_0_r. cbn [Nat.add] in *.
    eexists _, _, _, _. split; [apply Q; [lia|lia|]|].
    + split; [lia|]. specialize (Hw 0 Hi). rewrite Nat.add_0_r in Hw. exact Hw.
    + apply (one_sample_zero lm f 0 s); auto; [lia|specialize (Hz 0 Hi); rewrite Nat.add_0_r in Hz; exact Hz|].
      rewrite (law_eq_ofZ _ L); reflexivity || lia.
  - destruct IH as [ks [vs [ts [c [W E]]]]]; [lia|]. destruct (In_rule_no _ _ Hg) as [k Hk].
    pose proof (walk_step rules _ _ _ _ (fun a b => 1 <= a /\ in_window w kw (nr lm + 1) (nc lm) a b) _ _ _ _ _ _ _ _ W Hk) as Q.
    rewrite (proj1 Og), Lg in Q. replace (i + 1 + 1) with (S i + 1) in Q by lia. replace (s + i + 1) with (s + S i) in Q by lia.
    eexists _, _, _, _. split; [apply Q; [lia|lia|]|].
    + split; [lia|]. apply Hw. exact Hi.
    + apply (one_sample_zero lm g (S i) (s + S i)); auto; lia.
Qed.

Theorem occurrence_found cdist x y o (lm : mat N) sp rules w s :
  well_posed cdist x y o lm sp rules w -> o_open_begin o = true -> o_open_end o = true ->
  nonneg_weights rules -> nonneg_costs lm -> may_start rules s -> may_advance rules -> occurs lm s ->
  (forall i, i < nr lm -> in_window w (o_window_args o) (nr lm + 1) (nc lm) (i + 1) (s + i)) ->
  exists d, dtw cdist x y o = Ok d /\ eqb (r_normalizedDistance d) (ofZ 0) = true /\ r_jmin d <= s + nr lm - 1.
Proof.
  intros WP Hb He Hnw Hnc Hs Ha Ho Hw. pose proof (wp_query _ _ _ _ _ _ _ _ WP) as Hn. pose proof (wp_costs _ _ _ _ _ _ _ _ WP) as HC.
  pose proof (costs_of_wf _ _ _ _ HC) as Hwf. destruct (wp_small _ _ _ _ _ _ _ _ WP) as [Sn Sm].
  destruct (occurrence_walk rules lm w (o_window_args o) s Hwf Hs Ha Ho Hw (nr lm - 1) ltac:(lia)) as [ks [vs [ts [c [W E]]]]].
  replace (nr lm - 1 + 1) with (nr lm) in W by lia. replace (s + (nr lm - 1)) with (s + nr lm - 1) in W by lia.
  pose proof (eq_zero_usable L ks c E) as U.
  assert (Wa : admissible (o_open_begin o) rules lm w (o_window_args o) ks vs ts (end_cell (o_open_begin o) lm (s + nr lm - 1)) c) by (rewrite Hb; exact W).
  assert (Hj : s + nr lm - 1 < nc lm) by (destruct Ho; lia).
  destruct (column_best L _ _ _ _ _ _ _ _ _ _ _ _ _ WP Hj Wa U) as [c0 [B LE]].
  destruct (dtw_open_end_iff L _ _ _ _ _ _ _ _ WP He) as [[F Un]|[d [F [F2 [F3 _]]]]].
  - exfalso. exact (Un _ Hj _ _ _ _ Wa U).
  - exists d. split; [exact F|]. assert (Hp : pattern_rules (r_stepPattern d) rules) by (rewrite F2; apply WP).
    destruct (open_end_choice L _ _ _ _ _ _ _ HC F Hp He Hn) as [J [_ [En C]]].
    destruct (dtw_fields L _ _ _ _ _ _ _ HC F Hp) as [_ [_ [_ [_ [_ [F6 [_ [_ [_ [_ [F11 _]]]]]]]]]]].
    rewrite F3, F6 in C. specialize (C _ _ Hj B).
    destruct (dtw_nonneg L _ _ _ _ _ _ _ HC F Hp Hnw Hnc) as [_ G]. specialize (G Hn ltac:(rewrite (proj1 (F11 Hb)); discriminate)).
    rewrite (proj1 (F11 Hb)) in C.
    assert (Z : leb (normalized "N" (nr lm) (s + nr lm - 1) c0) (ofZ 0) = true).
    { change (leb (div c0 (ofZ (Z.of_nat (nr lm)))) (ofZ 0) = true). rewrite <- (law_div_exact _ L 0 (Z.of_nat (nr lm))) by lia.
      apply (law_div_mono _ L); [lia|]. eapply (law_le_trans _ L); [exact LE|]. apply (law_eq_le _ L). exact E. }
    destruct C as [C1 C2]. split.
    + apply (law_le_antisym _ L); [|exact G]. eapply (law_le_trans _ L); [exact C1|exact Z].
    + destruct (Nat.le_gt_cases (r_jmin d) (s + nr lm - 1)) as [|Hlt]; [assumption|]. exfalso.
      specialize (C2 Hlt). pose proof (law_lt_le_trans _ L _ _ _ C2 Z) as X.
      pose proof (law_lt_le_trans _ L _ _ _ X G) as Y. rewrite (law_lt_irrefl _ L) in Y. discriminate.
Qed.

Lemma one_sample_production (r : rule N) (dj : nat) : r = @production N (W 1 dj [(0, 0, (1, 1)%Z)]) -> one_sample r /\ r_dj r = dj.
Proof.
  intros ->. split; [|reflexivity]. split; [reflexivity|]. intros a [<-|[]]. split; [reflexivity|]. change (isfin (@ofZ N 1) = true). apply (law_fin_ofZ _ L). lia.
Qed.
(** asymmetric and rigid *)
Theorem occurrence_named cdist x y o (lm : mat N) k sp rules s :
  well_posed cdist x y o lm sp rules NoWindow -> lookup k pattern_table = Some sp ->
  k = "asymmetric" \/ (k = "rigid" /\ 1 <= s) ->
  o_open_begin o = true -> o_open_end o = true -> nonneg_costs lm -> occurs lm s ->
  exists d, dtw cdist x y o = Ok d /\ eqb (r_normalizedDistance d) (ofZ 0) = true /\ r_jmin d <= s + nr lm - 1.
Proof.
  intros WP Hk Hn Hb He Hnc Ho.
  destruct (predefined_rules L _ _ Hk) as [l [El Hl]].
  assert (WP' : well_posed cdist x y o lm sp (productions l) NoWindow).
  { destruct WP as [w1 w2 w3 w4 w5 w6 w7 w8 w9 w10]. constructor; auto. }
  assert (Hneg : ~ In k negative_names) by (destruct Hn as [-> | [-> _]]; cbn; intuition discriminate).
  apply (occurrence_found cdist x y o lm sp (productions l) NoWindow s WP' Hb He ltac:(eapply predefined_nonneg; eassumption) Hnc); [| |exact Ho|intros; exact I].
  - destruct Hn as [-> | [-> Hs]]; injection El as <-.
    + eexists. split; [left; reflexivity|]. destruct (one_sample_production _ 0 eq_refl) as [A B]. split; [exact A|]. cbn. lia.
    + eexists. split; [left; reflexivity|]. destruct (one_sample_production _ 1 eq_refl) as [A B]. split; [exact A|]. cbn. lia.
  - destruct Hn as [-> | [-> Hs]]; injection El as <-.
    + eexists. split; [right; left; reflexivity|]. exact (one_sample_production _ 1 eq_refl).
    + eexists. split; [left; reflexivity|]. exact (one_sample_production _ 1 eq_refl).
Qed.
Theorem occurrence_mvm cdist x y o (lm : mat N) e rules s :
  well_posed cdist x y o lm (mvmStepPattern e) rules NoWindow -> 1 <= e -> (8 * Z.of_nat e <= INT_MAX)%Z -> 1 <= s ->
  o_open_begin o = true -> o_open_end o = true -> nonneg_costs lm -> occurs lm s ->
  exists d, dtw cdist x y o = Ok d /\ eqb (r_normalizedDistance d) (ofZ 0) = true /\ r_jmin d <= s + nr lm - 1.
Proof.
  intros WP He1 Hsz Hs Hb He Hnc Ho.
  assert (WP' : well_posed cdist x y o lm (mvmStepPattern e) (productions (mvm_productions e)) NoWindow).
  { destruct WP as [w1 w2 w3 w4 w5 w6 w7 w8 w9 w10]. constructor; auto. apply (mvm_rules L); assumption. }
  assert (H1 : In (@production N (W 1 1 [(0, 0, (1, 1)%Z)])) (productions (mvm_productions e))).
  { apply in_map. apply in_map_iff. exists 1. split; [reflexivity|]. apply in_seq. lia. }
  apply (occurrence_found cdist x y o lm _ _ NoWindow s WP' Hb He); [|exact Hnc| | |exact Ho|intros; exact I].
  - intros r a Hr Hin. apply in_map_iff in Hr. destruct Hr as [v [<- Hv]]. apply in_map_iff in Hv. destruct Hv as [t [<- _]].
    destruct Hin as [<-|[]]. cbn [snd production weight fst Z.eqb Pos.eqb]. replace (weight (1, 1)%Z) with (@ofZ N 1) by reflexivity. rewrite (law_le_ofZ _ L); [reflexivity|lia|lia].
  - eexists. split; [exact H1|]. destruct (one_sample_production _ 1 eq_refl) as [A B]. split; [exact A|lia].
  - eexists. split; [exact H1|]. exact (one_sample_production _ 1 eq_refl).
Qed.

Lemma upto_nonneg (lm : mat N) s i : nonneg_costs lm -> i <= nr lm -> s + i <= nc lm -> good (upto lm s i) -> leb (ofZ 0) (upto lm s i) = true.
Proof.
  intros Hn. induction i as [|i IH]; intros Hi Hj G.
  - cbn. apply (law_le_refl _ L), (law_fin_not_nan _ L), (law_fin_ofZ _ L). lia.
  - rewrite upto_S in *.
    assert (W1 : leb (@ofZ N 0) (ofZ 1) = true) by (rewrite (law_le_ofZ _ L); [reflexivity|lia|lia]).
    assert (Gx : good (cell lm i (s + i))) by (eapply (law_macc_obstacle _ L); [exact W1|exact G]).
    apply (law_macc_nonneg _ L); [apply IH; [lia|lia|eapply (law_macc_good _ L); exact G]|exact W1| |apply (law_good_not_nan _ L); exact G].
    destruct (Hn i (s + i)) as [X|X]; [lia|lia|exact X|]. apply (law_good_not_nan _ L) in Gx. congruence.
Qed.
End S.

Section Z.
Context {N : Num}.
Variable M : modelled N.
Let L : NumLaws N := proj1 (modelled_laws N M).
Let Z0 : zero_sum N := proj2 (modelled_laws N M).

Lemma upto_zero (lm : mat N) s i : nonneg_costs lm -> i <= nr lm -> s + i <= nc lm -> eqb (upto lm s i) (ofZ 0) = true ->
  forall t, t < i -> eqb (cell lm t (s + t)) (ofZ 0) = true.
Proof.
  intros Hn. induction i as [|i IH]; intros Hi Hj E t Ht; [lia|].
  pose proof (eq_zero_usable L [0] _ E) as [_ G]. specialize (G ltac:(discriminate)). rewrite upto_S in *.
  assert (W1 : leb (@ofZ N 0) (ofZ 1) = true) by (rewrite (law_le_ofZ _ L); [reflexivity|lia|lia]).
  assert (Gx : good (cell lm i (s + i))) by (eapply (law_macc_obstacle _ L); [exact W1|exact G]).
  destruct (Z0 (upto lm s i) (cell lm i (s + i)) 1%Z) as [A B]; [auto| | |exact E|].
  - apply (upto_nonneg L); [exact Hn|lia|lia|]. eapply (law_macc_good _ L); exact G.
  - destruct (Hn i (s + i)) as [X|X]; [lia|lia|exact X|]. apply (law_good_not_nan _ L) in Gx. congruence.
  - destruct (Nat.eq_dec t i) as [->|]; [exact B|]. apply IH; [lia|lia|exact A|lia].
Qed.
Theorem gapless_zero cdist x y o (lm : mat N) d : costs_of cdist x y lm -> dtw cdist x y o = Ok d -> 0 < nr lm ->
  r_stepPattern d = rigid -> o_open_begin o = true -> nonneg_costs lm -> eqb (r_distance d) (ofZ 0) = true ->
  exists mp s, r_map d = Some mp /\ index2 mp = map Z.of_nat (seq s (nr lm)) /\ 1 <= s /\ occurs lm s.
Proof.
  intros HC F Hn Hsp Hb Hnn E. pose proof (costs_of_wf _ _ _ _ HC) as Hwf.
  assert (Hp : pattern_rules (r_stepPattern d) rigid_only) by (rewrite Hsp; apply (rigid_pattern_rules L)).
  destruct (dtw_fields L _ _ _ _ _ _ _ HC F Hp) as [_ [_ [_ [_ [_ [F6 [_ [_ [_ [_ [F11 _]]]]]]]]]]].
  destruct (dtw_alignment L _ _ _ _ _ _ _ HC F Hp (proj2 (F11 Hb))) as [mp [ks [vs [ts [Em [W [U [_ D]]]]]]]].
  rewrite Hb in *. pose proof (rigid_reached lm _ _ _ _ _ _ _ Hwf Hn W U) as [s [Ej [[P1 [P2 _]] [Ec _]]]].
  unfold admissible, end_cell in W. destruct (rigid_walk lm _ _ _ _ _ _ _ Hwf W) as [j0 [E1 [E2 [_ [E4 [E5 _]]]]]]. cbn [fst snd] in *.
  assert (E0 : s = S j0) by lia. destruct D as [p0 [v0 [t0 [D1 [D2 [D3 [D4 _]]]]]]].
  rewrite E5, E4 in D2. cbn [seq map] in D2. injection D2 as _ D2. subst t0.
  assert (SH : forall a, seq a (nr lm) = map (fun t => a + t) (seq 0 (nr lm))).
  { clear. intros a. induction (nr lm) as [|n IH]; [reflexivity|]. rewrite !seq_S, map_app, IH. reflexivity. }
  exists mp, s. split; [exact Em|]. split; [rewrite D4, (SH 1), (SH s), !map_map; apply map_ext; intros a; unfold ref_ix; cbn [snd]; lia|].
  split; [exact P1|]. split; [exact P2|]. rewrite Ec in E. apply upto_zero; [exact Hnn|lia|exact P2|exact E].
Qed.
End Z.

(** Exact arithmetic: a zero normalized distance is a zero distance. *)
Theorem occurrence_exact cdist x y o (lm : mat NumQ) d rules :
  costs_of cdist x y lm -> dtw cdist x y o = Ok d -> pattern_rules (r_stepPattern d) rules -> 0 < nr lm -> o_open_begin o = true ->
  eqb (r_normalizedDistance d) (ofZ 0) = true -> eqb (r_distance d) (ofZ 0) = true.
Proof.
  intros HC F Hp Hn Hb E. destruct (dtw_fields NumQ_laws _ _ _ _ _ _ _ HC F Hp) as [E1 [_ [_ [_ [_ [_ [_ [_ [_ [F10 [F11 _]]]]]]]]]]].
  rewrite (proj1 (F11 Hb)) in F10. cbn [String.eqb Ascii.eqb Bool.eqb] in F10.
  change (r_normalizedDistance d = div (r_distance d) (ofZ (Z.of_nat (r_N d)))) in F10. rewrite E1 in F10. rewrite F10 in E.
  assert (P : pattern_rules (r_stepPattern d) rules -> size_ok (rows_used (o_open_begin o) lm) (nc lm)).
  { intros _. exact (wp_size _ _ _ _ _ _ _ _ (ok_well_posed NumQ_laws _ _ _ _ _ _ _ HC F Hp Hn)). }
  pose proof (law_eq_le _ NumQ_laws _ _ E) as L1. rewrite (law_eq_sym _ NumQ_laws) in E. pose proof (law_eq_le _ NumQ_laws _ _ E) as L2.
  specialize (P Hp). rewrite Hb in P. destruct P as [_ [P1 P2]]. unfold INT_MAX, rows_used in P2.
  assert (Ez : @ofZ NumQ 0 = div (ofZ 0) (ofZ (Z.of_nat (nr lm)))).
  { symmetry. exact (law_div_exact _ NumQ_laws 0 (Z.of_nat (nr lm)) ltac:(lia) ltac:(nia)). }
  apply (law_le_antisym _ NumQ_laws).
  - apply (div_leb_inv _ _ (Z.of_nat (nr lm))); [lia|]. rewrite <- Ez. exact L1.
  - apply (div_leb_inv _ _ (Z.of_nat (nr lm))); [lia|]. rewrite <- Ez. exact L2.
Qed.
