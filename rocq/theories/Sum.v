(** Sum.v - the distance for summed costs is at least the sum of the distances (C88). *)
From Coq Require Import QArith Qcanon Lqa ZifyBool ZifyNat.
From Verif Require Import Base Num NumQ NumQLaws StepPattern Window Core Backtrack Dtw Spec Api Tables Vocab Terms
  CoreProof DPProof DtwProof ApiProof ApiThms Uniq Thm2 Thm5 Thm9 Derived Derived2 Thm22 Thm23 Sim Thm31 Stable Grow SumSpec.
Import ListNotations.
Open Scope string_scope.
Open Scope list_scope.
Open Scope nat_scope.

Section W.
Variables (rules : list (rule NumQ)) (ca cb cs : nat -> nat -> NumQ) (n m : nat).
Variables (sa sb ss : nat -> nat -> option NumQ) (al : nat -> nat -> Prop).
Hypothesis Hw : finite_weights rules.
Hypothesis Hc : forall i j, i < n -> j < m -> number_or_missing (ca i j) /\ number_or_missing (cb i j) /\ cs i j = add (ca i j) (cb i j).
Hypothesis Hs : forall i j c, i < n -> j < m -> ss i j = Some c -> isnan c = false ->
  exists a b, sa i j = Some (XFin a : NumQ) /\ sb i j = Some (XFin b : NumQ) /\ c = (XFin (a + b)%Qc : NumQ).

Lemma macc_sum (w xa xb : NumQ) (a b : Qc) : isfin w = true -> number_or_missing xa -> number_or_missing xb ->
  isnan (macc (XFin (a + b)%Qc : NumQ) w (add xa xb)) = false ->
  exists a' b', macc (XFin a : NumQ) w xa = XFin a' /\ macc (XFin b : NumQ) w xb = XFin b' /\ macc (XFin (a + b)%Qc : NumQ) w (add xa xb) = XFin (a' + b')%Qc.
Proof.
  intros Fw Na Nb H. destruct w as [| | |w]; try discriminate.
  destruct xa as [| | |xa]; [discriminate H|destruct Na; discriminate|destruct Na; discriminate|].
  destruct xb as [| | |xb]; [discriminate H|destruct Nb; discriminate|destruct Nb; discriminate|].
  exists (a + w * xa)%Qc, (b + w * xb)%Qc. split; [reflexivity|]. split; [reflexivity|]. cbn. f_equal. ring.
Qed.
Lemma fold_sum i j adds : i < n -> j < m -> (forall x, In x adds -> isfin (snd x) = true) -> forall a b,
  let f c0 := fold_left (fun c (x : nat * nat * NumQ) => macc c (snd x) (c0 (i - fst (fst x)) (j - snd (fst x)))) adds in
  isnan (f cs (XFin (a + b)%Qc)) = false ->
  exists a' b', f ca (XFin a) = XFin a' /\ f cb (XFin b) = XFin b' /\ f cs (XFin (a + b)%Qc) = XFin (a' + b')%Qc.
Proof.
  intros Hi Hj. induction adds as [|x adds IH]; intros F a b; cbv zeta in *; cbn [fold_left].
  - intros _. exists a, b. auto.
  - intros H. destruct (Hc (i - fst (fst x)) (j - snd (fst x)) ltac:(lia) ltac:(lia)) as [Na [Nb E]]. rewrite E in H |- *.
    destruct (macc_sum (snd x) _ _ a b (F x (or_introl eq_refl)) Na Nb) as [a1 [b1 [E1 [E2 E3]]]].
    { destruct (isnan (macc _ _ _)) eqn:En; [|reflexivity]. exfalso.
      assert (G : forall l (v : NumQ), isnan v = true -> isnan (fold_left (fun c (y : nat * nat * NumQ) => macc c (snd y) (cs (i - fst (fst y)) (j - snd (fst y)))) l v) = true).
      { induction l as [|y l IHl]; intros v Hv; [exact Hv|]. cbn [fold_left]. apply IHl, (law_nan_macc _ NumQ_laws), Hv. }
      rewrite (G _ _ En) in H. discriminate. }
    rewrite E1, E2, E3. rewrite E3 in H. apply IH; [intros y Hy; apply F; right; exact Hy|exact H].
Qed.
Lemma walk_sum ks vs ts p c : walk rules cs n m ss al ks vs ts p c -> isnan c = false ->
  exists a b, walk rules ca n m sa al ks vs ts p (XFin a : NumQ) /\ walk rules cb n m sb al ks vs ts p (XFin b : NumQ) /\ c = (XFin (a + b)%Qc : NumQ).
Proof.
  induction 1 as [i j c Hso Hi Hj|ks vs ts i0 j0 c k r W IH Hk Hi Hj Ha]; intros U.
  - destruct (Hs i j c Hi Hj Hso U) as [a [b [A [B E]]]]. exists a, b. split; [apply walk_start; assumption|]. split; [apply walk_start; assumption|exact E].
  - assert (Uc : isnan c = false).
    { destruct (isnan c) eqn:En; [|reflexivity]. exfalso. revert U. unfold charge. generalize (r_add r) as l. clear IH. intros l.
      assert (G : forall l (v : NumQ), isnan v = true -> isnan (fold_left (fun c (y : nat * nat * NumQ) => macc c (snd y) (cs (i0 + r_di r - fst (fst y)) (j0 + r_dj r - snd (fst y)))) l v) = true).
      { induction l0 as [|y l0 IHl]; intros v Hv; [exact Hv|]. cbn [fold_left]. apply IHl, (law_nan_macc _ NumQ_laws), Hv. }
      rewrite (G _ _ En). discriminate. }
    destruct (IH Uc) as [a [b [A [B ->]]]].
    destruct (fold_sum (i0 + r_di r) (j0 + r_dj r) (r_add r) Hi Hj ltac:(intros x Hx; apply (Hw r x (rule_no_in _ _ _ Hk) Hx)) a b U) as [a' [b' [E1 [E2 E3]]]].
    exists a', b'. split; [|split; [|exact E3]].
    + rewrite <- E1. apply (walk_step rules ca n m sa al ks vs ts i0 j0 (XFin a : NumQ) k r A Hk Hi Hj Ha).
    + rewrite <- E2. apply (walk_step rules cb n m sb al ks vs ts i0 j0 (XFin b : NumQ) k r B Hk Hi Hj Ha).
Qed.
End W.

Lemma admissible_sum ob rules (a b lm : mat NumQ) w kw j ks vs ts c : wf_mat a -> wf_mat b -> wf_mat lm -> finite_weights rules -> summed a b lm -> 0 < nr lm ->
  admissible ob rules lm w kw ks vs ts (end_cell ob lm j) c -> usable ks c ->
  exists qa qb, admissible ob rules a w kw ks vs ts (end_cell ob a j) (XFin qa : NumQ) /\ admissible ob rules b w kw ks vs ts (end_cell ob b j) (XFin qb : NumQ) /\
    c = (XFin (qa + qb)%Qc : NumQ).
Proof.
  intros Wa Wb Wl Hw [Ra [Ca [Rb [Cb Hc]]]] Hn W [U _]. unfold admissible, end_cell in *. rewrite Ra, Rb. destruct ob.
  - unfold open_walk in *. rewrite Ra, Ca, Rb, Cb. eapply walk_sum; [exact Hw| | |exact W|exact U].
    + intros i j' Hi Hj. rewrite !padded_cell by (try assumption; lia). destruct (Nat.eqb_spec i 0) as [->|Ei].
      * split; [left; reflexivity|]. split; [left; reflexivity|]. cbn. f_equal.
      * apply Hc; lia.
    + intros i j' c0 Hi Hj. unfold open_source. destruct (Nat.eqb_spec i 0); [|discriminate]. intros [= <-] _.
      exists (Q2Qc 0), (Q2Qc 0). split; [reflexivity|]. split; [reflexivity|]. reflexivity.
  - unfold closed_walk in *. rewrite Ra, Ca, Rb, Cb. eapply walk_sum; [exact Hw|exact Hc| |exact W|exact U].
    intros i j' c0 Hi Hj Hs Un. destruct (source_inv _ _ _ _ Hs) as [-> [-> E]]. subst c0.
    destruct (Hc 0 0 Hi Hj) as [Na [Nb E]]. rewrite E in Un |- *. rewrite !source_val by reflexivity.
    destruct (cell a 0 0) as [| | |qa]; [discriminate Un|destruct Na; discriminate|destruct Na; discriminate|].
    destruct (cell b 0 0) as [| | |qb]; [discriminate Un|destruct Nb; discriminate|destruct Nb; discriminate|].
    exists qa, qb. repeat split.
Qed.

(** What a call finds is at least as good as an alignment that is there. *)
Lemma found_below {N : Num} (L : NumLaws N) cdist x y (o : opts N) (lm : mat N) sp rules w j ks vs ts c :
  well_posed cdist x y o lm sp rules w -> j < nc lm -> (o_open_end o = false -> j = nc lm - 1) ->
  admissible (o_open_begin o) rules lm w (o_window_args o) ks vs ts (end_cell (o_open_begin o) lm j) c -> usable ks c ->
  exists d, dtw cdist x y o = Ok d /\ r_stepPattern d = sp /\ (o_open_end o = false -> leb (r_distance d) c = true) /\
    (hint sp <> "NA" -> leb (r_normalizedDistance d) (normalized (hint sp) (nr lm) j c) = true).
Proof.
  intros WP Hj He W U. pose proof (wp_costs _ _ _ _ _ _ _ _ WP) as HC.
  assert (E : exists d, dtw cdist x y o = Ok d /\ r_stepPattern d = sp /\ r_windowFunction d = w).
  { destruct (o_open_end o) eqn:Eo.
    - destruct (dtw_open_end_iff L _ _ _ _ _ _ _ _ WP Eo) as [[_ C]|[d [E1 [E2 [E3 _]]]]]; [exfalso; exact (C j Hj _ _ _ _ W U)|eauto].
    - destruct (dtw_closed_end_iff L _ _ _ _ _ _ _ _ WP Eo) as [[_ C]|[d [E1 [E2 [E3 _]]]]]; [exfalso; rewrite (He eq_refl) in W; exact (C _ _ _ _ W U)|eauto]. }
  destruct E as [d [H [Hsp Hwin]]]. exists d. split; [exact H|]. split; [exact Hsp|].
  assert (Hp : pattern_rules (r_stepPattern d) rules) by (rewrite Hsp; apply (wp_rules _ _ _ _ _ _ _ _ WP)).
  destruct (dtw_fields L _ _ _ _ _ _ _ HC H Hp) as [F1 [_ [_ [_ [_ [F6 [_ [F8 [F9 [F10 _]]]]]]]]]].
  destruct (wp_small _ _ _ _ _ _ _ _ WP) as [S1 S2].
  pose proof (dtw_best L _ _ _ _ _ _ _ HC H Hp) as [_ B]. rewrite Hwin, F6 in B.
  assert (D : o_open_end o = false -> leb (r_distance d) c = true).
  { intros Eo. rewrite (F9 Eo), <- (He Eo) in B. exact (B _ _ _ _ W U). }
  split; [exact D|]. intros Hna. destruct (o_open_end o) eqn:Eo.
  - destruct (column_best L _ _ _ _ _ _ _ _ j ks vs ts c WP Hj W U) as [c0 [B0 L0]].
    destruct (open_end_choice L _ _ _ _ _ _ _ HC H Hp Eo ltac:(lia)) as [_ [_ [_ C]]]. rewrite Hwin, F6 in C.
    destruct (C _ _ Hj B0) as [C1 _]. rewrite Hsp in C1. eapply (law_le_trans _ L); [exact C1|].
    apply (Thm2.normalized_mono L); [exact S1|lia|exact L0].
  - rewrite F10, Hsp, F1, (F9 eq_refl), <- (He eq_refl). destruct (String.eqb_spec (hint sp) "NA"); [contradiction|].
    apply (Thm2.normalized_mono L); [exact S1|lia|apply D; reflexivity].
Qed.

Lemma leb_add (u v : NumQ) (a b : Qc) : leb u (XFin a : NumQ) = true -> leb v (XFin b : NumQ) = true -> leb (add u v) (XFin (a + b)%Qc : NumQ) = true.
Proof.
  destruct u as [| | |u], v as [| | |v]; try discriminate; try reflexivity. intros H1 H2.
  cbn [add NumQ xq_add]. apply xq_leb_fin in H1, H2. apply xq_leb_fin. unfold Qcle in *. rewrite !this_add. lra.
Qed.
Lemma div_fin k : (1 <= k)%Z -> exists i, forall a : Qc, div (XFin a : NumQ) (ofZ k) = (XFin (a * i)%Qc : NumQ).
Proof.
  intros Hk. exists (/ qc_ofZ k)%Qc. intros b. cbn [div ofZ NumQ xq_div].
  destruct (qc_eqb (qc_ofZ k) (Q2Qc 0)) eqn:E; [|reflexivity]. exfalso.
  apply qc_eqb_eq in E. assert (Ec : (this (qc_ofZ k) == this (Q2Qc 0))%Q) by (rewrite E; reflexivity). rewrite this_ofZ, this_ofQ in Ec.
  assert (X : (1 <= inject_Z k)%Q) by (change 1%Q with (inject_Z 1); rewrite <- Zle_Qle; exact Hk). rewrite Ec in X. lra.
Qed.
Lemma normalized_fin h n j : 0 < n -> exists i, forall a : Qc, normalized h n j (XFin a : NumQ) = (XFin (a * i)%Qc : NumQ).
Proof.
  intros Hn. unfold normalized. destruct (String.eqb h "N+M"); [apply (div_fin); lia|].
  destruct (String.eqb h "N"); [apply (div_fin); lia|]. destruct (String.eqb h "M"); [apply (div_fin); lia|].
  exists (Q2Qc 1). intros a. f_equal. change (Q2Qc 1) with 1%Qc. ring.
Qed.

Theorem sum_of_costs cdist x y cdist1 x1 y1 cdist2 x2 y2 o (lm a b : mat NumQ) d rules :
  costs_of cdist x y lm -> dtw cdist x y o = Ok d -> pattern_rules (r_stepPattern d) rules -> 0 < nr lm -> finite_weights rules ->
  costs_of cdist1 x1 y1 a -> (o_open_begin o = true \/ native_array x1 y1) ->
  costs_of cdist2 x2 y2 b -> (o_open_begin o = true \/ native_array x2 y2) -> summed a b lm ->
  exists d1 d2, dtw cdist1 x1 y1 o = Ok d1 /\ dtw cdist2 x2 y2 o = Ok d2 /\
    (o_open_end o = false -> leb (add (r_distance d1) (r_distance d2)) (r_distance d) = true) /\
    (hint (r_stepPattern d) <> "NA" -> leb (add (r_normalizedDistance d1) (r_normalizedDistance d2)) (r_normalizedDistance d) = true).
Proof.
  intros HC H Hp Hn Hw HA NA HB NB Hsum. pose proof Hsum as [Ra [Ca [Rb [Cb _]]]].
  pose proof (ok_well_posed NumQ_laws _ _ _ _ _ _ _ HC H Hp Hn) as WP.
  pose proof (wp_other_costs _ _ _ _ _ _ _ _ _ _ _ _ WP HA NA Ra Ca) as WA.
  pose proof (wp_other_costs _ _ _ _ _ _ _ _ _ _ _ _ WP HB NB Rb Cb) as WB.
  destruct (dtw_fields NumQ_laws _ _ _ _ _ _ _ HC H Hp) as [F1 [_ [_ [_ [_ [F6 [_ [F8 [F9 [F10 _]]]]]]]]]].
  destruct (dtw_best NumQ_laws _ _ _ _ _ _ _ HC H Hp) as [[ks [vs [ts [W U]]]] _]. rewrite F6 in W.
  destruct (admissible_sum _ _ _ _ _ _ _ _ _ _ _ _ (costs_of_wf _ _ _ _ HA) (costs_of_wf _ _ _ _ HB) (costs_of_wf _ _ _ _ HC) Hw Hsum Hn W U) as [qa [qb [A [B E]]]].
  assert (UF : forall q, usable ks (XFin q : NumQ)) by (intros q; split; [reflexivity|intros _; reflexivity]).
  destruct (found_below NumQ_laws _ _ _ _ _ _ _ _ (r_jmin d) _ _ _ _ WA ltac:(rewrite Ca; exact F8) ltac:(intros Eo; rewrite Ca; auto) A (UF qa)) as [d1 [D1 [_ [L1 M1]]]].
  destruct (found_below NumQ_laws _ _ _ _ _ _ _ _ (r_jmin d) _ _ _ _ WB ltac:(rewrite Cb; exact F8) ltac:(intros Eo; rewrite Cb; auto) B (UF qb)) as [d2 [D2 [_ [L2 M2]]]].
  exists d1, d2. split; [exact D1|]. split; [exact D2|]. split.
  - intros Eo. rewrite E. apply leb_add; auto.
  - intros Hna. specialize (M1 Hna). specialize (M2 Hna). rewrite F10, F1, E. rewrite Ra in M1. rewrite Rb in M2.
    destruct (String.eqb_spec (hint (r_stepPattern d)) "NA"); [contradiction|].
    destruct (normalized_fin (hint (r_stepPattern d)) (nr lm) (r_jmin d) Hn) as [i Hi]. rewrite Hi in *.
    rewrite Qcmult_plus_distr_l. apply leb_add; assumption.
Qed.

Theorem sum_of_costs_named cdist x y cdist1 x1 y1 cdist2 x2 y2 o (lm a b : mat NumQ) d k :
  costs_of cdist x y lm -> dtw cdist x y o = Ok d -> lookup k pattern_table = Some (r_stepPattern d) -> 0 < nr lm ->
  costs_of cdist1 x1 y1 a -> (o_open_begin o = true \/ native_array x1 y1) ->
  costs_of cdist2 x2 y2 b -> (o_open_begin o = true \/ native_array x2 y2) -> summed a b lm ->
  exists d1 d2, dtw cdist1 x1 y1 o = Ok d1 /\ dtw cdist2 x2 y2 o = Ok d2 /\
    (o_open_end o = false -> leb (add (r_distance d1) (r_distance d2)) (r_distance d) = true) /\
    (hint (r_stepPattern d) <> "NA" -> leb (add (r_normalizedDistance d1) (r_normalizedDistance d2)) (r_normalizedDistance d) = true).
Proof.
  intros HC Hd Hk Hn C1 N1 C2 N2 HS. destruct (predefined_rules NumQ_laws _ _ Hk) as [l [El Hl]].
  assert (Hw : finite_weights (@productions NumQ l)) by (intros r x0 Hr Hx; eapply (predefined_finite NumQ_laws); eauto).
  eapply (sum_of_costs cdist x y cdist1 x1 y1 cdist2 x2 y2); eassumption.
Qed.
