(** Thm3.v - non-negativity, identity, obstacles, slopes, open-begin starts (proofs). *)
From Coq Require Import ZifyBool ZifyNat.
From Verif Require Import Base Num StepPattern Window Core Backtrack Dtw Spec Api Tables Vocab Terms
  CoreProof DPProof DtwProof ApiProof ApiThms WalkGeom Thm1 Thm2.
Open Scope string_scope.
Open Scope list_scope.
Open Scope nat_scope.

Section Thm3.
Context {N : Num}.
Variable L : NumLaws N.

(** ** Non-negativity *)
Section NN.
Variables (rules : list (rule N)) (cost : nat -> nat -> N) (n m : nat)
          (source : nat -> nat -> option N) (allowed : nat -> nat -> Prop).
Hypothesis Hw : nonneg_weights rules.
Hypothesis Hc : forall i j, i < n -> j < m -> leb (ofZ 0) (cost i j) = true \/ isnan (cost i j) = true.
Hypothesis Hs : forall i j c, i < n -> j < m -> source i j = Some c -> isnan c = false -> leb (ofZ 0) c = true.

Lemma chg_nonneg i j l c : i < n -> j < m -> (forall a, In a l -> leb (ofZ 0) (snd a) = true) ->
  leb (ofZ 0) c = true ->
  good (fold_left (fun c a => macc c (snd a) (cost (i - fst (fst a)) (j - snd (fst a)))) l c) ->
  leb (ofZ 0) (fold_left (fun c (a : nat * nat * N) => macc c (snd a) (cost (i - fst (fst a)) (j - snd (fst a)))) l c) = true.
Proof using Hc L.
  clear Hs Hw allowed source rules.
  intros Hi Hj. revert c. induction l as [|a l IH]; intros c Hl Hc0 G; [exact Hc0|]. cbn [fold_left] in *.
  apply IH; [intros; apply Hl; right; assumption| |exact G].
  pose proof (chg_good L cost i j l _ G) as G1.
  assert (Hwa : leb (ofZ 0) (snd a) = true) by (apply Hl; left; reflexivity).
  pose proof (law_macc_obstacle _ L _ _ _ Hwa G1) as G2.
  apply (law_macc_nonneg _ L); auto.
  - destruct (Hc (i - fst (fst a)) (j - snd (fst a)) ltac:(lia) ltac:(lia)) as [Q|Q]; [exact Q|].
    apply (law_good_not_nan _ L) in G2. congruence.
  - apply (law_good_not_nan _ L). exact G1.
Qed.

Lemma walk_nonneg ks vs ts q c : walk rules cost n m source allowed ks vs ts q c -> usable ks c ->
  leb (ofZ 0) c = true.
Proof using Hw Hc Hs L.
  induction 1 as [i j c Hso Hi Hj | ks vs ts i0 j0 c k r Hwk IH Hk Hi Hj Ha]; intros U.
  - apply (Hs i j); auto. apply U.
  - destruct (usable_prefix L cost _ _ _ _ _ _ U) as [G U'].
    apply chg_nonneg; auto.
    + intros a Hin. apply (Hw r); [apply (rule_no_In _ _ _ Hk)|exact Hin].
    + apply U. destruct ks; discriminate.
Qed.
End NN.

Lemma adm_nonneg ob rules (lm : mat N) w kw ks vs ts q c : wf_mat lm ->
  nonneg_weights rules -> nonneg_costs lm ->
  admissible ob rules lm w kw ks vs ts q c -> usable ks c -> leb (ofZ 0) c = true.
Proof.
  intros Hwf Hnw Hnc W U. unfold admissible in W. destruct ob.
  - unfold open_walk in W. eapply walk_nonneg; [exact Hnw| | |exact W|exact U].
    + intros i j Hi Hj. rewrite padded_cell by assumption. destruct (Nat.eqb_spec i 0); [left; apply (zero_le_zero L)|].
      apply Hnc; lia.
    + intros i j c0 _ _. unfold open_source. destruct (i =? 0); [|discriminate]. intros E _. injection E as <-.
      apply (zero_le_zero L).
  - unfold closed_walk in W. eapply walk_nonneg; [exact Hnw|exact Hnc| |exact W|exact U].
    intros i j c0 Hi Hj. unfold closed_source. destruct ((i =? 0) && (j =? 0)) eqn:E0; [|discriminate].
    intros E Hn. injection E as <-. destruct (Hnc 0 0) as [Q|Q]; [lia|lia|exact Q|congruence].
Qed.

Lemma size_small (o : opts N) (lm : mat N) : 0 < nr lm -> size_ok (rows_used (o_open_begin o) lm) (nc lm) ->
  (1 <= Z.of_nat (nr lm) <= 2 ^ 40)%Z /\ (1 <= Z.of_nat (nc lm) <= 2 ^ 40)%Z.
Proof.
  intros Q [A [B C]]. unfold INT_MAX, rows_used in *. destruct (o_open_begin o); nia.
Qed.

Lemma dtw_size cdist x y o (lm : mat N) d rules : costs_of cdist x y lm ->
  dtw cdist x y o = Ok d -> pattern_rules (r_stepPattern d) rules ->
  size_ok (rows_used (o_open_begin o) lm) (nc lm).
Proof.
  intros HC H Hp. destruct (dtw_ok_inv L _ _ _ _ _ _ _ HC H Hp) as [_ [_ [Sz _]]].
  rewrite rows_used_p. exact Sz.
Qed.

Theorem dtw_nonneg cdist x y o (lm : mat N) d rules : costs_of cdist x y lm ->
  dtw cdist x y o = Ok d -> pattern_rules (r_stepPattern d) rules ->
  nonneg_weights rules -> nonneg_costs lm ->
  leb (ofZ 0) (r_distance d) = true /\
  (0 < nr lm -> hint (r_stepPattern d) <> "NA" -> leb (ofZ 0) (r_normalizedDistance d) = true).
Proof.
  intros HC H Hp Hnw Hnc. pose proof (costs_of_wf _ _ _ _ HC) as Hwf.
  destruct (dtw_best L _ _ _ _ _ _ _ HC H Hp) as [[ks [vs [ts [W U]]]] _].
  assert (G : leb (ofZ 0) (r_distance d) = true) by (eapply adm_nonneg; eauto).
  split; [exact G|]. intros Hq Hna.
  destruct (dtw_fields L _ _ _ _ _ _ _ HC H Hp) as [G1 [_ [_ [_ [_ [_ [_ [G8 [_ [G10 _]]]]]]]]]].
  rewrite G10. destruct (String.eqb_spec (hint (r_stepPattern d)) "NA"); [contradiction|]. rewrite G1.
  destruct (size_small o lm Hq (dtw_size _ _ _ _ _ _ _ HC H Hp)) as [S1 S2].
  unfold normalized.
  destruct (String.eqb (hint (r_stepPattern d)) "N+M").
  { eapply (law_le_trans _ L); [|apply (law_div_mono _ L); [|exact G]; lia]. apply (law_frac_nonneg _ L); lia. }
  destruct (String.eqb (hint (r_stepPattern d)) "N").
  { eapply (law_le_trans _ L); [|apply (law_div_mono _ L); [|exact G]; lia]. apply (law_frac_nonneg _ L); lia. }
  destruct (String.eqb (hint (r_stepPattern d)) "M").
  { eapply (law_le_trans _ L); [|apply (law_div_mono _ L); [|exact G]; lia]. apply (law_frac_nonneg _ L); lia. }
  exact G.
Qed.

(** ** Identity: a diagonal of zeros *)


Lemma chg_zero cost i j l c : eqb (cost i j) (ofZ 0) = true ->
  (forall a, In a l -> fst a = (0, 0) /\ isfin (snd a) = true) -> eqb c (ofZ 0) = true ->
  eqb (fold_left (fun c (a : nat * nat * N) => macc c (snd a) (cost (i - fst (fst a)) (j - snd (fst a)))) l c) (ofZ 0) = true.
Proof.
  intros Hc. revert c. induction l as [|a l IH]; intros c Hl Hc0; [exact Hc0|]. cbn [fold_left].
  apply IH; [intros; apply Hl; right; assumption|].
  destruct (Hl a (or_introl eq_refl)) as [E F]. rewrite E. cbn [fst snd]. rewrite !Nat.sub_0_r.
  apply (law_macc_zero _ L); assumption.
Qed.

Lemma diagonal_walk rules (lm : mat N) w kw k r : rule_no rules k = Some r -> diagonal_rule r ->
  (forall i, i < nr lm -> i < nc lm -> eqb (cell lm i i) (ofZ 0) = true) ->
  (forall i, 0 < i -> i < nr lm -> i < nc lm -> in_window w kw (nr lm) (nc lm) i i) ->
  forall t, t < nr lm -> t < nc lm ->
  exists vs ts c, closed_walk rules lm w kw (repeat k t) vs ts (t, t) c /\ eqb c (ofZ 0) = true.
Proof.
  intros Hk [D1 [D2 D3]] Hz Hw. induction t as [|t IH]; intros H1 H2.
  - exists [(0, 0)], [(0, 0)], (cell lm 0 0). split; [|apply Hz; assumption].
    unfold closed_walk. constructor; auto.
  - destruct IH as [vs [ts [c [W E]]]]; [lia|lia|].
    replace (repeat k (S t)) with (repeat k t ++ [k]) by (symmetry; apply repeat_cons).
    assert (Et : (S t, S t) = (t + r_di r, t + r_dj r)) by (rewrite D1, D2; f_equal; lia).
    eexists. eexists. exists (charge (cell lm) r (t + r_di r) (t + r_dj r) c). rewrite Et. split.
    + eapply walk_step; [exact W|exact Hk|rewrite D1; lia|rewrite D2; lia|].
      rewrite D1, D2. replace (t + 1) with (S t) by lia. apply Hw; lia.
    + unfold charge. rewrite D1, D2. apply chg_zero; [|exact D3|exact E]. apply Hz; lia.
Qed.

Lemma eq_zero_usable ks (c : N) : eqb c (ofZ 0) = true -> usable ks c.
Proof.
  intros E. apply (law_eq_le _ L) in E. destruct (law_le_nan _ L _ _ E) as [H _]. split; [exact H|].
  intros _. eapply (le_good L); [exact E|]. apply (law_fin_good _ L). apply (law_fin_ofZ _ L). lia.
Qed.

Theorem dtw_identity cdist x y o (lm : mat N) sp rules w k r :
  well_posed cdist x y o lm sp rules w ->
  o_open_begin o = false -> o_open_end o = false -> nr lm = nc lm ->
  nonneg_weights rules -> nonneg_costs lm ->
  rule_no rules k = Some r -> diagonal_rule r ->
  (forall i, i < nr lm -> eqb (cell lm i i) (ofZ 0) = true) ->
  (forall i, 0 < i -> i < nr lm -> in_window w (o_window_args o) (nr lm) (nc lm) i i) ->
  exists d, dtw cdist x y o = Ok d /\ eqb (r_distance d) (ofZ 0) = true.
Proof.
  intros WP Hb He Hsq Hnw Hnc Hk Hr Hz Hw.
  pose proof (wp_query _ _ _ _ _ _ _ _ WP) as Q.
  destruct (diagonal_walk rules lm w (o_window_args o) k r Hk Hr) with (t := nr lm - 1) as [vs [ts [c [W E]]]];
    try lia; auto.
  pose proof (eq_zero_usable (repeat k (nr lm - 1)) c E) as U.
  destruct (dtw_closed_end_iff L _ _ _ _ _ _ _ _ WP He) as [[F Un]|[d [F [F2 [F3 _]]]]].
  - exfalso. unfold unreachable, admissible, end_cell in Un. rewrite Hb in Un.
    replace (nc lm - 1) with (nr lm - 1) in Un by lia. eapply Un; eauto.
  - exists d. split; [exact F|].
    pose proof (wp_costs _ _ _ _ _ _ _ _ WP) as HC.
    assert (Hp : pattern_rules (r_stepPattern d) rules) by (rewrite F2; apply WP).
    destruct (dtw_nonneg _ _ _ _ _ _ _ HC F Hp Hnw Hnc) as [G _].
    destruct (dtw_best L _ _ _ _ _ _ _ HC F Hp) as [_ B].
    destruct (wp_jmin L _ _ _ _ _ _ _ HC F Hp) as [_ [J Ja]]. specialize (J He).
    rewrite Hb, Ja, F3, J in B. unfold admissible, end_cell in B.
    replace (nc lm - 1) with (nr lm - 1) in B by lia. specialize (B _ _ _ _ W U).
    apply (law_le_antisym _ L); [|exact G].
    eapply (law_le_trans _ L); [exact B|]. apply (law_eq_le _ L). exact E.
Qed.

(** ** Obstacles *)
Lemma chg_all_good cost i j l c : (forall a, In a l -> leb (ofZ 0) (snd a) = true) ->
  good (fold_left (fun c (a : nat * nat * N) => macc c (snd a) (cost (i - fst (fst a)) (j - snd (fst a)))) l c) ->
  forall a, In a l -> good (cost (i - fst (fst a)) (j - snd (fst a))).
Proof.
  revert c. induction l as [|b l IH]; intros c Hl G a Ha; [destruct Ha|]. cbn [fold_left] in G.
  destruct Ha as [<-|Ha].
  - apply (law_macc_obstacle _ L) with (a := c) (w := snd b); [apply Hl; left; reflexivity|].
    apply (chg_good L cost i j l _ G).
  - eapply IH; [intros; apply Hl; right; assumption|exact G|exact Ha].
Qed.

Lemma walk_charged rules cost n m source allowed ks vs ts q (c : N) : nonneg_weights rules ->
  walk rules cost n m source allowed ks vs ts q c -> usable ks c ->
  (forall t k r p a, nth_error ks t = Some k -> rule_no rules k = Some r -> nth_error vs (S t) = Some p ->
     In a (r_add r) -> good (cost (fst p - fst (fst a)) (snd p - snd (fst a)))) /\
  exists p c0, nth_error vs 0 = Some p /\ source (fst p) (snd p) = Some c0 /\ usable ks c0.
Proof.
  intros Hw W. pose proof W as W0. revert W0. induction W as [i j c Hso Hi Hj | ks vs ts i0 j0 c k r Hwk IH Hk Hi Hj Ha]; intros W0 U.
  - split; [intros t k r p a Ht; destruct t; discriminate|]. exists (i, j), c. auto.
  - destruct (usable_prefix L cost _ _ _ _ _ _ U) as [G U'].
    destruct (IH Hwk U') as [IH1 [p [c0 [E1 [E2 E3]]]]].
    pose proof (walk_length _ _ _ _ _ _ _ _ _ _ _ Hwk) as Hl.
    split.
    + intros t k' r' p' a Ht Hr' Hp' Hin.
      destruct (Nat.lt_ge_cases t (List.length ks)) as [Hlt|Hge].
      * rewrite nth_error_app1 in Ht by exact Hlt. rewrite nth_error_app1 in Hp' by lia. eapply IH1; eauto.
      * rewrite nth_error_app2 in Ht by exact Hge.
        destruct (t - List.length ks) as [|t'] eqn:E; [|destruct t'; discriminate].
        injection Ht as <-. rewrite nth_error_app2 in Hp' by lia.
        replace (S t - List.length vs) with 0 in Hp' by lia. injection Hp' as <-. cbn [fst snd].
        rewrite Hk in Hr'. injection Hr' as <-.
        eapply chg_all_good; [|apply U; destruct ks; discriminate|exact Hin].
        intros b Hb. apply (Hw r); [apply (rule_no_In _ _ _ Hk)|exact Hb].
    + exists p, c0. split; [|split; [exact E2|]].
      * rewrite nth_error_app1 by lia. exact E1.
      * split; [apply E3|]. intros _. clear IH IH1.
        (* the source cost is below +infinity since something was added *)
        assert (Gs : forall ks vs ts q c, walk rules cost n m source allowed ks vs ts q c -> good c ->
                  forall p c0, nth_error vs 0 = Some p -> source (fst p) (snd p) = Some c0 -> good c0).
        { clear -L. induction 1 as [i j c Hso Hi Hj | ks vs ts i0 j0 c k r Hwk IH Hk Hi Hj Ha]; intros G p c0 Hp Hs.
          - injection Hp as <-. cbn [fst snd] in Hs. congruence.
          - eapply IH; [|  |exact Hs].
            + eapply (charge_good L). exact G.
            + pose proof (walk_length _ _ _ _ _ _ _ _ _ _ _ Hwk). rewrite nth_error_app1 in Hp by lia. exact Hp. }
        exact (Gs _ _ _ _ _ Hwk G _ _ E1 E2).
Qed.

Theorem obstacles_closed cdist x y o (lm : mat N) d rules : costs_of cdist x y lm ->
  dtw cdist x y o = Ok d -> pattern_rules (r_stepPattern d) rules ->
  o_distance_only o = false -> o_open_begin o = false -> nonneg_weights rules ->
  exists mp, r_map d = Some mp /\ isnan (cell lm 0 0) = false /\
    (stepsTaken mp <> [] -> good (cell lm 0 0)) /\
    forall t k r i j a, nth_error (stepsTaken mp) t = Some k -> rule_no rules (Z.to_nat k) = Some r ->
      nth_error (index1s mp) (S t) = Some i -> nth_error (index2s mp) (S t) = Some j ->
      In a (r_add r) -> good (cell lm (Z.to_nat i - fst (fst a)) (Z.to_nat j - snd (fst a))).
Proof.
  intros HC H Hp Hd Hb Hnw. destruct (dtw_alignment L _ _ _ _ _ _ _ HC H Hp Hd) as [mp [ks [vs [ts [Em [W [U [Hl D]]]]]]]].
  rewrite Hb in *. unfold admissible, end_cell, closed_walk in W. exists mp. split; [exact Em|].
  destruct D as [_ [_ [-> [-> ->]]]].
  destruct (walk_charged _ _ _ _ _ _ _ _ _ _ _ Hnw W U) as [C1 [p [c0 [P1 [P2 P3]]]]].
  unfold closed_source in P2. destruct (_ && _); [|discriminate]. injection P2 as <-.
  split; [apply P3|]. split.
  { intros Hne. apply P3. intros E. apply Hne. rewrite E. reflexivity. }
  intros t k r i j a Ht Hr Hi Hj Ha. rewrite nth_error_map in *.
  destruct (nth_error ks t) as [k0|] eqn:Ek; [|discriminate]. injection Ht as <-. rewrite Nat2Z.id in Hr.
  destruct (nth_error vs (S t)) as [v|] eqn:Ev; [|discriminate]. injection Hi as <-. injection Hj as <-.
  unfold query_ix, ref_ix. rewrite !Nat2Z.id. eapply C1; eauto.
Qed.

(** ** Linear invariants *)
Lemma slope_lower ob rules (lm : mat N) w kw ks vs ts j c p q :
  (forall r, In r rules -> p * r_di r <= q * r_dj r) ->
  admissible ob rules lm w kw ks vs ts (end_cell ob lm j) c ->
  exists j0, (if ob then True else j0 = 0) /\ j0 <= j /\
    p * (if ob then nr lm else nr lm - 1) <= q * (j - j0).
Proof.
  intros Hr W.
  assert (G : exists p0 vs', vs = p0 :: vs' /\ fst p0 = 0 /\ (if ob then True else snd p0 = 0) /\
     (forall f : nat -> nat -> Z, (forall a b c d, f (a + c)%nat (b + d)%nat = (f a b + f c d)%Z) ->
      (forall r, In r rules -> (0 <= f (r_di r) (r_dj r))%Z) ->
      (f (fst p0) (snd p0) <= f (if ob then nr lm else nr lm - 1)%nat j)%Z)).
  { unfold admissible, end_cell in W. destruct ob; [unfold open_walk in W|unfold closed_walk in W];
    destruct (walk_displacement _ _ _ _ _ _ _ _ _ _ _ W) as [p0 [vs' [Ev F]]];
    destruct (walk_allowed _ _ _ _ _ _ _ _ _ _ _ W) as [p1 [vs1 [Ev1 [[c0 Hs] _]]]];
    rewrite Ev in Ev1; injection Ev1 as <- <-; exists p0, vs'; (split; [exact Ev|]).
    - unfold open_source in Hs. destruct (Nat.eqb_spec (fst p0) 0); [|discriminate]. auto.
    - unfold closed_source in Hs. destruct (Nat.eqb_spec (fst p0) 0), (Nat.eqb_spec (snd p0) 0); try discriminate. auto. }
  destruct G as [p0 [vs' [_ [E0 [E1 F]]]]]. exists (snd p0). split; [exact E1|].
  pose proof (F (fun _ b => Z.of_nat b) ltac:(intros; cbv beta; lia) ltac:(intros; cbv beta; lia)) as F1. cbv beta in F1.
  split; [lia|].
  pose proof (F (fun a b => (Z.of_nat q * Z.of_nat b - Z.of_nat p * Z.of_nat a)%Z) ltac:(intros; cbv beta; nia)) as F2.
  cbv beta in F2. rewrite E0 in F2.
  assert (F3 := F2 ltac:(intros r Hin; specialize (Hr r Hin); nia)). nia.
Qed.

Lemma slope_upper ob rules (lm : mat N) w kw ks vs ts j c p q :
  (forall r, In r rules -> q * r_dj r <= p * r_di r) ->
  admissible ob rules lm w kw ks vs ts (end_cell ob lm j) c ->
  exists j0, (if ob then True else j0 = 0) /\ j0 <= j /\
    q * (j - j0) <= p * (if ob then nr lm else nr lm - 1).
Proof.
  intros Hr W.
  assert (G : exists p0 vs', vs = p0 :: vs' /\ fst p0 = 0 /\ (if ob then True else snd p0 = 0) /\
     (forall f : nat -> nat -> Z, (forall a b c d, f (a + c)%nat (b + d)%nat = (f a b + f c d)%Z) ->
      (forall r, In r rules -> (0 <= f (r_di r) (r_dj r))%Z) ->
      (f (fst p0) (snd p0) <= f (if ob then nr lm else nr lm - 1)%nat j)%Z)).
  { unfold admissible, end_cell in W. destruct ob; [unfold open_walk in W|unfold closed_walk in W];
    destruct (walk_displacement _ _ _ _ _ _ _ _ _ _ _ W) as [p0 [vs' [Ev F]]];
    destruct (walk_allowed _ _ _ _ _ _ _ _ _ _ _ W) as [p1 [vs1 [Ev1 [[c0 Hs] _]]]];
    rewrite Ev in Ev1; injection Ev1 as <- <-; exists p0, vs'; (split; [exact Ev|]).
    - unfold open_source in Hs. destruct (Nat.eqb_spec (fst p0) 0); [|discriminate]. auto.
    - unfold closed_source in Hs. destruct (Nat.eqb_spec (fst p0) 0), (Nat.eqb_spec (snd p0) 0); try discriminate. auto. }
  destruct G as [p0 [vs' [_ [E0 [E1 F]]]]]. exists (snd p0). split; [exact E1|].
  pose proof (F (fun _ b => Z.of_nat b) ltac:(intros; cbv beta; lia) ltac:(intros; cbv beta; lia)) as F1. cbv beta in F1.
  split; [lia|].
  pose proof (F (fun a b => (Z.of_nat p * Z.of_nat a - Z.of_nat q * Z.of_nat b)%Z) ltac:(intros; cbv beta; nia)) as F2.
  cbv beta in F2. rewrite E0 in F2.
  assert (F3 := F2 ltac:(intros r Hin; specialize (Hr r Hin); nia)). nia.
Qed.

(** ** One query element per step *)

Lemma row_by_row_inner r i j : (forall a, In a (r_add r) -> fst a = (0, 0)) -> @inner_points N r i j = [].
Proof.
  intros H. unfold inner_points. induction (r_add r) as [|a l IH]; [reflexivity|]. cbn [filter].
  rewrite (H a (or_introl eq_refl)). cbn [fst snd Nat.eqb andb negb]. apply IH. intros; apply H; right; assumption.
Qed.

Lemma walk_rows rules cost n m source allowed ks vs ts q (c : N) : row_by_row rules ->
  walk rules cost n m source allowed ks vs ts q c ->
  ts = vs /\ exists p vs', vs = p :: vs' /\ fst q = fst p + List.length ks /\
    map fst vs' = seq (S (fst p)) (List.length ks).
Proof.
  intros Hr. induction 1 as [i j c Hso Hi Hj | ks vs ts i0 j0 c k r Hwk IH Hk Hi Hj Ha].
  - split; [reflexivity|]. exists (i, j), []. cbn. split; [reflexivity|]. split; [lia|reflexivity].
  - destruct (Hr r (rule_no_In _ _ _ Hk)) as [D1 D2].
    destruct IH as [-> [p [vs' [-> [E1 E2]]]]]. rewrite row_by_row_inner by exact D2. split; [reflexivity|].
    exists p. eexists. split; [reflexivity|]. cbn [fst] in *. rewrite app_length. cbn [List.length].
    split; [lia|]. rewrite map_app, E2, seq_app. cbn [map fst seq]. do 2 f_equal. lia.
Qed.

Theorem row_by_row_closed cdist x y o (lm : mat N) d rules : costs_of cdist x y lm ->
  dtw cdist x y o = Ok d -> pattern_rules (r_stepPattern d) rules ->
  o_distance_only o = false -> 0 < nr lm -> row_by_row rules ->
  exists mp, r_map d = Some mp /\ index1 mp = map Z.of_nat (seq 0 (nr lm)) /\ index1s mp = index1 mp /\
    index2s mp = index2 mp /\ List.length (index2 mp) = nr lm.
Proof.
  intros HC H Hp Hd Hq Hr. destruct (dtw_alignment L _ _ _ _ _ _ _ HC H Hp Hd) as [mp [ks [vs [ts [Em [W [U [Hl D]]]]]]]].
  exists mp. split; [exact Em|]. unfold admissible, end_cell in W. destruct (o_open_begin o).
  - unfold open_walk in W. destruct (walk_rows _ _ _ _ _ _ _ _ _ _ _ Hr W) as [E [p [vs' [E1 [E2 E3]]]]].
    destruct (walk_allowed _ _ _ _ _ _ _ _ _ _ _ W) as [p1 [vs1 [Ev1 [[c0 Hs] _]]]].
    subst ts vs. injection Ev1 as <- <-.
    unfold open_source in Hs. destruct (Nat.eqb_spec (fst p) 0) as [Ep|]; [|discriminate].
    rewrite Ep in *. cbn [fst Nat.add] in E2.
    destruct D as [p0 [v0 [t0 [F1 [F2 [-> [-> [-> [-> _]]]]]]]]]. injection F1 as <- <-. injection F2 as <-.
    assert (Eq : map query_ix_open vs' = map Z.of_nat (seq 0 (nr lm))).
    { transitivity (map (fun a => (Z.of_nat a - 1)%Z) (map fst vs')); [rewrite map_map; reflexivity|].
      rewrite E3, <- E2, <- seq_shift, map_map. apply map_ext. intros a. lia. }
    rewrite Eq. repeat (split; [reflexivity|]). rewrite map_length.
    apply (f_equal (@List.length nat)) in E3. rewrite map_length, seq_length in E3. unfold point in *. lia.
  - unfold closed_walk in W. destruct (walk_rows _ _ _ _ _ _ _ _ _ _ _ Hr W) as [E [p [vs' [E1 [E2 E3]]]]].
    destruct (walk_allowed _ _ _ _ _ _ _ _ _ _ _ W) as [p1 [vs1 [Ev1 [[c0 Hs] _]]]].
    subst ts vs. injection Ev1 as <- <-.
    unfold closed_source in Hs. destruct (Nat.eqb_spec (fst p) 0) as [Ep|]; [|discriminate].
    rewrite Ep in *. cbn [fst Nat.add] in E2.
    destruct D as [-> [-> [-> [-> _]]]].
    assert (Eq : map query_ix (p :: vs') = map Z.of_nat (seq 0 (nr lm))).
    { transitivity (map Z.of_nat (map fst (p :: vs'))); [rewrite map_map; reflexivity|].
      cbn [map]. rewrite E3, Ep. f_equal. replace (nr lm) with (S (List.length ks)) by lia. reflexivity. }
    rewrite Eq. repeat (split; [reflexivity|]).
    rewrite map_length. cbn [List.length].
    apply (f_equal (@List.length nat)) in E3. rewrite map_length, seq_length in E3. unfold point in *. lia.
Qed.

(** ** Open begin: patterns whose productions all advance in the reference *)

Lemma walk_advancing rules cost n m source allowed ks vs ts q (c : N) : advancing rules ->
  walk rules cost n m source allowed ks vs ts q c ->
  exists p ts', ts = p :: ts' /\ forall v, In v ts' -> snd p < snd v.
Proof.
  intros Hr W.
  enough (G : exists p ts', ts = p :: ts' /\ snd p <= snd q /\ forall v, In v ts' -> snd p < snd v).
  { destruct G as [p [ts' [E [_ G]]]]. eauto. }
  induction W as [i j c Hso Hi Hj | ks vs ts i0 j0 c k r Hwk IH Hk Hi Hj Ha].
  - exists (i, j), []. split; [reflexivity|]. split; [lia|]. intros v [].
  - destruct IH as [p [ts' [-> [Hle IH]]]]. exists p. eexists. split; [reflexivity|]. cbn [snd] in *.
    destruct (Hr r (rule_no_In _ _ _ Hk)) as [D1 D2]. split; [lia|].
    intros v Hv. apply in_app_iff in Hv. destruct Hv as [Hv|Hv]; [auto|].
    apply in_app_iff in Hv. destruct Hv as [Hv|[<-|[]]]; [|cbn; lia].
    unfold inner_points in Hv. apply in_map_iff in Hv. destruct Hv as [a [<- Hv]].
    apply filter_In in Hv. destruct Hv as [Hv _]. specialize (D2 a Hv). cbn [snd]. lia.
Qed.

Theorem open_begin_never_first cdist x y o (lm : mat N) d rules : costs_of cdist x y lm ->
  dtw cdist x y o = Ok d -> pattern_rules (r_stepPattern d) rules ->
  o_open_begin o = true -> advancing rules ->
  exists mp, r_map d = Some mp /\ forall j, In j (index2 mp) -> (1 <= j)%Z.
Proof.
  intros HC H Hp Hb Hr.
  assert (Hd : o_distance_only o = false).
  { destruct (dtw_fields L _ _ _ _ _ _ _ HC H Hp) as [_ [_ [_ [_ [_ [_ [_ [_ [_ [_ [F _]]]]]]]]]]]. apply F. exact Hb. }
  destruct (dtw_alignment L _ _ _ _ _ _ _ HC H Hp Hd) as [mp [ks [vs [ts [Em [W [U [Hl D]]]]]]]].
  exists mp. split; [exact Em|]. rewrite Hb in *. unfold admissible, end_cell, open_walk in W.
  destruct (walk_advancing _ _ _ _ _ _ _ _ _ _ _ Hr W) as [p [ts' [-> G]]].
  destruct D as [p0 [v0 [t0 [F1 [F2 [_ [-> _]]]]]]]. injection F2 as <- <-.
  intros j Hj. apply in_map_iff in Hj. destruct Hj as [v [<- Hv]]. specialize (G v Hv). unfold ref_ix. lia.
Qed.

End Thm3.
