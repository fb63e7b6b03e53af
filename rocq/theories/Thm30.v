(** Thm30.v - paths of infinite cost, and the open-begin and whole-matrix forms of
    C05, C10, C13, C22 and C42 (proofs). *)
From Coq Require Import ZifyBool ZifyNat.
From Verif Require Import Base Num StepPattern Window Core Backtrack Dtw Spec Api Tables Vocab Terms
  CoreProof DPProof DtwProof ApiProof ApiThms WalkGeom Thm1 Thm2 Thm3 Derived Thm8 Thm10 Thm19 Warp WarpSpec WarpProof Laws2 Thm17 Thm18.
Open Scope string_scope.
Open Scope list_scope.
Open Scope nat_scope.

Section Thm30.
Context {N : Num}.
Variable L : NumLaws N.

(** ** Every path, also one of infinite cost *)
Lemma le_any (a c : N) : isnan a = false -> isnan c = false -> (good c -> leb a c = true) -> leb a c = true.
Proof.
  intros Ha Hc H. destruct (ltb c pinf) eqn:E; [exact (H E)|].
  eapply (law_le_trans _ L); [apply (law_pinf_max _ L); exact Ha|].
  apply (law_not_lt_le _ L); auto. apply (law_pinf_nan _ L).
Qed.

Lemma distance_not_nan cdist x y o (lm : mat N) d rules :
  costs_of cdist x y lm -> dtw cdist x y o = Ok d -> pattern_rules (r_stepPattern d) rules ->
  isnan (r_distance d) = false.
Proof.
  intros HC H Hp. destruct (dtw_best L _ _ _ _ _ _ _ HC H Hp) as [[ks [vs [ts [_ [U _]]]]] _]. exact U.
Qed.

Theorem optimal_every_path cdist x y o (lm : mat N) d rules :
  costs_of cdist x y lm -> dtw cdist x y o = Ok d -> pattern_rules (r_stepPattern d) rules ->
  o_open_begin o = false -> o_open_end o = false ->
  forall ks vs ts c,
    closed_walk rules lm (r_windowFunction d) (r_windowArgs d) ks vs ts (nr lm - 1, nc lm - 1) c ->
    isnan c = false -> leb (r_distance d) c = true.
Proof.
  intros HC H Hp Hb He ks vs ts c W Hc. apply le_any; [eapply distance_not_nan; eauto|exact Hc|].
  intros G. eapply (optimal_closed L); eauto. split; auto.
Qed.

(** ** Steps with open begin *)
Theorem steps_follow_table_open cdist x y o (lm : mat N) d rules : costs_of cdist x y lm ->
  dtw cdist x y o = Ok d -> pattern_rules (r_stepPattern d) rules -> o_open_begin o = true ->
  exists mp, r_map d = Some mp /\
  (forall k, nth_error (stepsTaken mp) 0 = Some k ->
     exists j0 i j, (0 <= j0 < Z.of_nat (nc lm))%Z /\
       nth_error (index1s mp) 0 = Some i /\ nth_error (index2s mp) 0 = Some j /\
       In (Row (ofZ k) (ofZ (i + 1)) (ofZ (j - j0)) (ofZ (-1))) (mx (r_stepPattern d))) /\
  (forall t k, nth_error (stepsTaken mp) (S t) = Some k ->
     exists i j i' j', nth_error (index1s mp) t = Some i /\ nth_error (index2s mp) t = Some j /\
       nth_error (index1s mp) (S t) = Some i' /\ nth_error (index2s mp) (S t) = Some j' /\
       In (Row (ofZ k) (ofZ (i' - i)) (ofZ (j' - j)) (ofZ (-1))) (mx (r_stepPattern d))).
Proof.
  intros HC H Hp Hb.
  destruct (alignment_open L _ _ _ _ _ _ _ HC H Hp Hb) as [mp [ks [j0 [Em [Hj0 [Es [Hk [E1 [E2 _]]]]]]]]].
  exists mp. split; [exact Em|].
  assert (G : forall t k0 r, nth_error ks t = Some k0 -> rule_no rules k0 = Some r ->
    In (Row (ofZ (Z.of_nat k0)) (ofZ (Z.of_nat (r_di r))) (ofZ (Z.of_nat (r_dj r))) (ofZ (-1))) (mx (r_stepPattern d))).
  { intros t k0 r _ R1. destruct Hp as [Et _]. rewrite Et. unfold table.
    destruct k0 as [|k0]; [discriminate R1|]. cbn [rule_no] in R1. exact (rule_row_in rules 1 k0 r R1). }
  split.
  - intros k Ht. rewrite Es, nth_error_map in Ht. destruct (nth_error ks 0) as [k0|] eqn:Ek; [|discriminate].
    injection Ht as <-.
    destruct (replay_ends_step rules 0 j0 ks 0 k0 Hk Ek) as [r [p [p' [R1 [R2 [R3 [R4 R5]]]]]]].
    change (nth_error (replay_ends rules 0 j0 ks) 0 = Some p') in R3. cbn [nth_error] in R2. injection R2 as <-. cbn [fst snd] in R4, R5.
    exists (Z.of_nat j0), (query_ix_open p'), (ref_ix p'). rewrite E1, E2, !nth_error_map.
    unfold point in *. rewrite R3. split; [lia|]. split; [reflexivity|]. split; [reflexivity|].
    replace (query_ix_open p' + 1)%Z with (Z.of_nat (r_di r)) by (unfold query_ix_open; lia).
    replace (ref_ix p' - Z.of_nat j0)%Z with (Z.of_nat (r_dj r)) by (unfold ref_ix; lia).
    eapply G; eauto.
  - intros t k Ht. rewrite Es, nth_error_map in Ht. destruct (nth_error ks (S t)) as [k0|] eqn:Ek; [|discriminate].
    injection Ht as <-.
    destruct (replay_ends_step rules 0 j0 ks (S t) k0 Hk Ek) as [r [p [p' [R1 [R2 [R3 [R4 R5]]]]]]].
    cbn [nth_error] in R2. change (nth_error (replay_ends rules 0 j0 ks) (S t) = Some p') in R3.
    exists (query_ix_open p), (ref_ix p), (query_ix_open p'), (ref_ix p').
    rewrite E1, E2, !nth_error_map. unfold point in *. rewrite R2, R3. repeat split; try reflexivity.
    replace (query_ix_open p' - query_ix_open p)%Z with (Z.of_nat (r_di r)) by (unfold query_ix_open; lia).
    replace (ref_ix p' - ref_ix p)%Z with (Z.of_nat (r_dj r)) by (unfold ref_ix; lia).
    eapply G; eauto.
Qed.

(** ** The band with open begin: the code centres it on the padded query *)
Theorem sakoe_points_open cdist x y o (lm : mat N) d rules ws : costs_of cdist x y lm ->
  dtw cdist x y o = Ok d -> pattern_rules (r_stepPattern d) rules -> o_open_begin o = true -> 0 < nr lm ->
  r_windowFunction d = SakoeChiba -> r_windowArgs d = band ws ->
  exists mp, r_map d = Some mp /\
  forall t i j, nth_error (index1s mp) t = Some i -> nth_error (index2s mp) t = Some j ->
    leb (ofZ (Z.abs (j - (i + 1)))) ws = true.
Proof.
  intros HC H Hp Hb H0 Hf Ha.
  destruct (window_open L _ _ _ _ _ _ _ HC H Hp Hb) as [mp [Em Hw]].
  destruct (monotone_open L _ _ _ _ _ _ _ HC H Hp Hb H0) as [mp' [Em' M]].
  rewrite Em in Em'. injection Em' as <-. exists mp. split; [exact Em|].
  destruct M as [_ [_ [_ [_ [_ [_ [_ [_ [M3 [M4 _]]]]]]]]]].
  intros t i j Hi Hj. specialize (Hw t i j Hi Hj). rewrite Hf, Ha in Hw. apply in_band in Hw.
  apply nth_error_In in Hi. apply nth_error_In in Hj. specialize (M3 _ Hi). specialize (M4 _ Hj).
  rewrite Nat2Z.inj_succ, !Z2Nat.id in Hw by lia. unfold Z.succ in Hw. exact Hw.
Qed.

(** ** The cumulative cost matrix returned *)
Lemma mget_some_bound {A} (g : mat A) i j v : mget g i j = Some v -> i < nr g /\ j < nc g.
Proof. unfold mget. destruct ((i <? nr g) && (j <? nc g)) eqn:E; [lia|discriminate]. Qed.

Lemma matrix_optimum cdist x y o (lm : mat N) d rules : costs_of cdist x y lm ->
  dtw cdist x y o = Ok d -> pattern_rules (r_stepPattern d) rules -> o_keep_internals o = true ->
  exists g, r_costMatrix d = Some g /\ nr g = nr lm /\ nc g = nc lm /\
    forall i j v, mget g i j = Some v -> isnan v = false ->
      (exists ks vs ts, admissible (o_open_begin o) rules lm (r_windowFunction d) (r_windowArgs d) ks vs ts
         (if o_open_begin o then S i else i, j) v /\ usable ks v) /\
      (forall ks vs ts c, admissible (o_open_begin o) rules lm (r_windowFunction d) (r_windowArgs d) ks vs ts
         (if o_open_begin o then S i else i, j) c -> usable ks c -> leb v c = true).
Proof.
  intros HC H Hp Hk. destruct (o_open_begin o) eqn:Hb.
  - destruct (dtw_matrices_open L _ _ _ _ _ _ _ HC H Hp Hk Hb)
      as [_ [g [dg [E1 [_ [S1 [S2 [_ [_ [W1 [_ [_ [B _]]]]]]]]]]]]].
    exists (drop_first_row g). cbn [nr nc drop_first_row]. repeat split; try assumption; try lia; clear E1.
    + rewrite mget_drop in H0 by lia. destruct (mget_some_bound _ _ _ _ H0) as [Q1 Q2]. rewrite S1 in Q1. rewrite S2 in Q2.
      destruct (B (S i) j ltac:(lia) Q2) as [v' [s [Ev [_ [_ [_ [O _]]]]]]].
      rewrite H0 in Ev. injection Ev as <-. destruct (O H1) as [O1 _]. exact O1.
    + rewrite mget_drop in H0 by lia. destruct (mget_some_bound _ _ _ _ H0) as [Q1 Q2]. rewrite S1 in Q1. rewrite S2 in Q2.
      destruct (B (S i) j ltac:(lia) Q2) as [v' [s [Ev [_ [_ [_ [O _]]]]]]].
      rewrite H0 in Ev. injection Ev as <-. destruct (O H1) as [_ O2]. exact O2.
  - destruct (dtw_matrices_closed L _ _ _ _ _ _ _ HC H Hp Hk Hb) as [_ [g [dg [E1 [_ [S1 [S2 [_ [_ [_ [B _]]]]]]]]]]].
    exists g. split; [exact E1|]. split; [exact S1|]. split; [exact S2|].
    intros i j v Ev Hv. destruct (mget_some_bound _ _ _ _ Ev) as [Q1 Q2]. rewrite S1 in Q1. rewrite S2 in Q2.
    destruct (B i j Q1 Q2) as [v' [s [Ev' [_ [_ [O _]]]]]]. rewrite Ev in Ev'. injection Ev' as <-. exact (O Hv).
Qed.

(** Non-negative costs and weights: no negative entry. *)
Theorem matrix_nonneg cdist x y o (lm : mat N) d rules : costs_of cdist x y lm ->
  dtw cdist x y o = Ok d -> pattern_rules (r_stepPattern d) rules -> o_keep_internals o = true ->
  nonneg_weights rules -> nonneg_costs lm ->
  exists g, r_costMatrix d = Some g /\ nr g = nr lm /\ nc g = nc lm /\
    forall i j v, mget g i j = Some v -> leb (ofZ 0) v = true \/ isnan v = true.
Proof.
  intros HC H Hp Hk Hw Hc. destruct (matrix_optimum _ _ _ _ _ _ _ HC H Hp Hk) as [g [E [S1 [S2 B]]]].
  exists g. repeat split; auto. intros i j v Ev. destruct (isnan v) eqn:Hv; [right; reflexivity|left].
  destruct (B i j v Ev Hv) as [[ks [vs [ts [W U]]]] _].
  eapply (adm_nonneg L); eauto. eapply costs_of_wf; eauto.
Qed.

(** With an open end the last row of the matrix shows the choice of the end point. *)
Theorem open_end_matrix cdist x y o (lm : mat N) d rules : costs_of cdist x y lm ->
  dtw cdist x y o = Ok d -> pattern_rules (r_stepPattern d) rules -> o_keep_internals o = true ->
  o_open_end o = true -> 0 < nr lm ->
  exists g, r_costMatrix d = Some g /\ nr g = nr lm /\ nc g = nc lm /\
    mget g (nr lm - 1) (r_jmin d) = Some (r_distance d) /\
    r_normalizedDistance d = normalized (hint (r_stepPattern d)) (nr lm) (r_jmin d) (r_distance d) /\
    forall j v, mget g (nr lm - 1) j = Some v -> isnan v = false ->
      leb (r_normalizedDistance d) (normalized (hint (r_stepPattern d)) (nr lm) j v) = true /\
      (j < r_jmin d -> ltb (r_normalizedDistance d) (normalized (hint (r_stepPattern d)) (nr lm) j v) = true).
Proof.
  intros HC H Hp Hk He H0. destruct (matrix_optimum _ _ _ _ _ _ _ HC H Hp Hk) as [g [E [S1 [S2 B]]]].
  destruct (open_end_choice L _ _ _ _ _ _ _ HC H Hp He H0) as [_ [_ [O3 O4]]].
  exists g. split; [exact E|]. split; [exact S1|]. split; [exact S2|]. split.
  { destruct (o_open_begin o) eqn:Hb.
    - destruct (dtw_matrices_open L _ _ _ _ _ _ _ HC H Hp Hk Hb)
        as [_ [g' [dg [E1 [_ [Q1 [Q2 [_ [_ [W1 [_ [_ [_ Q]]]]]]]]]]]]].
      rewrite E in E1. injection E1 as ->. rewrite mget_drop by lia. replace (S (nr lm - 1)) with (nr lm) by lia. exact Q.
    - destruct (dtw_matrices_closed L _ _ _ _ _ _ _ HC H Hp Hk Hb) as [_ [g' [dg [E1 [_ [_ [_ [_ [_ [_ [_ Q]]]]]]]]]]].
      rewrite E in E1. injection E1 as ->. exact Q. }
  split; [exact O3|]. intros j v Ev Hv. destruct (mget_some_bound _ _ _ _ Ev) as [Q1 Q2]. rewrite S2 in Q2.
  apply O4; [exact Q2|]. unfold best_to, end_cell. specialize (B _ _ _ Ev Hv).
  destruct (o_open_begin o); [|exact B]. replace (S (nr lm - 1)) with (nr lm) in B by lia. exact B.
Qed.

(** ** Obstacles with open begin *)
Theorem obstacles_open cdist x y o (lm : mat N) d rules : costs_of cdist x y lm ->
  dtw cdist x y o = Ok d -> pattern_rules (r_stepPattern d) rules ->
  o_open_begin o = true -> nonneg_weights rules ->
  exists mp, r_map d = Some mp /\
    forall t k r i j a, nth_error (stepsTaken mp) t = Some k -> rule_no rules (Z.to_nat k) = Some r ->
      nth_error (index1s mp) t = Some i -> nth_error (index2s mp) t = Some j ->
      In a (r_add r) -> (Z.of_nat (fst (fst a)) <= i)%Z ->
      good (cell lm (Z.to_nat i - fst (fst a)) (Z.to_nat j - snd (fst a))).
Proof.
  intros HC H Hp Hb Hnw.
  assert (Hd : o_distance_only o = false) by (destruct (dtw_fields L _ _ _ _ _ _ _ HC H Hp) as [_ [_ [_ [_ [_ [_ [_ [_ [_ [_ [Q _]]]]]]]]]]]; apply Q; exact Hb).
  pose proof (costs_of_wf _ _ _ _ HC) as Hwf.
  destruct (dtw_alignment L _ _ _ _ _ _ _ HC H Hp Hd) as [mp [ks [vs [ts [Em [W [U [Hl D]]]]]]]].
  rewrite Hb in *. unfold admissible, end_cell, open_walk in W. exists mp. split; [exact Em|].
  destruct D as [p0 [vs' [ts' [Ev [Et [_ [_ [-> [-> ->]]]]]]]]].
  destruct (walk_charged L _ _ _ _ _ _ _ _ _ _ _ Hnw W U) as [C1 _].
  intros t k r i j a Ht Hr Hi Hj Ha Hle. rewrite nth_error_map in *.
  destruct (nth_error ks t) as [k0|] eqn:Ek; [|discriminate]. injection Ht as <-. rewrite Nat2Z.id in Hr.
  destruct (nth_error vs' t) as [v|] eqn:Evt; [|discriminate]. injection Hi as <-. injection Hj as <-.
  assert (Q : nth_error vs (S t) = Some v) by (rewrite Ev; exact Evt).
  pose proof (C1 t k0 r v a Ek Hr Q Ha) as G.
  destruct (walk_vertex_range _ _ _ _ _ _ _ _ _ _ _ W v (nth_error_In _ _ Q)) as [B1 B2].
  unfold query_ix_open, ref_ix in *. rewrite padded_cell in G by (assumption || lia).
  destruct (Nat.eqb_spec (fst v - fst (fst a)) 0); [lia|].
  replace (Z.to_nat (Z.of_nat (fst v) - 1) - fst (fst a)) with (fst v - fst (fst a) - 1) by lia.
  rewrite Nat2Z.id. exact G.
Qed.


(** ** warpArea with open begin *)
Lemma below_range (f : Z) i1 i2 : List.length i1 = List.length i2 -> nondecreasing i1 -> first_is f i1 -> (0 < f)%Z ->
  interp_at (combine i1 (map (@ofZ N) i2)) 0 = Raise (ValueError "A value in x_new is below the interpolation range's minimum value").
Proof.
  intros Hl M F Hf. destruct i1 as [|a i1]; [discriminate F|]. injection F as ->.
  destruct i2 as [|b i2]; [discriminate Hl|]. destruct i1 as [|a' i1], i2 as [|b' i2]; try discriminate Hl.
  - cbn. destruct (0 <? f)%Z eqn:E; [reflexivity|lia].
  - assert (f <= a')%Z by (apply (M 0 1); [lia|reflexivity|reflexivity]).
    cbn. destruct (a' <=? 0)%Z eqn:E1; [lia|]. cbn. destruct (0 <? f)%Z eqn:E; [reflexivity|lia].
Qed.

Theorem area_open (L2 : NumLaws2 N) cdist x y o (lm : mat N) d rules : costs_of cdist x y lm ->
  dtw cdist x y o = Ok d -> pattern_rules (r_stepPattern d) rules ->
  o_open_begin o = true -> 0 < nr lm -> leaves_row rules ->
  exists mp, r_map d = Some mp /\
    (In 0%Z (index1 mp) -> exists ts, warpArea d = Ok (np_sum ts) /\ leb (ofZ 0) (np_sum ts) = true /\
       area_terms (index1 mp) (index2 mp) (nr lm) (nc lm) ts) /\
    (~ In 0%Z (index1 mp) ->
       warpArea d = Raise (ValueError "A value in x_new is below the interpolation range's minimum value")).
Proof.
  intros HC H Hp Hb Hn Hr. destruct (ok_size L _ _ _ _ _ _ _ HC H Hp) as [Hm [Hsz _]].
  destruct (dtw_fields L _ _ _ _ _ _ _ HC H Hp) as [EN [EM _]].
  destruct (monotone_open L _ _ _ _ _ _ _ HC H Hp Hb Hn) as [mp [Em [Hl [_ [_ [L1 [_ [_ [_ [W2 [_ [_ [W1 [M1 [M2 _]]]]]]]]]]]]]]].
  specialize (W1 Hr). exists mp. split; [exact Em|].
  assert (Hi1 : exists f, first_is f (index1 mp) /\ (0 <= f)%Z).
  { destruct L1 as [l' E]. destruct (index1 mp) as [|f l] eqn:Ei; [destruct l'; discriminate|]. exists f. split; [reflexivity|].
    apply (W1 f). left. reflexivity. }
  destruct Hi1 as [f [F Hf]]. split.
  - intros H0. assert (f = 0%Z) as ->.
    { apply In_nth_error in H0 as [t Ht]. assert (f <= 0)%Z by (apply (M1 0 t); [lia|exact F|exact Ht]). lia. }
    destruct (area_sum L L2 d mp Em Hl M1 M2 F) as [ts [E T]]; rewrite ?EN, ?EM in *; try assumption.
    + destruct L1 as [l' ->]. apply in_or_app. right. left. reflexivity.
    + unfold INT_MAX in Hsz. lia.
    + exists ts. split; [exact E|]. split; [|exact T]. unfold INT_MAX in Hsz. eapply (terms_nonneg L L2); [|  |exact T]; lia.
  - intros H0. assert (0 < f)%Z.
    { assert (f <> 0)%Z; [|lia]. intros ->. apply H0. eapply nth_error_In. exact F. }
    unfold warpArea. rewrite Em, EN. unfold interp1d. rewrite map_length, Hl, Nat.eqb_refl. cbn [negb].
    assert (Hs : sorted (combine (index1 mp) (map (@ofZ N) (index2 mp)))).
    { intros a b [p p'] [q q'] Hab Ha Hb'. apply nth_combine in Ha as [Ha _]. apply nth_combine in Hb' as [Hb' _]. cbn. eapply M1; eassumption. }
    rewrite (sort_sorted _ Hs). unfold arange. destruct (Z.to_nat (Z.of_nat (nr lm))) eqn:En; [lia|].
    cbn [seq map mapM Z.of_nat]. rewrite (below_range f _ _ Hl M1 F H1). reflexivity.
Qed.

End Thm30.
