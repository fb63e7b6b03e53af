(** Thm2.v - comparing two calls: windows, costs, open end (proofs). *)
From Coq Require Import ZifyBool ZifyNat.
From Verif Require Import Base Num StepPattern Window Core Backtrack Dtw Spec Api Tables Vocab Terms
  CoreProof DPProof DtwProof ApiProof ApiThms WalkGeom Thm1.
Open Scope string_scope.
Open Scope list_scope.
Open Scope nat_scope.

Section Thm2.
Context {N : Num}.
Variable L : NumLaws N.

(** general shape: every usable walk of problem 1 has a cheaper counterpart in problem 2 *)
Definition dominates (ob : bool) (rules1 rules2 : list (rule N)) (lm1 lm2 : mat N) (w1 w2 : winfun N)
           (kw1 kw2 : kwargs N) : Prop :=
  nr lm1 = nr lm2 /\ nc lm1 = nc lm2 /\
  forall j ks vs ts c, admissible ob rules1 lm1 w1 kw1 ks vs ts (end_cell ob lm1 j) c -> usable ks c ->
    exists ks' vs' ts' c', admissible ob rules2 lm2 w2 kw2 ks' vs' ts' (end_cell ob lm2 j) c' /\
      usable ks' c' /\ leb c' c = true.

Lemma wp_jmin cdist x y o (lm : mat N) d rules : costs_of cdist x y lm ->
  dtw cdist x y o = Ok d -> pattern_rules (r_stepPattern d) rules ->
  r_jmin d < nc lm /\ (o_open_end o = false -> r_jmin d = nc lm - 1) /\ r_windowArgs d = o_window_args o.
Proof.
  intros HC H Hp. destruct (dtw_fields L _ _ _ _ _ _ _ HC H Hp) as [_ [_ [_ [_ [_ [F6 [_ [F8 [F9 _]]]]]]]]]. auto.
Qed.

Lemma best_le ob rules1 rules2 (lm1 lm2 : mat N) w1 w2 kw1 kw2 j c1 c2 :
  dominates ob rules1 rules2 lm1 lm2 w1 w2 kw1 kw2 ->
  best_to ob rules1 lm1 w1 kw1 j c1 -> best_to ob rules2 lm2 w2 kw2 j c2 -> leb c2 c1 = true.
Proof.
  intros [_ [_ D]] [[ks [vs [ts [W U]]]] _] [_ B].
  destruct (D j ks vs ts c1 W U) as [ks' [vs' [ts' [c' [W' [U' Hle]]]]]].
  eapply (law_le_trans _ L); [|exact Hle]. eapply B; eauto.
Qed.

(** closed end *)
Theorem dominates_closed_end cdist x1 y1 x2 y2 o1 o2 (lm1 lm2 : mat N) d1 rules1 rules2 sp2 w2 :
  costs_of cdist x1 y1 lm1 -> dtw cdist x1 y1 o1 = Ok d1 -> pattern_rules (r_stepPattern d1) rules1 ->
  well_posed cdist x2 y2 o2 lm2 sp2 rules2 w2 ->
  o_open_end o1 = false -> o_open_end o2 = false -> o_open_begin o1 = o_open_begin o2 ->
  dominates (o_open_begin o1) rules1 rules2 lm1 lm2 (r_windowFunction d1) w2 (o_window_args o1) (o_window_args o2) ->
  exists d2, dtw cdist x2 y2 o2 = Ok d2 /\ r_stepPattern d2 = sp2 /\ leb (r_distance d2) (r_distance d1) = true.
Proof.
  intros HC H Hp WP E1 E2 Eb D.
  destruct (wp_jmin _ _ _ _ _ _ _ HC H Hp) as [Hj [Hj' Hw]]. specialize (Hj' E1).
  pose proof (dtw_best L _ _ _ _ _ _ _ HC H Hp) as B1. rewrite Hw in B1.
  destruct (dtw_closed_end_iff L _ _ _ _ _ _ _ _ WP E2) as [[F Un]|[d2 [F [F2 [F3 _]]]]].
  - exfalso. destruct D as [Dn [Dm D]]. destruct B1 as [[ks [vs [ts [W U]]]] _].
    destruct (D _ _ _ _ _ W U) as [ks' [vs' [ts' [c' [W' [U' _]]]]]]. rewrite Eb in W'.
    rewrite Hj', Dm in W'. eapply Un; eauto.
  - exists d2. split; [exact F|]. split; [exact F2|].
    assert (Hp2 : pattern_rules (r_stepPattern d2) rules2) by (rewrite F2; apply WP).
    pose proof (wp_costs _ _ _ _ _ _ _ _ WP) as HC2.
    destruct (wp_jmin _ _ _ _ _ _ _ HC2 F Hp2) as [Hk [Hk' Hw2]]. specialize (Hk' E2).
    pose proof (dtw_best L _ _ _ _ _ _ _ HC2 F Hp2) as B2. rewrite Hw2, F3, Hk', <- Eb in B2.
    rewrite Hj' in B1. replace (nc lm2) with (nc lm1) in B2 by apply D.
    eapply best_le; [exact D|exact B1|exact B2].
Qed.

(** the number dividing a cumulative cost *)
Lemma normalized_mono h n j (a b : N) : (1 <= Z.of_nat n <= 2 ^ 40)%Z -> (Z.of_nat j <= 2 ^ 40)%Z ->
  leb a b = true -> leb (normalized h n j a) (normalized h n j b) = true.
Proof.
  intros Hn Hj H. unfold normalized.
  destruct (String.eqb h "N+M"); [apply (law_div_mono _ L); [lia|exact H]|].
  destruct (String.eqb h "N"); [apply (law_div_mono _ L); [lia|exact H]|].
  destruct (String.eqb h "M"); [apply (law_div_mono _ L); [lia|exact H]|]. exact H.
Qed.

Lemma wp_small cdist x y o (lm : mat N) sp rules w : well_posed cdist x y o lm sp rules w ->
  (1 <= Z.of_nat (nr lm) <= 2 ^ 40)%Z /\ (1 <= Z.of_nat (nc lm) <= 2 ^ 40)%Z.
Proof.
  intros WP. destruct (wp_size _ _ _ _ _ _ _ _ WP) as [A [B C]]. pose proof (wp_query _ _ _ _ _ _ _ _ WP) as Q.
  unfold INT_MAX, rows_used in *. destruct (o_open_begin o); nia.
Qed.

(** [o2] asks for an open end; call 1 may or may not *)
Theorem dominates_open_end cdist x1 y1 x2 y2 o1 o2 (lm1 lm2 : mat N) d1 rules1 rules2 sp2 w2 :
  costs_of cdist x1 y1 lm1 -> dtw cdist x1 y1 o1 = Ok d1 -> pattern_rules (r_stepPattern d1) rules1 ->
  well_posed cdist x2 y2 o2 lm2 sp2 rules2 w2 ->
  o_open_end o2 = true -> o_open_begin o1 = o_open_begin o2 -> hint (r_stepPattern d1) = hint sp2 ->
  dominates (o_open_begin o1) rules1 rules2 lm1 lm2 (r_windowFunction d1) w2 (o_window_args o1) (o_window_args o2) ->
  exists d2, dtw cdist x2 y2 o2 = Ok d2 /\ r_stepPattern d2 = sp2 /\
    leb (r_normalizedDistance d2) (r_normalizedDistance d1) = true.
Proof.
  intros HC H Hp WP E2 Eb Eh D.
  destruct (wp_jmin _ _ _ _ _ _ _ HC H Hp) as [Hj [_ Hw]].
  pose proof (dtw_best L _ _ _ _ _ _ _ HC H Hp) as B1. rewrite Hw in B1.
  destruct D as [Dn [Dm D]].
  destruct (dtw_open_end_iff L _ _ _ _ _ _ _ _ WP E2) as [[F Un]|[d2 [F [F2 [F3 _]]]]].
  - exfalso. destruct B1 as [[ks [vs [ts [W U]]]] _].
    destruct (D _ _ _ _ _ W U) as [ks' [vs' [ts' [c' [W' [U' _]]]]]]. rewrite Eb in W'.
    eapply (Un (r_jmin d1)); eauto. lia.
  - exists d2. split; [exact F|]. split; [exact F2|].
    assert (Hp2 : pattern_rules (r_stepPattern d2) rules2) by (rewrite F2; apply WP).
    pose proof (wp_costs _ _ _ _ _ _ _ _ WP) as HC2.
    (* the best cost in column jmin of call 1 *)
    destruct (wp_run L _ _ _ _ _ _ _ _ WP) as [cmx [dmx [cmf [smf [win [S R]]]]]].
    pose proof (wp_size _ _ _ _ _ _ _ _ WP) as Hsz. rewrite rows_used_p in Hsz.
    destruct (wp_rules _ _ _ _ _ _ _ _ WP) as [_ [_ [Hv _]]].
    destruct (p_best L o2 lm2 rules2 w2 win ltac:(apply S) Hv sp2 cmx dmx cmf smf (r_jmin d1) Hsz S ltac:(lia)) as [P1 P2].
    set (v := cmf (nr (p_lm o2 lm2) - 1) (r_jmin d1)) in *.
    destruct B1 as [[ks [vs [ts [W U]]]] _].
    destruct (D _ _ _ _ _ W U) as [ks' [vs' [ts' [c' [W' [U' Hle]]]]]]. rewrite Eb in W'.
    destruct (isnan v) eqn:Ev.
    { exfalso. eapply (P2 eq_refl); eauto. }
    specialize (P1 eq_refl).
    assert (Hvle : leb v (r_distance d1) = true).
    { eapply (law_le_trans _ L); [|exact Hle]. destruct P1 as [_ P1]. eapply P1; eauto. }
    destruct (dtw_fields L _ _ _ _ _ _ _ HC2 F Hp2) as [_ [_ [_ [_ [_ [Hw2 [_ [_ [_ [_ [_ [Hna _]]]]]]]]]]]].
    specialize (Hna E2).
    destruct (dtw_open_end_best L _ _ _ _ _ _ _ HC2 F Hp2 E2 (wp_query _ _ _ _ _ _ _ _ WP) (r_jmin d1) v) as [Q _].
    { lia. } { rewrite Hw2, F3. exact P1. }
    eapply (law_le_trans _ L); [exact Q|].
    destruct (dtw_fields L _ _ _ _ _ _ _ HC H Hp) as [G1 [_ [_ [_ [_ [_ [_ [_ [_ [G10 _]]]]]]]]]].
    rewrite G10, Eh, <- F2.
    destruct (String.eqb_spec (hint (r_stepPattern d2)) "NA"); [contradiction|].
    rewrite G1, Dn. destruct (wp_small _ _ _ _ _ _ _ _ WP). apply normalized_mono; [lia|lia|exact Hvle].
Qed.

(** ** Instances of domination *)

Lemma dominates_window ob rules (lm : mat N) w1 w2 kw1 kw2 :
  window_within w1 kw1 w2 kw2 (rows_used ob lm) (nc lm) ->
  dominates ob rules rules lm lm w1 w2 kw1 kw2.
Proof.
  intros Hw. split; [reflexivity|]. split; [reflexivity|]. intros j ks vs ts c W U.
  exists ks, vs, ts, c. split; [|split; [exact U|]].
  - unfold admissible, rows_used, window_within in *. destruct ob.
    + unfold open_walk in *. revert W. apply walk_mono; [auto|]. intros i j' Hi Hj [A B]. auto.
    + unfold closed_walk in *. revert W. apply walk_mono; [auto|]. intros i j' Hi Hj A. auto.
  - apply (law_le_refl _ L). apply U.
Qed.

Lemma dominates_rules ob rules1 rules2 (lm : mat N) w kw :
  (forall r, In r rules1 -> In r rules2) -> dominates ob rules1 rules2 lm lm w w kw kw.
Proof.
  intros Hr. split; [reflexivity|]. split; [reflexivity|].
  assert (G : forall cost n m source allowed ks vs ts q c,
    walk rules1 cost n m source allowed ks vs ts q c ->
    exists ks', (ks' = [] <-> ks = []) /\ walk rules2 cost n m source allowed ks' vs ts q (c : N)).
  { intros cost n m source allowed. induction 1 as [i j c Hs Hi Hj | ks vs ts i0 j0 c k r Hw IH Hk Hi Hj Ha].
    - exists []. split; [tauto|]. constructor; auto.
    - destruct IH as [ks' [He W']]. destruct (In_rule_no rules2 r (Hr r (rule_no_In _ _ _ Hk))) as [k' Hk'].
      exists (ks' ++ [k']). split.
      + split; intros E; [destruct ks'; discriminate|destruct ks; discriminate].
      + eapply walk_step; eauto. }
  intros j ks vs ts c W U. unfold admissible in *.
  assert (Q : exists ks', (ks' = [] <-> ks = []) /\
     (if ob then open_walk rules2 lm w kw else closed_walk rules2 lm w kw) ks' vs ts (end_cell ob lm j) c).
  { destruct ob; unfold open_walk, closed_walk in *; apply G in W; exact W. }
  destruct Q as [ks' [He W']]. exists ks', vs, ts, c. split; [exact W'|]. destruct U as [U1 U2]. split.
  - split; [exact U1|]. intros Hne. apply U2. intros E. apply Hne. apply He. exact E.
  - apply (law_le_refl _ L). exact U1.
Qed.

(** lowering the costs *)
Section Raise.
Variables (rules : list (rule N)) (cost cost' : nat -> nat -> N) (n m : nat)
          (source source' : nat -> nat -> option N) (allowed : nat -> nat -> Prop).
Hypothesis Hw : nonneg_weights rules.
Hypothesis Hv : forallb valid_rule rules = true.
Hypothesis Hc : forall i j, i < n -> j < m -> (leb (ofZ 0) (cost i j) = true \/ isnan (cost i j) = true) /\
  (leb (cost i j) (cost' i j) = true \/ isnan (cost' i j) = true).
Hypothesis Hs : forall i j c, i < n -> j < m -> source' i j = Some c -> isnan c = false ->
  exists c0, source i j = Some c0 /\ leb c0 c = true.

Lemma charge_raise r i j c c' : In r rules -> i < n -> j < m -> leb c c' = true ->
  good (charge cost' r i j c') -> leb (charge cost r i j c) (charge cost' r i j c') = true.
Proof.
  intros Hr Hi Hj. unfold charge.
  assert (G : forall l, (forall a, In a l -> In a (r_add r)) -> forall c c', leb c c' = true ->
    good (fold_left (fun c a => macc c (snd a) (cost' (i - fst (fst a)) (j - snd (fst a)))) l c') ->
    leb (fold_left (fun c a => macc c (snd a) (cost (i - fst (fst a)) (j - snd (fst a)))) l c)
        (fold_left (fun c a => macc c (snd a) (cost' (i - fst (fst a)) (j - snd (fst a)))) l c') = true).
  { induction l as [|a l IH]; intros Hl d d' Hd Gd; [exact Hd|]. cbn [fold_left] in *.
    apply IH; [intros; apply Hl; right; assumption| |exact Gd].
    pose proof (chg_good L cost' i j l _ Gd) as G1.
    assert (Hwa : leb (ofZ 0) (snd a) = true) by (apply (Hw r); [exact Hr|apply Hl; left; reflexivity]).
    pose proof (law_macc_obstacle _ L _ _ _ Hwa G1) as G2.
    destruct (Hc (i - fst (fst a)) (j - snd (fst a)) ltac:(lia) ltac:(lia)) as [C1 [C2|C2]].
    2:{ apply (law_good_not_nan _ L) in G2. congruence. }
    eapply (law_le_trans _ L).
    - apply (law_macc_mono_x _ L); [exact Hwa| |exact C2|].
      { destruct C1 as [C1|C1]; [exact C1|]. apply (law_le_nan _ L) in C2. destruct C2. congruence. }
      eapply (le_good L); [|exact G1]. apply (law_macc_mono _ L); [exact Hd|exact G1].
    - apply (law_macc_mono _ L); [exact Hd|exact G1]. }
  intros Hd Gd. apply G; auto.
Qed.

Lemma walk_raise ks vs ts q c' : walk rules cost' n m source' allowed ks vs ts q c' -> usable ks c' ->
  exists c, walk rules cost n m source allowed ks vs ts q c /\ leb c c' = true.
Proof.
  induction 1 as [i j c Hso Hi Hj | ks vs ts i0 j0 c k r Hwk IH Hk Hi Hj Ha]; intros U.
  - destruct (Hs i j c Hi Hj Hso (proj1 U)) as [c0 [E Hle]]. exists c0. split; [constructor; auto|exact Hle].
  - destruct (usable_prefix L cost' _ _ _ _ _ _ U) as [G U'].
    destruct (IH U') as [c0 [W0 Hle]]. eexists. split; [eapply walk_step; eauto|].
    apply charge_raise; auto.
    + apply (rule_no_In _ _ _ Hk).
    + apply U. destruct ks; discriminate.
Qed.
End Raise.

Lemma padded_cell (lm : mat N) i j : wf_mat lm -> i < nr lm + 1 -> j < nc lm ->
  cell (padded lm) i j = if i =? 0 then ofZ 0 else cell lm (i - 1) j.
Proof.
  intros Hwf Hi Hj. unfold cell, mget, padded. cbn [nr nc dat].
  destruct (Nat.ltb_spec i (nr lm + 1)); [|lia]. destruct (Nat.ltb_spec j (nc lm)); [|lia]. cbn [andb].
  destruct (Nat.eqb_spec i 0).
  - subst. rewrite nth_error_app1 by (rewrite repeat_length; lia).
    cbn [Nat.mul Nat.add]. rewrite (nth_error_nth' _ (ofZ 0)) by (rewrite repeat_length; lia).
    rewrite nth_repeat. reflexivity.
  - destruct (Nat.ltb_spec (i - 1) (nr lm)); [|lia].
    rewrite nth_error_app2 by (rewrite repeat_length; nia). rewrite repeat_length.
    replace (i * nc lm + j - nc lm) with ((i - 1) * nc lm + j) by nia. cbn [andb]. reflexivity.
Qed.

Lemma zero_le_zero : leb (@ofZ N 0) (ofZ 0) = true.
Proof. apply (law_le_refl _ L). apply (zero_not_nan L). Qed.

Lemma dominates_raised ob rules (lm lm' : mat N) w kw : wf_mat lm -> wf_mat lm' ->
  forallb valid_rule rules = true -> nonneg_weights rules -> nonneg_costs lm -> raised lm lm' ->
  dominates ob rules rules lm' lm w w kw kw.
Proof.
  intros Hwf Hwf' Hv Hnw Hnc [R1 [R2 R3]]. split; [exact R1|]. split; [exact R2|].
  intros j ks vs ts c W U. unfold end_cell in *. rewrite R1 in W.
  assert (G : exists c', admissible ob rules lm w kw ks vs ts (if ob then nr lm else nr lm - 1, j) c' /\ leb c' c = true).
  { unfold admissible in *. destruct ob.
    - unfold open_walk in *. rewrite R1, R2 in W.
      eapply walk_raise; [exact Hnw|exact Hv| | |exact W|exact U].
      + intros i k Hi Hk. rewrite !padded_cell by (rewrite ?R1, ?R2; assumption).
        destruct (Nat.eqb_spec i 0).
        * split; left; apply zero_le_zero.
        * split; [apply Hnc; lia|apply R3; lia].
      + intros i k c0 Hi Hk. unfold open_source. destruct (i =? 0); [|discriminate]. intros E _. injection E as <-.
        exists (ofZ 0). split; [reflexivity|apply zero_le_zero].
    - unfold closed_walk in *. rewrite R1, R2 in W.
      eapply walk_raise; [exact Hnw|exact Hv| | |exact W|exact U].
      + intros i k Hi Hk. split; [apply Hnc; assumption|apply R3; assumption].
      + intros i k c0 Hi Hk. unfold closed_source. destruct ((i =? 0) && (k =? 0)) eqn:E0; [|discriminate].
        intros E Hn. injection E as <-. exists (cell lm 0 0). split; [reflexivity|].
        destruct (R3 0 0) as [Q|Q]; [lia|lia|exact Q|congruence]. }
  destruct G as [c' [W' Hle]]. exists ks, vs, ts, c'. split; [exact W'|]. split; [|exact Hle].
  destruct (law_le_nan _ L _ _ Hle) as [Hn1 _]. split; [exact Hn1|].
  intros Hne. eapply (le_good L); [exact Hle|]. apply U. exact Hne.
Qed.

End Thm2.
