(** Grow.v - accumulated costs never decrease: rows of the cost matrix, early abandoning (proofs for C78). *)
From Coq Require Import Reals QArith Qcanon Lqa ZifyBool ZifyNat.
From Flocq Require Import Core BinarySingleNaN.
From Verif Require Import Base Num NumQ NumQLaws NumF NumFLaws Accuracy StepPattern Window Core Backtrack Dtw Spec Api Tables Vocab
  CoreProof DPProof DtwProof ApiProof ApiThms Uniq Thm1 Thm2 Thm3 Thm5 Thm7 Derived SeriesSpec ZeroSum WalkGeom Thm19 Thm24 Thm27 Thm9 Thm30 Terms Tie NarrowSpec Narrow.
Open Scope string_scope.
Open Scope list_scope.
Open Scope nat_scope.

(** ** One charge *)
Definition charges_grow (N : Num) : Prop := forall a w x : N, isfin w = true -> leb (ofZ 0) w = true -> leb (ofZ 0) x = true ->
  good (macc a w x) -> leb a (macc a w x) = true.

Lemma cg_generic (N : Num) (L : NumLaws N) (a w x : N) : leb (ofZ 0) w = true -> leb (ofZ 0) x = true ->
  good (macc a w x) -> isnan a = false /\ leb (macc a w (ofZ 0)) (macc a w x) = true.
Proof.
  intros Hw Hx G. split; [apply (law_good_not_nan N L), (law_macc_good N L _ _ _ G)|].
  apply (law_macc_mono_x N L); auto.
  apply (law_le_refl N L). apply (law_fin_not_nan N L), (law_fin_ofZ N L). lia.
Qed.
Lemma charges_grow_F : charges_grow NumF.
Proof.
  intros a w x Fw Hw Hx G. destruct (cg_generic NumF NumF_laws a w x Hw Hx G) as [Ga M].
  eapply (law_le_trans _ NumF_laws); [|exact M]. cbn [NumF V leb macc ofZ isfin] in *.
  assert (E : exists s, f_mul w (f_ofZ 0) = B754_zero s) by (destruct w as [b|b| |b m e H]; try discriminate; eexists; reflexivity).
  destruct E as [s ->]. apply gr_add_zero. exact Ga.
Qed.
Lemma charges_grow_FMA : charges_grow NumFMA.
Proof.
  intros a w x Fw Hw Hx G. destruct (cg_generic NumFMA NumFMA_laws a w x Hw Hx G) as [Ga M].
  eapply (law_le_trans _ NumFMA_laws); [|exact M]. apply gr_fma_zero; [exact Ga|exact Fw].
Qed.
Lemma charges_grow_Q : charges_grow NumQ.
Proof.
  intros a w x Fw Hw Hx G. destruct (cg_generic NumQ NumQ_laws a w x Hw Hx G) as [Ga M].
  eapply (law_le_trans _ NumQ_laws); [|exact M]. cbn [NumQ V leb macc ofZ isfin] in *.
  destruct w as [| | |w]; try discriminate. destruct a as [| | |a]; try discriminate; try reflexivity.
  cbn [xq_mul xq_add]. apply xq_leb_fin. unfold Qcle. rewrite this_add, this_mul, this_ofZ. unfold inject_Z. lra.
Qed.
Lemma modelled_charges N : modelled N -> charges_grow N.
Proof. intros [-> | [-> | ->]]; auto using charges_grow_Q, charges_grow_F, charges_grow_FMA. Qed.

Section Grow.
Context {N : Num}.
Variable L : NumLaws N.
Variable CG : charges_grow N.

(** Every weight is a finite number. *)
Lemma charge_grows (rules : list (rule N)) (cost : nat -> nat -> N) n m r i j c : nonneg_weights rules ->
  (forall r a, In r rules -> In a (r_add r) -> isfin (snd a) = true) ->
  (forall a b, a < n -> b < m -> leb (ofZ 0) (cost a b) = true \/ isnan (cost a b) = true) ->
  In r rules -> i < n -> j < m -> good (charge cost r i j c) -> leb c (charge cost r i j c) = true.
Proof.
  intros Hw Hf Hc Hr Hi Hj. unfold charge.
  assert (G : forall l, (forall a, In a l -> In a (r_add r)) -> forall c,
    good (fold_left (fun c a => macc c (snd a) (cost (i - fst (fst a)) (j - snd (fst a)))) l c) ->
    leb c (fold_left (fun c a => macc c (snd a) (cost (i - fst (fst a)) (j - snd (fst a)))) l c) = true).
  { induction l as [|a l IH]; intros Hl d Gd; cbn [fold_left] in *.
    { apply (law_le_refl _ L). apply (law_good_not_nan _ L). exact Gd. }
    pose proof (chg_good L cost i j l _ Gd) as G1.
    assert (Hwa : leb (ofZ 0) (snd a) = true) by (apply (Hw r); [exact Hr|apply Hl; left; reflexivity]).
    pose proof (law_macc_obstacle _ L _ _ _ Hwa G1) as G2.
    destruct (Hc (i - fst (fst a)) (j - snd (fst a)) ltac:(lia) ltac:(lia)) as [C1|C1].
    2:{ apply (law_good_not_nan _ L) in G2. congruence. }
    eapply (law_le_trans _ L); [|apply IH; [intros; apply Hl; right; assumption|exact Gd]].
    apply CG; auto. apply (Hf r); [exact Hr|apply Hl; left; reflexivity]. }
  intros Gd. apply G; auto.
Qed.

Section Mat.
Variables (rules : list (rule N)) (n m : nat) (cost seed : nat -> nat -> N) (win : nat -> nat -> bool).
Variables (cmf : nat -> nat -> N) (smf : nat -> nat -> Z).
Hypothesis Hrules : forallb valid_rule rules = true.
Hypothesis HB : bellman rules n m cost seed win cmf smf.
Hypothesis Hw : nonneg_weights rules.
Hypothesis Hf : forall r a, In r rules -> In a (r_add r) -> isfin (snd a) = true.
Hypothesis Hc : forall a b, a < n -> b < m -> leb (ofZ 0) (cost a b) = true \/ isnan (cost a b) = true.
Hypothesis Hs : forall i j, i < n -> j < m -> isnan (seed i j) = false -> i = 0.

Lemma rows_grow h : (forall r, In r rules -> r_di r <= h) -> forall t i' j', i' + j' < t -> i' < n -> j' < m -> isnan (cmf i' j') = false ->
  forall i, i < i' -> exists i0 j0, i0 <= i /\ i < i0 + h /\ j0 <= j' /\ isnan (cmf i0 j0) = false /\ leb (cmf i0 j0) (cmf i' j') = true.
Proof.
  intros Hh. induction t as [|t IH]; intros i' j' Ht Hi Hj Hn i Hlt; [lia|].
  destruct (cell_cases L rules n m cost seed win cmf smf Hrules HB i' j' Hi Hj Hn) as [[Hd _]|[k [r [Hk [Hdi [Hdj [Ha [Hd [G [Hn' E]]]]]]]]]].
  { unfold src in Hd. destruct (isnan (seed i' j')) eqn:En; [discriminate|]. apply Hs in En; auto. lia. }
  assert (Hr : In r rules) by (eapply rule_no_in; exact Hk).
  assert (Le : leb (cmf (i' - r_di r) (j' - r_dj r)) (cmf i' j') = true).
  { rewrite E. eapply charge_grows; eauto. rewrite <- E. exact G. }
  assert (Hpos : 0 < r_di r + r_dj r).
  { rewrite forallb_forall in Hrules. specialize (Hrules r Hr). unfold valid_rule in Hrules. lia. }
  destruct (Nat.le_gt_cases (i' - r_di r) i) as [Hle|Hgt].
  - exists (i' - r_di r), (j' - r_dj r). specialize (Hh r Hr). repeat split; auto; lia.
  - destruct (IH (i' - r_di r) (j' - r_dj r) ltac:(lia) ltac:(lia) ltac:(lia) Hn' i Hgt) as [i0 [j0 [A [B [C [D F]]]]]].
    exists i0, j0. repeat split; auto; [lia|]. eapply (law_le_trans _ L); eassumption.
Qed.

Lemma trace_grows i j ks vs ts : traced rules smf i j ks vs ts -> i < n -> j < m -> isnan (cmf i j) = false ->
  forall t a b a' b', nth_error (vs ++ [(i, j)]) t = Some (a, b) -> nth_error (vs ++ [(i, j)]) (S t) = Some (a', b') ->
    leb (cmf a b) (cmf a' b') = true.
Proof.
  induction 1 as [i j H|i j k r ks vs ts H Hr Hi Hj T IH]; intros Hin Hjm Hn t a b a' b' E1 E2.
  - exfalso. cbn in E2. destruct t; discriminate E2.
  - destruct (cell_cases L rules n m cost seed win cmf smf Hrules HB i j Hin Hjm Hn) as [[Hd Hx]|[k' [r' [Hk [Hdi [Hdj [Ha [Hd [G [Hn' E]]]]]]]]]].
    { unfold INT_MIN in *. lia. }
    assert (k' = k) by lia. subst k'. assert (r' = r) by congruence. subst r'.
    unfold point in *. rewrite <- app_assoc in E1, E2. cbn [app] in E1, E2.
    destruct (Nat.lt_trichotomy (S t) (S (List.length vs))) as [Hlt|[Heq|Hgt]].
    + eapply (IH ltac:(lia) ltac:(lia) Hn' t); clear IH.
      * rewrite nth_error_app1 in * by lia. exact E1.
      * destruct (Nat.eq_dec (S t) (List.length vs)) as [Eq|Ne].
        -- rewrite nth_error_app2 in * by lia. rewrite Eq, Nat.sub_diag in *. cbn in *. exact E2.
        -- rewrite nth_error_app1 in * by lia. exact E2.
    + assert (t = List.length vs) by lia. subst t. rewrite nth_error_app2 in E1, E2 by lia. rewrite Nat.sub_diag in E1.
      replace (S (List.length vs) - List.length vs) with 1 in E2 by lia. cbn in E1, E2.
      injection E1 as <- <-. injection E2 as <- <-. rewrite E. eapply charge_grows; eauto; [eapply rule_no_in; exact Hr|]. rewrite <- E. exact G.
    + exfalso. assert (Hx : nth_error (vs ++ [(i - r_di r, j - r_dj r); (i, j)]) (S t) = None) by (apply nth_error_None; rewrite app_length; cbn; lia).
      congruence.
Qed.

Lemma trace_grows_all i j ks vs ts : traced rules smf i j ks vs ts -> i < n -> j < m -> isnan (cmf i j) = false ->
  forall t' t a b a' b', t < t' -> nth_error (vs ++ [(i, j)]) t = Some (a, b) -> nth_error (vs ++ [(i, j)]) t' = Some (a', b') ->
    leb (cmf a b) (cmf a' b') = true.
Proof.
  intros T Hi Hj Hn. induction t' as [|t' IH]; intros t a b a' b' Hlt E1 E2; [lia|].
  destruct (Nat.eq_dec t t') as [->|Hne]; [eapply trace_grows; eauto|].
  destruct (nth_error (vs ++ [(i, j)]) t') as [[a1 b1]|] eqn:E3.
  - eapply (law_le_trans _ L); [eapply (IH t); [lia|exact E1|exact eq_refl]|eapply trace_grows; eauto].
  - exfalso. unfold point in *. apply nth_error_None in E3. assert (S t' < List.length (vs ++ [(i, j)])) by (apply nth_error_Some; congruence). lia.
Qed.
End Mat.

(** ** The matrix that is returned *)
Lemma kept_matrix cdist x y o (lm : mat N) d rules : costs_of cdist x y lm -> dtw cdist x y o = Ok d -> pattern_rules (r_stepPattern d) rules -> 0 < nr lm ->
  exists cmf smf win, bellman rules (nr (p_lm o lm)) (nc lm) (cell (p_lm o lm)) (p_seed o lm) win cmf smf /\
    r_distance d = cmf (nr (p_lm o lm) - 1) (r_jmin d) /\ isnan (r_distance d) = false /\ r_jmin d < nc lm /\
    (o_keep_internals o = false -> r_costMatrix d = None) /\
    (o_keep_internals o = true -> exists g, r_costMatrix d = Some g /\ nr g = nr lm /\ nc g = nc lm /\
       forall i j, i < nr lm -> j < nc lm -> mget g i j = Some (cmf (if o_open_begin o then S i else i) j)) /\
    (forall mp, r_map d = Some mp -> exists ks vs ts, traced rules smf (nr (p_lm o lm) - 1) (r_jmin d) ks vs ts /\
       mp = map_of (o_open_begin o) (path_of ks vs ts (nr (p_lm o lm) - 1, r_jmin d))).
Proof.
  intros HC Hd Hp Hq. pose proof (ok_well_posed L _ _ _ _ _ _ _ HC Hd Hp Hq) as WP.
  destruct (wp_finish_any L _ _ _ _ _ _ _ _ WP) as [cm [dm [cmf [smf [win [E [Rc [Rs [Hwi HB]]]]]]]]].
  destruct (dtw_fields L _ _ _ _ _ _ _ HC Hd Hp) as [_ [_ [_ [_ [_ [_ [_ [Fj _]]]]]]]].
  pose proof WP as WP0. destruct WP0 as [w1 w2 w3 w4 w5 w6 w7 w8 w9 w10].
  set (R := nr (p_lm o lm)) in *. assert (HR : R = if o_open_begin o then nr lm + 1 else nr lm) by (unfold R; rewrite p_lm_nr; reflexivity).
  assert (HR0 : 0 < R) by (rewrite HR; destruct (o_open_begin o); lia).
  set (sp := r_stepPattern d) in *.
  rewrite Hd in E. unfold finish_any in E. destruct (choose _ _ _ _ _) as [jmin| | | |]; try discriminate. cbn [bind] in E.
  destruct (isnan (cmf (R - 1) jmin)) eqn:En; [discriminate|].
  assert (Q : exists mpo, (mpo <> None -> exists ks vs ts, traced rules smf (R - 1) jmin ks vs ts /\ mpo = Some (map_of (o_open_begin o) (path_of ks vs ts (R - 1, jmin)))) /\
     d = result o lm (qr_of x y) sp (r_windowFunction d) jmin (cmf (R - 1) jmin) mpo (Mat R (nc lm) cm) (Mat R (nc lm) dm)).
  { assert (Ej0 : jmin < nc lm).
    { assert (Ej : r_jmin d = jmin); [|rewrite <- Ej; exact Fj]. destruct (o_distance_only o); cbn [bind] in E.
      - destruct (o_open_begin o && true); [discriminate|]. injection E as E. rewrite E. reflexivity.
      - destruct (backtrack _ _ _); cbn [bind] in E; try discriminate. rewrite Bool.andb_false_r in E. injection E as E. rewrite E. reflexivity. }
    destruct (o_distance_only o); cbn [bind] in E.
    - destruct (o_open_begin o); cbn [andb option_map] in E; [discriminate|]. injection E as E. exists None. split; [congruence|exact E].
    - destruct (traced_exists L rules R (nc lm) _ _ _ _ _ (R - 1) jmin ltac:(apply w4) HB ltac:(lia) Ej0 En) as [ks [vs [ts [T _]]]].
      rewrite (backtrack_path L rules sp R (nc lm) smf (Mat R (nc lm) dm) jmin ks vs ts w4 eq_refl eq_refl Rs T HR0 Ej0) in E.
      cbn [bind] in E. rewrite Bool.andb_false_r in E. injection E as E. eexists. split; [|exact E]. intros _. exists ks, vs, ts. split; [exact T|].
      unfold map_of. destruct (o_open_begin o); reflexivity. }
  destruct Q as [mpo [Hmpo Ed]]. clear E.
  assert (Ej : r_jmin d = jmin) by (rewrite Ed; reflexivity). rewrite Ej in *.
  exists cmf, smf, win. split; [exact HB|]. split; [rewrite Ed; reflexivity|]. split; [rewrite Ed; exact En|]. split; [exact Fj|].
  split; [intros Hk; rewrite Ed; unfold result; cbn [r_costMatrix]; rewrite Hk; reflexivity|]. split.
  - intros Hk. exists (if o_open_begin o then drop_first_row (Mat R (nc lm) cm) else Mat R (nc lm) cm).
    split; [rewrite Ed; unfold result; cbn [r_costMatrix]; rewrite Hk; reflexivity|].
    destruct (o_open_begin o); cbn [nr nc drop_first_row]; (split; [lia|]); (split; [reflexivity|]); intros i j Hi Hj.
    + rewrite mget_drop by (cbn [nr]; lia). apply mget_reps; [exact Rc|cbn [nr]; lia|cbn [nc]; lia].
    + apply mget_reps; [exact Rc|cbn [nr]; lia|cbn [nc]; lia].
  - intros mp Hmp. assert (Em : mpo = Some mp) by (rewrite Ed in Hmp; exact Hmp). destruct (Hmpo ltac:(congruence)) as [ks [vs [ts [T Em']]]].
    exists ks, vs, ts. split; [exact T|congruence].
Qed.

Lemma padded_nonneg o (lm : mat N) : wf_mat lm -> nonneg_costs lm -> forall a b, a < nr (p_lm o lm) -> b < nc lm ->
  leb (ofZ 0) (cell (p_lm o lm) a b) = true \/ isnan (cell (p_lm o lm) a b) = true.
Proof.
  intros Wf Hc a b Ha Hb. unfold p_lm in *. destruct (o_open_begin o); [|apply Hc; auto].
  cbn [nr padded] in Ha. rewrite padded_cell by auto. destruct (Nat.eqb_spec a 0); [left; apply (zero_le_zero L)|]. apply Hc; lia.
Qed.
Lemma seed_row o (lm : mat N) i j : isnan (p_seed o lm i j) = false -> i = 0.
Proof.
  unfold p_seed, pseed, seed0. destruct (o_open_begin o).
  - destruct (Nat.eqb_spec i 0); [auto|]. rewrite (law_nan _ L). discriminate.
  - destruct (Nat.eqb_spec i 0); [auto|]. cbn [andb]. rewrite (law_nan _ L). discriminate.
Qed.

(** Whatever costs something at row i' has cost no more at one of the rows i-h+1..i before. *)
Theorem earlier_rows cdist x y o (lm : mat N) d rules h : costs_of cdist x y lm -> dtw cdist x y o = Ok d ->
  pattern_rules (r_stepPattern d) rules -> 0 < nr lm -> o_keep_internals o = true ->
  nonneg_costs lm -> nonneg_weights rules -> (forall r a, In r rules -> In a (r_add r) -> isfin (snd a) = true) ->
  (forall r, In r rules -> r_di r <= h) ->
  exists g, r_costMatrix d = Some g /\ nr g = nr lm /\ nc g = nc lm /\
    forall i i' j' v', h <= i + 1 -> i < i' -> mget g i' j' = Some v' -> isnan v' = false ->
    exists i0 j0 v, i0 <= i < i0 + h /\ j0 <= j' /\ mget g i0 j0 = Some v /\ isnan v = false /\ leb v v' = true.
Proof.
  intros HC Hd Hp Hq Hk Hnc Hnw Hfw Hh. destruct (kept_matrix _ _ _ _ _ _ _ HC Hd Hp Hq) as [cmf [smf [win [HB [_ [_ [_ [_ [K _]]]]]]]]].
  destruct (K Hk) as [g [Eg [S1 [S2 HG]]]]. exists g. split; [exact Eg|]. split; [exact S1|]. split; [exact S2|].
  intros i i' j' v' Hhi Hlt Hv Hn. destruct (mget_some_bound _ _ _ _ Hv) as [B1 B2]. rewrite S1 in B1. rewrite S2 in B2.
  rewrite HG in Hv by assumption. injection Hv as <-.
  pose proof (padded_nonneg o lm (costs_of_wf _ _ _ _ HC) Hnc) as Hc'.
  assert (HR : nr (p_lm o lm) = if o_open_begin o then nr lm + 1 else nr lm) by apply p_lm_nr.
  set (f := fun i => if o_open_begin o then S i else i) in *.
  destruct (rows_grow rules (nr (p_lm o lm)) (nc lm) _ _ _ _ _ ltac:(apply Hp) HB Hnw Hfw Hc' (fun a b _ _ => seed_row o lm a b) h Hh
    (f i' + j' + 1) (f i') j' ltac:(lia) ltac:(rewrite HR; unfold f; destruct (o_open_begin o); lia) B2 Hn (f i) ltac:(unfold f; destruct (o_open_begin o); lia))
    as [i0 [j0 [A [B [C [D F]]]]]].
  exists (if o_open_begin o then i0 - 1 else i0), j0, (cmf i0 j0). unfold f in *.
  split; [destruct (o_open_begin o); lia|]. split; [exact C|]. split; [|auto].
  rewrite HG by (destruct (o_open_begin o); lia). f_equal. f_equal. destruct (o_open_begin o); lia.
Qed.

(** Early abandoning: if every entry of h successive rows of the cost matrix, where no step of the pattern spans
    more than h query samples, is above a bound then so is the distance. *)
Theorem abandon cdist x y o (lm : mat N) d rules g h : costs_of cdist x y lm -> dtw cdist x y o = Ok d ->
  pattern_rules (r_stepPattern d) rules -> 0 < nr lm -> r_costMatrix d = Some g ->
  nonneg_costs lm -> nonneg_weights rules -> (forall r a, In r rules -> In a (r_add r) -> isfin (snd a) = true) ->
  (forall r, In r rules -> r_di r <= h) -> 0 < h ->
  forall i bound, i < nr lm -> h <= i + 1 ->
    (forall i0 j v, i0 <= i < i0 + h -> mget g i0 j = Some v -> isnan v = false -> ltb bound v = true) ->
    ltb bound (r_distance d) = true.
Proof.
  intros HC Hd Hp Hq Eg Hnc Hnw Hfw Hh H0 i bound Hi Hih Hb.
  destruct (kept_matrix _ _ _ _ _ _ _ HC Hd Hp Hq) as [cmf [smf [win [_ [Ed [Hn [Fj [K0 [K _]]]]]]]]].
  assert (Hk : o_keep_internals o = true).
  { destruct (o_keep_internals o) eqn:Ek; [reflexivity|]. exfalso. specialize (K0 eq_refl). congruence. }
  destruct (K Hk) as [g2 [Eg2 [S1 [S2 HG]]]]. assert (g2 = g) by congruence. subst g2.
  assert (Hlast : mget g (nr lm - 1) (r_jmin d) = Some (r_distance d)).
  { rewrite HG by lia. rewrite Ed. f_equal. f_equal. rewrite p_lm_nr. destruct (o_open_begin o); lia. }
  destruct (Nat.eq_dec i (nr lm - 1)) as [->|Hne]; [eapply Hb; eauto; lia|].
  destruct (earlier_rows _ _ _ _ _ _ _ h HC Hd Hp Hq Hk Hnc Hnw Hfw Hh) as [g3 [Eg3 [_ [_ HE]]]]. assert (g3 = g) by congruence. subst g3.
  destruct (HE i (nr lm - 1) (r_jmin d) (r_distance d) ltac:(lia) ltac:(lia) Hlast Hn) as [i0 [j0 [v [H1 [_ [H2 [H3 H4]]]]]]].
  eapply (law_lt_le_trans _ L); [eapply Hb; eauto|exact H4].
Qed.

(** Along the alignment the accumulated cost never decreases, and it stays at most the distance. *)
Theorem costs_along cdist x y o (lm : mat N) d rules g mp : costs_of cdist x y lm -> dtw cdist x y o = Ok d ->
  pattern_rules (r_stepPattern d) rules -> 0 < nr lm -> r_costMatrix d = Some g -> r_map d = Some mp ->
  nonneg_costs lm -> nonneg_weights rules -> (forall r a, In r rules -> In a (r_add r) -> isfin (snd a) = true) ->
  forall t t' i j i' j', t < t' -> nth_error (index1s mp) t = Some i -> nth_error (index2s mp) t = Some j ->
    nth_error (index1s mp) t' = Some i' -> nth_error (index2s mp) t' = Some j' ->
  exists v v', mget g (Z.to_nat i) (Z.to_nat j) = Some v /\ mget g (Z.to_nat i') (Z.to_nat j') = Some v' /\
    leb v v' = true /\ leb v' (r_distance d) = true.
Proof.
  intros HC Hd Hp Hq Eg Emp Hnc Hnw Hfw t t' i j i' j' Hlt N1 N2 N3 N4.
  destruct (kept_matrix _ _ _ _ _ _ _ HC Hd Hp Hq) as [cmf [smf [win [HB [Ed [Hn [Fj [K0 [K KM]]]]]]]]].
  assert (Hk : o_keep_internals o = true).
  { destruct (o_keep_internals o) eqn:Ek; [reflexivity|]. exfalso. specialize (K0 eq_refl). congruence. }
  destruct (K Hk) as [g2 [Eg2 [S1 [S2 HG]]]]. assert (g2 = g) by congruence. subst g2.
  destruct (KM mp Emp) as [ks [vs [ts [T Em]]]].
  pose proof (padded_nonneg o lm (costs_of_wf _ _ _ _ HC) Hnc) as Hc'.
  assert (HR : nr (p_lm o lm) = if o_open_begin o then nr lm + 1 else nr lm) by apply p_lm_nr.
  set (R := nr (p_lm o lm)) in *. assert (HR0 : R - 1 < R) by (destruct (o_open_begin o); lia).
  rewrite Ed in Hn.
  assert (Hv : forallb valid_rule rules = true) by apply Hp.
  pose proof (traced_walk L rules R (nc lm) _ _ _ _ _ Hv HB _ _ _ _ _ T HR0 Fj Hn) as Wt.
  destruct (walk_first _ _ _ _ _ _ _ _ _ _ _ Wt) as [p [c0 [v0 [t0 [E1 [_ [Esrc _]]]]]]].
  pose proof (walk_admitted _ _ _ _ _ _ _ _ _ _ _ Wt) as Had. rewrite E1 in Had. cbn [tl] in Had.
  pose proof (trace_grows_all rules R (nc lm) _ _ _ _ _ Hv HB Hnw Hfw Hc' (fun a b _ _ => seed_row o lm a b) _ _ _ _ _ T HR0 Fj Hn) as TG.
  set (P := vs ++ [(R - 1, r_jmin d)]) in *.
  assert (PT : forall t i j, nth_error (index1s mp) t = Some i -> nth_error (index2s mp) t = Some j ->
    exists a b, nth_error P (if o_open_begin o then S t else t) = Some (a, b) /\ mget g (Z.to_nat i) (Z.to_nat j) = Some (cmf a b)).
  { intros t1 i1 j1 M1 M2. rewrite Em in M1, M2. unfold map_of, path_of, mapping_of, point in *. fold P in M1, M2.
    destruct (o_open_begin o) eqn:Eo; cbn [index1s index2s shift_mapping] in M1, M2.
    - rewrite E1 in *. cbn [map tl nth_error] in M1, M2 |- *. rewrite map_map in M1. rewrite nth_error_map in M1, M2.
      destruct (nth_error v0 t1) as [[a b]|] eqn:Ev; [|discriminate]. cbn [option_map] in M1, M2. injection M1 as <-. injection M2 as <-.
      exists a, b. split; [reflexivity|]. destruct (Had a b (nth_error_In _ _ Ev)) as [Ha [Hb [As _]]].
      destruct a as [|a].
      { exfalso. unfold p_seed in As. rewrite Eo in As. unfold pseed in As. cbn [Nat.eqb] in As. rewrite (zero_not_nan L) in As. discriminate. }
      unfold query_ix, ref_ix. cbn [fst snd]. rewrite Nat2Z.id. replace (Z.to_nat (Z.pred (Z.of_nat (S a)))) with a by lia. apply HG; lia.
    - rewrite nth_error_map in M1, M2. destruct (nth_error P t1) as [[a b]|] eqn:Ev; [|discriminate]. cbn [option_map] in M1, M2. injection M1 as <-. injection M2 as <-.
      exists a, b. split; [reflexivity|]. unfold query_ix, ref_ix. cbn [fst snd]. rewrite !Nat2Z.id.
      assert (B : a < R /\ b < nc lm).
      { pose proof (nth_error_In _ _ Ev) as Hin. assert (Q : forall p, In p P -> le_pt p (R - 1, r_jmin d)) by (apply (walk_sorted _ _ _ _ _ _ Hv _ _ _ _ _ Wt)). specialize (Q _ Hin). unfold le_pt in Q. cbn [fst snd] in Q. lia. }
      apply HG; lia. }
  destruct (PT t i j N1 N2) as [a [b [Ha Ga]]]. destruct (PT t' i' j' N3 N4) as [a' [b' [Ha' Ga']]].
  exists (cmf a b), (cmf a' b'). split; [exact Ga|]. split; [exact Ga'|].
  assert (HP : nth_error P (List.length vs) = Some (R - 1, r_jmin d)) by (unfold P; rewrite nth_error_app2 by lia; rewrite Nat.sub_diag; reflexivity).
  assert (LP : List.length P = S (List.length vs)) by (unfold P; rewrite app_length; cbn; lia).
  split; [eapply TG; [|exact Ha|exact Ha']; destruct (o_open_begin o); lia|].
  rewrite Ed. set (u := if o_open_begin o then S t' else t') in *.
  assert (Hu : u < List.length P) by (apply nth_error_Some; unfold point in *; congruence).
  destruct (Nat.eq_dec u (List.length vs)) as [Eu|Nu].
  - rewrite Eu in Ha'. unfold point in *. rewrite HP in Ha'. injection Ha' as <- <-. apply (law_le_refl _ L). exact Hn.
  - eapply TG; [|exact Ha'|exact HP]. lia.
Qed.

(** ** The predefined step patterns *)
Lemma predefined_finite k l : lookup k predefined = Some l -> forall r a, In r (@productions N l) -> In a (r_add r) -> isfin (snd a) = true.
Proof.
  intros H r a Hr Ha. destruct (predefined_good _ _ H) as [_ [V _]]. rewrite forallb_forall in V.
  apply in_map_iff in Hr. destruct Hr as [w [<- Hw0]]. cbn [production r_add] in Ha. apply in_map_iff in Ha. destruct Ha as [b [<- Hb]]. cbn [snd].
  specialize (V _ Hw0). unfold wvalid in V. apply andb_prop in V. destruct V as [V _]. apply andb_prop in V. destruct V as [V _].
  apply andb_prop in V. destruct V as [_ V]. rewrite forallb_forall in V. specialize (V _ Hb). apply (weight_fin L). exact V.
Qed.
Lemma predefined_span k l : lookup k predefined = Some l -> In k one_row_names -> forall r, In r (@productions N l) -> r_di r <= 1.
Proof.
  intros H Hk r Hr.
  assert (G : forallb (fun kl => negb (if in_dec string_dec (fst kl) one_row_names then true else false) || forallb (fun w => w_di w <=? 1) (snd kl)) predefined = true) by reflexivity.
  rewrite forallb_forall in G. specialize (G _ (lookup_In _ _ _ H)). cbn [fst snd] in G.
  destruct (in_dec string_dec k one_row_names); [|contradiction]. cbn [negb orb] in G. rewrite forallb_forall in G.
  apply in_map_iff in Hr. destruct Hr as [w [<- Hw0]]. cbn [production r_di]. specialize (G _ Hw0). lia.
Qed.
Theorem abandon_named cdist x y o (lm : mat N) d k g : costs_of cdist x y lm -> dtw cdist x y o = Ok d ->
  lookup k pattern_table = Some (r_stepPattern d) -> In k one_row_names -> 0 < nr lm -> r_costMatrix d = Some g -> nonneg_costs lm ->
  forall i bound, i < nr lm -> (forall j v, mget g i j = Some v -> isnan v = false -> ltb bound v = true) ->
    ltb bound (r_distance d) = true.
Proof.
  intros HC Hd Hk Hin Hq Eg Hnc i bound Hi Hb. destruct (predefined_rules L _ _ Hk) as [l [El Hl]].
  eapply (abandon _ _ _ _ _ _ _ _ 1 HC Hd Hl Hq Eg Hnc); eauto.
  - eapply predefined_nonneg; [exact L|exact El|]. intros Hx. cbn in Hin. unfold negative_names in Hx. cbn in Hx. intuition congruence.
  - eapply predefined_finite; eauto.
  - eapply predefined_span; eauto.
  - lia.
  - intros i0 j v H0. assert (i0 = i) by lia. subst i0. apply Hb.
Qed.
Theorem costs_along_named cdist x y o (lm : mat N) d k g mp : costs_of cdist x y lm -> dtw cdist x y o = Ok d ->
  lookup k pattern_table = Some (r_stepPattern d) -> ~ In k negative_names -> 0 < nr lm -> r_costMatrix d = Some g -> r_map d = Some mp ->
  nonneg_costs lm ->
  forall t t' i j i' j', t < t' -> nth_error (index1s mp) t = Some i -> nth_error (index2s mp) t = Some j ->
    nth_error (index1s mp) t' = Some i' -> nth_error (index2s mp) t' = Some j' ->
  exists v v', mget g (Z.to_nat i) (Z.to_nat j) = Some v /\ mget g (Z.to_nat i') (Z.to_nat j') = Some v' /\
    leb v v' = true /\ leb v' (r_distance d) = true.
Proof.
  intros HC Hd Hk Hin Hq Eg Em Hnc. destruct (predefined_rules L _ _ Hk) as [l [El Hl]].
  eapply (costs_along _ _ _ _ _ _ _ _ _ HC Hd Hl Hq Eg Em Hnc); eauto.
  - eapply predefined_nonneg; eauto.
  - eapply predefined_finite; eauto.
Qed.
End Grow.

(** ** Any of the modelled arithmetics *)
Section Modelled.
Context {N : Num}.
Variable M : modelled N.
Theorem earlier_rows_m cdist x y o (lm : mat N) d rules h : costs_of cdist x y lm -> dtw cdist x y o = Ok d ->
  pattern_rules (r_stepPattern d) rules -> 0 < nr lm -> o_keep_internals o = true ->
  nonneg_costs lm -> nonneg_weights rules -> (forall r a, In r rules -> In a (r_add r) -> isfin (snd a) = true) ->
  (forall r, In r rules -> r_di r <= h) ->
  exists g, r_costMatrix d = Some g /\ nr g = nr lm /\ nc g = nc lm /\
    forall i i' j' v', h <= i + 1 -> i < i' -> mget g i' j' = Some v' -> isnan v' = false ->
    exists i0 j0 v, i0 <= i < i0 + h /\ j0 <= j' /\ mget g i0 j0 = Some v /\ isnan v = false /\ leb v v' = true.
Proof.
  apply (earlier_rows (proj1 (modelled_laws _ M)) (modelled_charges _ M)). Qed.
Theorem abandon_m cdist x y o (lm : mat N) d rules g h : costs_of cdist x y lm -> dtw cdist x y o = Ok d ->
  pattern_rules (r_stepPattern d) rules -> 0 < nr lm -> r_costMatrix d = Some g ->
  nonneg_costs lm -> nonneg_weights rules -> (forall r a, In r rules -> In a (r_add r) -> isfin (snd a) = true) ->
  (forall r, In r rules -> r_di r <= h) -> 0 < h ->
  forall i bound, i < nr lm -> h <= i + 1 ->
    (forall i0 j v, i0 <= i < i0 + h -> mget g i0 j = Some v -> isnan v = false -> ltb bound v = true) ->
    ltb bound (r_distance d) = true.
Proof.
  apply (abandon (proj1 (modelled_laws _ M)) (modelled_charges _ M)). Qed.
Theorem abandon_named_m cdist x y o (lm : mat N) d k g : costs_of cdist x y lm -> dtw cdist x y o = Ok d ->
  lookup k pattern_table = Some (r_stepPattern d) -> In k one_row_names -> 0 < nr lm -> r_costMatrix d = Some g -> nonneg_costs lm ->
  forall i bound, i < nr lm -> (forall j v, mget g i j = Some v -> isnan v = false -> ltb bound v = true) ->
    ltb bound (r_distance d) = true.
Proof.
  apply (abandon_named (proj1 (modelled_laws _ M)) (modelled_charges _ M)). Qed.
Theorem costs_along_m cdist x y o (lm : mat N) d rules g mp : costs_of cdist x y lm -> dtw cdist x y o = Ok d ->
  pattern_rules (r_stepPattern d) rules -> 0 < nr lm -> r_costMatrix d = Some g -> r_map d = Some mp ->
  nonneg_costs lm -> nonneg_weights rules -> (forall r a, In r rules -> In a (r_add r) -> isfin (snd a) = true) ->
  forall t t' i j i' j', t < t' -> nth_error (index1s mp) t = Some i -> nth_error (index2s mp) t = Some j ->
    nth_error (index1s mp) t' = Some i' -> nth_error (index2s mp) t' = Some j' ->
  exists v v', mget g (Z.to_nat i) (Z.to_nat j) = Some v /\ mget g (Z.to_nat i') (Z.to_nat j') = Some v' /\
    leb v v' = true /\ leb v' (r_distance d) = true.
Proof.
  apply (costs_along (proj1 (modelled_laws _ M)) (modelled_charges _ M)). Qed.
Theorem costs_along_named_m cdist x y o (lm : mat N) d k g mp : costs_of cdist x y lm -> dtw cdist x y o = Ok d ->
  lookup k pattern_table = Some (r_stepPattern d) -> ~ In k negative_names -> 0 < nr lm -> r_costMatrix d = Some g -> r_map d = Some mp ->
  nonneg_costs lm ->
  forall t t' i j i' j', t < t' -> nth_error (index1s mp) t = Some i -> nth_error (index2s mp) t = Some j ->
    nth_error (index1s mp) t' = Some i' -> nth_error (index2s mp) t' = Some j' ->
  exists v v', mget g (Z.to_nat i) (Z.to_nat j) = Some v /\ mget g (Z.to_nat i') (Z.to_nat j') = Some v' /\
    leb v v' = true /\ leb v' (r_distance d) = true.
Proof.
  apply (costs_along_named (proj1 (modelled_laws _ M)) (modelled_charges _ M)). Qed.
End Modelled.
