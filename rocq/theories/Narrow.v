(** Narrow.v - what lies off the returned alignment does not matter (proofs for C77). *)
From Coq Require Import ZifyBool ZifyNat.
From Verif Require Import Base Num StepPattern Window Core Backtrack Dtw Spec Api Tables Vocab
  CoreProof DPProof DtwProof ApiProof ApiThms Uniq Thm1 Thm2 Thm3 Thm5 Thm7 Derived SeriesSpec WalkGeom Thm8 Thm27 Terms TieSpec Tie NarrowSpec.
Open Scope string_scope.
Open Scope list_scope.
Open Scope nat_scope.

Section Narrow.
Context {N : Num}.
Variable L : NumLaws N.

Section Core.
Variables (rules : list (rule N)) (n m : nat) (cost cost' seed seed' : nat -> nat -> N) (win win' : nat -> nat -> bool).
Variables (cmf cmf' : nat -> nat -> N) (smf smf' : nat -> nat -> Z).
Hypothesis Hrules : forallb valid_rule rules = true.
Hypothesis HB : bellman rules n m cost seed win cmf smf.
Hypothesis HB' : bellman rules n m cost' seed' win' cmf' smf'.
Hypothesis Hseed : forall i j, i < n -> j < m -> seed' i j = seed i j.
Hypothesis Hwin : forall i j, i < n -> j < m -> win' i j = true -> win i j = true.
Hypothesis Hcmp : forall r i j c c', In r rules -> i < n -> j < m -> leb c c' = true ->
  good (charge cost' r i j c') -> leb (charge cost r i j c) (charge cost' r i j c') = true.

Lemma walk_lower ks vs ts q c' : walk rules cost' n m (src seed') (alw seed' win') ks vs ts q c' -> usable ks c' ->
  exists c, walk rules cost n m (src seed) (alw seed win) ks vs ts q c /\ leb c c' = true.
Proof.
  induction 1 as [i j c Hso Hi Hj|ks vs ts i0 j0 c k r Hwk IH Hk Hi Hj Ha]; intros U.
  - exists c. split; [constructor; auto|apply (law_le_refl _ L); apply U].
    unfold src in *. rewrite <- Hseed by assumption. exact Hso.
  - destruct (usable_prefix L cost' _ _ _ _ _ _ U) as [G U'].
    destruct (IH U') as [c0 [W0 Hle]]. eexists. split; [eapply walk_step; eauto|].
    + destruct Ha as [A1 A2]. split; [rewrite <- Hseed by assumption; exact A1|apply Hwin; assumption].
    + apply Hcmp; auto; [eapply rule_no_in; eassumption|]. apply (proj2 U). destruct ks; discriminate.
Qed.

(** The cheaper problem has the smaller cost matrix. *)
Lemma matrix_lower i j : i < n -> j < m -> isnan (cmf' i j) = false -> isnan (cmf i j) = false /\ leb (cmf i j) (cmf' i j) = true.
Proof.
  intros Hi Hj Hn. destruct (attained L rules n m _ _ _ _ _ Hrules HB' i j Hi Hj Hn) as [ks [vs [ts [W U]]]].
  destruct (walk_lower _ _ _ _ _ W U) as [c [W0 Hle]].
  assert (U0 : usable ks c).
  { destruct (law_le_nan _ L _ _ Hle) as [Hc _]. split; [exact Hc|]. intros Hk. eapply (le_good L); [exact Hle|]. apply U. exact Hk. }
  destruct (lower_bound L rules n m _ _ _ _ _ Hrules HB _ _ _ _ _ W0 U0) as [A [B _]]. cbn [fst snd] in *.
  split; [exact A|]. eapply (law_le_trans _ L); eauto.
Qed.

(** On a trace of the cheaper problem that the other problem admits at the same cost nothing changes. *)
Lemma trace_stays i j ks vs ts : traced rules smf i j ks vs ts -> i < n -> j < m -> isnan (cmf i j) = false ->
  (forall a b, In (a, b) (tl (vs ++ [(i, j)])) -> win' a b = true) ->
  (forall a b, In (a, b) (ts ++ [(i, j)]) -> cost' a b = cost a b) ->
  traced rules smf' i j ks vs ts /\ cmf' i j = cmf i j.
Proof.
  induction 1 as [i j H|i j k r ks vs ts H Hr Hi Hj T IH]; intros Hin Hjm Hn HW HC;
  destruct (cell_cases L rules n m cost seed win cmf smf Hrules HB i j Hin Hjm Hn) as [[Hs Hd]|[k' [r' [Hk [Hdi [Hdj [Ha [Hd [G [Hn' E]]]]]]]]]];
    try (unfold INT_MIN in *; lia).
  - pose proof (HB' i j Hin Hjm) as C. unfold cell_eq in C. rewrite Hseed in C by assumption.
    unfold src in Hs. destruct (isnan (seed i j)) eqn:En; [discriminate|]. injection Hs as Hs. cbn [negb] in C. destruct C as [C1 C2].
    split; [constructor; exact C2|congruence].
  - assert (k' = k) by lia. subst k'. assert (r' = r) by congruence. subst r'. clear Hd Hk Hdi Hdj.
    destruct (IH ltac:(lia) ltac:(lia) Hn') as [T' E'].
    { intros a b Hab. apply HW. unfold point in *. destruct (vs ++ [(i - r_di r, j - r_dj r)]) as [|p0 l] eqn:El; [destruct vs; discriminate|].
      cbn [tl app] in *. apply in_app_iff. left. exact Hab. }
    { intros a b Hab. apply HC. rewrite !in_app_iff in *. tauto. }
    assert (Hwij : win' i j = true).
    { apply HW. unfold point in *. destruct (vs ++ [(i - r_di r, j - r_dj r)]) as [|p0 l] eqn:El; [destruct vs; discriminate|].
      cbn [tl app] in *. apply in_app_iff. right. left. reflexivity. }
    assert (Ech : charge cost' r i j (cmf' (i - r_di r) (j - r_dj r)) = cmf i j).
    { rewrite E', E. unfold charge.
      assert (Q : forall a, In a (r_add r) -> cost' (i - fst (fst a)) (j - snd (fst a)) = cost (i - fst (fst a)) (j - snd (fst a))).
      { intros a Hin0. apply HC. rewrite !in_app_iff. destruct (Nat.eqb_spec (fst (fst a)) 0) as [E0|E0]; [destruct (Nat.eqb_spec (snd (fst a)) 0) as [E1|E1]|].
        - right. left. rewrite E0, E1, !Nat.sub_0_r. reflexivity.
        - left. right. right. unfold inner_points. apply in_map_iff. exists a. split; [reflexivity|]. apply filter_In. split; [exact Hin0|]. lia.
        - left. right. right. unfold inner_points. apply in_map_iff. exists a. split; [reflexivity|]. apply filter_In. split; [exact Hin0|]. lia. }
      clear -Q. revert Q. generalize (cmf (i - r_di r) (j - r_dj r)). generalize (r_add r).
      induction l as [|a l IHl]; intros c Q; [reflexivity|]. cbn [fold_left]. rewrite (Q a) by (left; reflexivity). apply IHl. intros b Hb. apply Q. right. exact Hb. }
    pose proof (HB' i j Hin Hjm) as C'. unfold cell_eq in C'. destruct Ha as [Ha1 Ha2]. rewrite Hseed, Ha1, Hwij in C' by assumption. cbn [negb] in C'.
    pose proof (HB i j Hin Hjm) as C. unfold cell_eq in C. rewrite Ha1, Ha2 in C. cbn [negb] in C.
    destruct C as [l [a [[Hl Hc] [Hmin Hres]]]]. destruct C' as [l' [a' [[Hl' Hc'] [Hmin' Hres']]]].
    destruct k as [|k]; [discriminate|]. cbn [rule_no] in Hr.
    destruct (Hc' k r Hr) as [v [Hv1 Hv2]]. unfold cand_is in Hv2. replace (Nat.leb (r_di r) i && Nat.leb (r_dj r) j)%bool with true in Hv2 by lia.
    rewrite Ech in Hv2. subst v.
    destruct Hres as [[-> [_ Hx]]|[kx [E1 [E2 E3]]]]; [unfold INT_MIN in *; lia|]. assert (kx = k) by lia. subst kx.
    destruct Hmin as [[Hx _]|[kx [x [Ex [Hx [Gx [Hle Hfst]]]]]]]; [lia|]. assert (kx = k) by lia. subst kx.
    assert (x = cmf i j) by congruence. subst x.
    (* candidates of the two problems *)
    assert (Cmp : forall q u', nth_error l' q = Some u' -> good u' -> exists u, nth_error l q = Some u /\ good u /\ leb u u' = true).
    { intros q u' Hq Gu'. assert (Hlt : q < List.length rules) by (rewrite <- Hl'; apply nth_error_Some; congruence).
      destruct (nth_error rules q) as [rq|] eqn:Erq; [|apply nth_error_None in Erq; lia].
      destruct (Hc' q rq Erq) as [u1 [Hu1 Hu2]]. assert (u1 = u') by congruence. subst u1.
      destruct (Hc q rq Erq) as [u [Hu3 Hu4]]. exists u. split; [exact Hu3|]. unfold cand_is in *.
      destruct (Nat.leb (r_di rq) i && Nat.leb (r_dj rq) j)%bool eqn:Eb; [|apply (law_good_not_nan _ L) in Gu'; congruence].
      subst u u'. assert (Hnp : isnan (cmf' (i - r_di rq) (j - r_dj rq)) = false).
      { destruct (isnan (cmf' (i - r_di rq) (j - r_dj rq))) eqn:En; [|reflexivity]. apply (law_good_not_nan _ L) in Gu'.
        rewrite (charge_nan L) in Gu' by exact En. discriminate. }
      destruct (matrix_lower (i - r_di rq) (j - r_dj rq) ltac:(lia) ltac:(lia) Hnp) as [_ Hlo].
      assert (Q : leb (charge cost rq i j (cmf (i - r_di rq) (j - r_dj rq))) (charge cost' rq i j (cmf' (i - r_di rq) (j - r_dj rq))) = true).
      { apply Hcmp; auto. eapply nth_error_In; exact Erq. }
      split; [eapply (le_good L); eassumption|exact Q]. }
    destruct Hmin' as [[_ Hno]|[kx [x [Ex' [Hx' [Gx' [Hle' Hfst']]]]]]]; [exfalso; exact (Hno k _ Hv1 G)|].
    assert (kx = k).
    { destruct (Cmp kx x Hx' Gx') as [u [Hu [Gu Hux]]]. destruct (Nat.lt_trichotomy kx k) as [Hlt|[Heq|Hgt]]; [|exact Heq|]; exfalso.
      - pose proof (Hfst kx u Hlt Hu Gu) as S1. pose proof (law_lt_le_trans _ L _ _ _ S1 Hux) as S2.
        pose proof (law_lt_le_trans _ L _ _ _ S2 (Hle' k _ Hv1 G)) as S3. rewrite (law_lt_irrefl _ L) in S3. discriminate.
      - pose proof (Hfst' k _ Hgt Hv1 G) as S1. pose proof (law_lt_le_trans _ L _ _ _ S1 (Hle kx u Hu Gu)) as S2.
        pose proof (law_lt_le_trans _ L _ _ _ S2 Hux) as S3. rewrite (law_lt_irrefl _ L) in S3. discriminate. }
    subst kx. destruct Hres' as [[E4 _]|[kx [E4 [E5 E6]]]]; [lia|]. assert (kx = k) by lia. subst kx.
    split; [|congruence]. econstructor; eauto. lia.
Qed.
End Core.

(** A walk goes through cells that are admitted, save the first. *)
Lemma walk_admitted (rules : list (rule N)) cost n m source allowed ks vs ts q c : walk rules cost n m source allowed ks vs ts q c ->
  forall a b, In (a, b) (tl vs) -> a < n /\ b < m /\ allowed a b.
Proof.
  induction 1 as [i j c Hs Hi Hj|ks vs ts i0 j0 c k r Hw IH Hk Hi Hj Ha]; intros a b Hab; [destruct Hab|].
  destruct (walk_first _ _ _ _ _ _ _ _ _ _ _ Hw) as [p [c0 [v' [t' [E1 _]]]]]. rewrite E1 in Hab. cbn [tl app] in Hab. apply in_app_iff in Hab.
  destruct Hab as [Hab|[Hab|[]]]; [apply IH; rewrite E1; exact Hab|]. injection Hab as <- <-. auto.
Qed.

Section Calls.
Variables (cdist cdist' : mat N -> mat N -> out (mat N)) (x x' : ndarray N) (y y' : option (ndarray N)) (o o' : opts N) (lm lm' : mat N)
  (d : DTW N) (rules : list (rule N)) (w' : winfun N) (mp : mapping).
Hypothesis HC : costs_of cdist x y lm.
Hypothesis Hd : dtw cdist x y o = Ok d.
Hypothesis Hp : pattern_rules (r_stepPattern d) rules.
Hypothesis Hq : 0 < nr lm.
Hypothesis Hmp : r_map d = Some mp.
Hypothesis WP' : well_posed cdist' x' y' o' lm' (r_stepPattern d) rules w'.
Hypothesis Hrows : nr lm' = nr lm.
Hypothesis Hcols : nc lm' = nc lm.
Hypothesis Eob : o_open_begin o' = o_open_begin o.
Hypothesis Eoe : o_open_end o' = o_open_end o.
Hypothesis Edo : o_distance_only o' = o_distance_only o.
Hypothesis Hww : window_within w' (o_window_args o') (r_windowFunction d) (o_window_args o) (rows_used (o_open_begin o) lm) (nc lm).
Hypothesis Hin : alignment_in_window (o_open_begin o) w' (o_window_args o') (nr lm) (nc lm) mp.
Hypothesis Hsame : same_on_alignment lm lm' mp.
Hypothesis Hstart : o_open_begin o = false -> cell lm' 0 0 = cell lm 0 0.
Hypothesis Hcmp : forall r i j c c', In r rules -> i < nr (p_lm o lm) -> j < nc lm -> leb c c' = true ->
  good (charge (cell (p_lm o' lm')) r i j c') -> leb (charge (cell (p_lm o lm)) r i j c) (charge (cell (p_lm o' lm')) r i j c') = true.

Lemma narrow_call : exists d', dtw cdist' x' y' o' = Ok d' /\ r_map d' = Some mp /\ r_distance d' = r_distance d /\
  r_normalizedDistance d' = r_normalizedDistance d /\ r_jmin d' = r_jmin d.
Proof.
  pose proof (ok_well_posed L _ _ _ _ _ _ _ HC Hd Hp Hq) as WP.
  destruct (dtw_fields L _ _ _ _ _ _ _ HC Hd Hp) as [FN [_ [_ [_ [_ [Ekw [_ [Fj [_ [Fn [Fob [Fna Fmap]]]]]]]]]]]].
  assert (Hdo : o_distance_only o = false) by (destruct (o_distance_only o); [rewrite (proj1 Fmap eq_refl) in Hmp; discriminate|reflexivity]).
  destruct (wp_finish_any L _ _ _ _ _ _ _ _ WP) as [cm [dm [cmf [smf [win [E [Rc [Rs [Hwi HB]]]]]]]]].
  destruct (wp_finish_any L _ _ _ _ _ _ _ _ WP') as [cm' [dm' [cmf' [smf' [win' [E' [Rc' [Rs' [Hwi' HB']]]]]]]]].
  assert (ERR : nr (p_lm o' lm') = nr (p_lm o lm)) by (rewrite !p_lm_nr, Eob, Hrows; reflexivity).
  rewrite ERR, Hcols in *.
  set (R := nr (p_lm o lm)) in *. assert (HR : R = rows_used (o_open_begin o) lm) by (unfold R; rewrite p_lm_nr; unfold rows_used; destruct (o_open_begin o); lia).
  assert (HR0 : 0 < R) by (rewrite HR; unfold rows_used; destruct (o_open_begin o); lia).
  set (sp := r_stepPattern d) in *. set (w := r_windowFunction d) in *.
  pose proof WP as WP0. destruct WP0 as [w1 w2 w3 w4 w5 w6 w7 w8 w9 w10].
  assert (Hv : forallb valid_rule rules = true) by apply w4.
  assert (Hws : forall i j, i < R -> j < nc lm -> win' i j = true -> win i j = true).
  { intros i j Hi Hj Hx. apply (Hwi i j Hi Hj). apply (Hwi' i j Hi Hj) in Hx. rewrite HR in *. apply Hww; auto. }
  assert (Hse : forall i j, i < R -> j < nc lm -> p_seed o' lm' i j = p_seed o lm i j).
  { intros i j Hi Hj. unfold p_seed. rewrite Eob. destruct (o_open_begin o) eqn:Eo; [reflexivity|]. unfold seed0. rewrite Hstart by reflexivity. reflexivity. }
  pose proof (matrix_lower rules R (nc lm) _ _ _ _ _ _ _ _ _ _ Hv HB HB' Hse Hws Hcmp) as ML.
  rewrite Hd in E. unfold finish_any in E.
  destruct (choose o (hint sp) (nr lm) (nc lm) (cmf (R - 1))) as [jm| | | |] eqn:Ej; try discriminate. cbn [bind] in E.
  destruct (isnan (cmf (R - 1) jm)) eqn:En; [discriminate|]. rewrite Hdo in E. cbn [bind] in E.
  destruct (backtrack _ _ _) as [mp2| | | |] eqn:Eb; try discriminate. cbn [bind] in E. rewrite Bool.andb_false_r in E. injection E as E.
  assert (Ejm : r_jmin d = jm) by (rewrite E; reflexivity). rewrite Ejm in *.
  assert (Ed : r_distance d = cmf (R - 1) jm) by (rewrite E; reflexivity).
  assert (HR1 : R - 1 < R) by (clear -HR0; lia).
  destruct (traced_exists L rules R (nc lm) _ _ _ _ _ (R - 1) jm Hv HB HR1 Fj En) as [ks [vs [ts [T _]]]].
  rewrite (backtrack_path L rules sp R (nc lm) smf (Mat R (nc lm) dm) jm ks vs ts w4 eq_refl eq_refl Rs T HR0 Fj) in Eb. injection Eb as <-.
  pose proof (traced_walk L rules R (nc lm) _ _ _ _ _ Hv HB _ _ _ _ _ T HR1 Fj En) as Wt.
  assert (Emp : mp = if o_open_begin o then shift_mapping (path_of ks vs ts (R - 1, jm)) else path_of ks vs ts (R - 1, jm)).
  { rewrite E in Hmp. unfold result in Hmp. cbn [r_map] in Hmp. destruct (o_open_begin o); cbn [option_map] in Hmp; congruence. }
  destruct (walk_first _ _ _ _ _ _ _ _ _ _ _ Wt) as [p [c0 [v' [t' [E1 [E2 [Esrc _]]]]]]].
  assert (Hpos : forall q, In q (ts ++ [(R - 1, jm)]) -> fst q < R /\ snd q < nc lm) by (intros q Hin0; eapply walk_trace_range; eauto).
  pose proof (walk_admitted _ _ _ _ _ _ _ _ _ _ _ Wt) as Had.
  destruct (trace_stays rules R (nc lm) _ _ _ _ _ _ _ _ _ _ Hv HB HB' Hse Hws Hcmp (R - 1) jm ks vs ts T HR1 Fj En) as [T' Ecm].
  { intros a b Hab. destruct (Had a b Hab) as [Ha [Hb [As _]]]. unfold point in *. rewrite E1 in Hab. cbn [tl] in Hab.
    apply (Hwi' a b); [exact Ha|exact Hb|]. destruct (In_nth_error _ _ Hab) as [t Ht].
    unfold alignment_in_window in Hin. specialize (Hin t). rewrite Emp in Hin. unfold path_of, mapping_of, point in Hin. rewrite HR. unfold rows_used.
    destruct (o_open_begin o) eqn:Eo; cbn [index1s index2s shift_mapping] in Hin; rewrite E1 in Hin; cbn [map tl nth_error] in Hin; rewrite !nth_error_map, Ht in Hin;
      unfold query_ix, ref_ix in Hin; cbn [option_map fst snd] in Hin; specialize (Hin _ _ eq_refl eq_refl).
    - rewrite Nat2Z.id in Hin. destruct a as [|a]; [|replace (S (Z.to_nat (Z.pred (Z.of_nat (S a))))) with (S a) in Hin by (clear; lia); exact Hin].
      exfalso. unfold p_seed in As. rewrite Eo in As. unfold pseed in As. cbn [Nat.eqb] in As. rewrite (zero_not_nan L) in As. discriminate.
    - rewrite !Nat2Z.id in Hin. exact Hin. }
  { intros a b Hab. destruct (Hpos (a, b) Hab) as [Ha Hb]. cbn [fst snd] in Ha, Hb. pose proof (costs_of_wf _ _ _ _ HC) as Wf. pose proof (costs_of_wf _ _ _ _ (wp_costs _ _ _ _ _ _ _ _ WP')) as Wf'.
    unfold same_on_alignment in Hsame. rewrite Emp in Hsame. unfold path_of, mapping_of, point in Hsame. unfold point in Hab.
    unfold R, p_lm in Ha. unfold p_lm. rewrite Eob. destruct (o_open_begin o) eqn:Eo.
    - cbn [nr padded] in Ha. rewrite !padded_cell by (rewrite ?Hrows, ?Hcols; auto). destruct (Nat.eqb_spec a 0); [reflexivity|].
      assert (Hp0 : fst p = 0).
      { unfold src, p_seed in Esrc. rewrite Eo in Esrc. unfold pseed in Esrc. destruct (Nat.eqb_spec (fst p) 0); [assumption|]. rewrite (law_nan _ L) in Esrc. discriminate. }
      unfold point in *. rewrite E2 in Hab. destruct Hab as [->|Hab]; [cbn [fst] in Hp0; congruence|].
      destruct (In_nth_error _ _ Hab) as [t Ht]. specialize (Hsame t). cbn [index1 index2 shift_mapping] in Hsame. rewrite E2 in Hsame. cbn [map tl] in Hsame.
      rewrite !nth_error_map, Ht in Hsame. cbn [option_map] in Hsame. specialize (Hsame _ _ eq_refl eq_refl). unfold query_ix, ref_ix in Hsame. cbn [fst snd] in Hsame.
      rewrite Nat2Z.id in Hsame. replace (Z.to_nat (Z.pred (Z.of_nat a))) with (a - 1) in Hsame by (clear; lia). exact Hsame.
    - destruct (In_nth_error _ _ Hab) as [t Ht]. specialize (Hsame t). cbn [index1 index2] in Hsame. rewrite !nth_error_map, Ht in Hsame.
      cbn [option_map] in Hsame. specialize (Hsame _ _ eq_refl eq_refl). unfold query_ix, ref_ix in Hsame. cbn [fst snd] in Hsame. rewrite !Nat2Z.id in Hsame. exact Hsame. }
  assert (Ech : choose o' (hint sp) (nr lm') (nc lm') (cmf' (R - 1)) = Ok jm).
  { rewrite Hrows, Hcols. unfold choose in Ej |- *. rewrite Eoe. destruct (o_open_end o) eqn:Eo; [|exact Ej].
    assert (Hna : hint sp <> "NA") by (apply Fna; reflexivity).
    assert (SOL : solution o lm sp w rules (Mat R (nc lm) cm) (Mat R (nc lm) dm) cmf smf win) by (constructor; auto).
    assert (SOL' : solution o' lm' sp w' rules (Mat R (nc lm) cm') (Mat R (nc lm) dm') cmf' smf' win').
    { constructor; rewrite ?ERR, ?Hcols; auto. }
    assert (Hsz : size_ok (nr (p_lm o lm)) (nc lm)) by (rewrite <- rows_used_p; exact w8).
    assert (Hsz' : size_ok (nr (p_lm o' lm')) (nc lm')) by (rewrite ERR, Hcols; exact Hsz).
    assert (Ej0 : choose o (hint sp) (nr lm) (nc lm) (cmf (nr (p_lm o lm) - 1)) = Ok jm) by (unfold choose; rewrite Eo; exact Ej).
    destruct (choose_open_spec L o lm rules w win sp _ _ cmf smf Hv SOL Hsz Hq Eo Hna jm Ej0) as [_ S1].
    assert (Eo' : o_open_end o' = true) by congruence. assert (Hq' : 0 < nr lm') by (rewrite Hrows; exact Hq).
    assert (Ht : exists jm', choose o' (hint sp) (nr lm') (nc lm') (cmf' (nr (p_lm o' lm') - 1)) = Ok jm').
    { eapply choose_open_total with (j := jm); eauto; [rewrite Hcols; exact Fj|]. rewrite ERR. fold R. rewrite Ecm. exact En. }
    destruct Ht as [jm' Ej'].
    destruct (choose_open_spec L o' lm' rules w' win' sp _ _ cmf' smf' Hv SOL' Hsz' Hq' Eo' Hna jm' Ej') as [N2 S2].
    rewrite ERR in N2, Ej'. rewrite Hrows, Hcols in Ej'. rewrite Hrows, Hcols, ERR in S2. fold R in N2, S2, Ej', S1.
    assert (Fj' : jm' < nc lm) by (eapply choose_bound; [|exact Ej']; clear -Fj; lia).
    assert (Ejj : jm' = jm).
    { destruct (ML (R - 1) jm' HR1 Fj' N2) as [N1 Lo].
      destruct (wp_small _ _ _ _ _ _ _ _ WP) as [B1 B2].
      pose proof (normalized_mono L (hint sp) (nr lm) jm' _ _ ltac:(clear -B1; lia) ltac:(clear -B2 Fj'; lia) Lo) as Lo'.
      destruct (S1 jm' Fj' N1) as [A1 A2]. destruct (S2 jm Fj ltac:(rewrite Ecm; exact En)) as [A3 A4]. rewrite Ecm in A3, A4.
      destruct (Nat.lt_trichotomy jm' jm) as [Hlt|[Heq|Hgt]]; [|exact Heq|]; exfalso.
      - pose proof (law_lt_le_trans _ L _ _ _ (A2 Hlt) Lo') as Q1. pose proof (law_lt_le_trans _ L _ _ _ Q1 A3) as Q2. rewrite (law_lt_irrefl _ L) in Q2. discriminate.
      - pose proof (law_lt_le_trans _ L _ _ _ (A4 Hgt) A1) as Q1. pose proof (law_lt_le_trans _ L _ _ _ Q1 Lo') as Q2. rewrite (law_lt_irrefl _ L) in Q2. discriminate. }
    subst jm'. unfold choose in Ej'. rewrite Eo' in Ej'. exact Ej'. }
  rewrite E'. unfold finish_any. rewrite Ech. cbn [bind]. rewrite Ecm, En, Edo, Hdo. cbn [bind].
  rewrite (backtrack_path L rules sp R (nc lm) smf' (Mat R (nc lm) dm') jm ks vs ts w4 eq_refl eq_refl Rs' T' HR0 Fj). cbn [bind].
  rewrite Bool.andb_false_r. eexists. split; [reflexivity|]. unfold result. cbn [r_map r_distance r_normalizedDistance r_jmin].
  rewrite Emp, Eob, Hrows. split; [destruct (o_open_begin o); reflexivity|]. split; [congruence|]. split; [|reflexivity].
  rewrite E. unfold result. cbn [r_normalizedDistance]. reflexivity.
Qed.
End Calls.

(** ** Narrower windows *)
Theorem narrower_window cdist x y o (lm : mat N) d rules t2 kw2 w2 mp : costs_of cdist x y lm ->
  dtw cdist x y o = Ok d -> pattern_rules (r_stepPattern d) rules -> 0 < nr lm -> r_map d = Some mp ->
  window_of t2 w2 -> window_total w2 kw2 (rows_used (o_open_begin o) lm) (nc lm) ->
  window_within w2 kw2 (r_windowFunction d) (o_window_args o) (rows_used (o_open_begin o) lm) (nc lm) ->
  alignment_in_window (o_open_begin o) w2 kw2 (nr lm) (nc lm) mp ->
  exists d2, dtw cdist x y (set_window o t2 kw2) = Ok d2 /\ r_map d2 = Some mp /\ r_distance d2 = r_distance d /\
    r_normalizedDistance d2 = r_normalizedDistance d /\ r_jmin d2 = r_jmin d.
Proof.
  intros HC Hd Hp Hq Hmp Hw Ht Hww Hin.
  pose proof (relaxed_wp _ _ _ _ _ _ _ _ _ _ _ (ok_well_posed L _ _ _ _ _ _ _ HC Hd Hp Hq) Hw Ht) as WP.
  eapply narrow_call; try exact WP; eauto; try reflexivity.
  - intros t i j _ _. reflexivity.
  - intros r i j c c' _ _ _ Hle G. apply (charge_mono L); [exact Hle|exact G].
Qed.

(** A Sakoe-Chiba band as wide as the alignment found without a window returns that alignment. *)
Theorem wide_enough_band cdist x y o (lm : mat N) d rules mp ws : costs_of cdist x y lm ->
  dtw cdist x y o = Ok d -> pattern_rules (r_stepPattern d) rules -> 0 < nr lm -> r_map d = Some mp ->
  r_windowFunction d = NoWindow -> o_open_begin o = false ->
  (forall t i j, nth_error (index1s mp) t = Some i -> nth_error (index2s mp) t = Some j -> leb (ofZ (Z.abs (j - i))) ws = true) ->
  exists d2, dtw cdist x y (set_window o (WTName "sakoechiba") (band ws)) = Ok d2 /\ r_map d2 = Some mp /\ r_distance d2 = r_distance d /\
    r_normalizedDistance d2 = r_normalizedDistance d /\ r_jmin d2 = r_jmin d.
Proof.
  intros HC Hd Hp Hq Hmp Hw Hb H. eapply narrower_window; eauto.
  - constructor.
  - apply sakoe_total.
  - intros i j _ _ _. rewrite Hw. exact I.
  - assert (Hdo : o_distance_only o = false).
    { destruct (dtw_fields L _ _ _ _ _ _ _ HC Hd Hp) as [_ [_ [_ [_ [_ [_ [_ [_ [_ [_ [_ [_ Fmap]]]]]]]]]]]].
      destruct (o_distance_only o); [rewrite (proj1 Fmap eq_refl) in Hmp; discriminate|reflexivity]. }
    destruct (monotone_closed L _ _ _ _ _ _ _ HC Hd Hp Hdo Hb) as [mp' [Em' M]].
    assert (mp' = mp) by congruence. subst mp'.
    destruct M as [_ [_ [_ [_ [_ [_ [_ [_ [_ [_ [_ [_ [_ [M3 [M4 _]]]]]]]]]]]]]]].
    unfold alignment_in_window. rewrite Hb. intros t i j Hi Hj. apply in_band.
    pose proof (M3 _ (nth_error_In _ _ Hi)). pose proof (M4 _ (nth_error_In _ _ Hj)). rewrite !Z2Nat.id by lia. eapply H; eauto.
Qed.

(** ** Larger local costs away from the alignment *)
Theorem raised_elsewhere cdist x y cdist' x' y' o (lm lm' : mat N) d rules mp : costs_of cdist x y lm ->
  dtw cdist x y o = Ok d -> pattern_rules (r_stepPattern d) rules -> 0 < nr lm -> r_map d = Some mp ->
  costs_of cdist' x' y' lm' -> (o_open_begin o = true \/ native_array x' y') ->
  nonneg_weights rules -> nonneg_costs lm -> raised lm lm' -> same_on_alignment lm lm' mp ->
  exists d', dtw cdist' x' y' o = Ok d' /\ r_map d' = Some mp /\ r_distance d' = r_distance d /\
    r_normalizedDistance d' = r_normalizedDistance d /\ r_jmin d' = r_jmin d.
Proof.
  intros HC Hd Hp Hq Hmp HC' Hnat Hnw Hnc HR Hsame. destruct HR as [R1 [R2 R3]].
  pose proof (ok_well_posed L _ _ _ _ _ _ _ HC Hd Hp Hq) as WP.
  assert (WP' : well_posed cdist' x' y' o lm' (r_stepPattern d) rules (r_windowFunction d)).
  { destruct WP as [w1 w2 w3 w4 w5 w6 w7 w8 w9 w10]. unfold rows_used in *. constructor; unfold rows_used; rewrite ?R1, ?R2; auto. }
  destruct (dtw_fields L _ _ _ _ _ _ _ HC Hd Hp) as [_ [_ [_ [_ [_ [Ekw [_ [Fj [_ [_ [_ [_ Fmap]]]]]]]]]]]].
  assert (Hdo : o_distance_only o = false) by (destruct (o_distance_only o); [rewrite (proj1 Fmap eq_refl) in Hmp; discriminate|reflexivity]).
  destruct (dtw_alignment L _ _ _ _ _ _ _ HC Hd Hp Hdo) as [mp0 [ks [vs [ts [Emp [Adm [U [_ Hdes]]]]]]]].
  assert (mp0 = mp) by congruence. subst mp0. rewrite Ekw in Adm.
  pose proof (costs_of_wf _ _ _ _ HC) as Wf. pose proof (costs_of_wf _ _ _ _ HC') as Wf'.
  assert (Hv : forallb valid_rule rules = true) by apply Hp.
  eapply narrow_call; try exact WP'; try exact HC; try exact Hd; eauto.
  - intros i j _ _ H. exact H.
  - (* the alignment is in its own window *)
    unfold alignment_in_window, admissible in *. destruct (o_open_begin o).
    + destruct Hdes as [p0 [vs' [ts' [-> [-> [_ [_ [D3 [D4 _]]]]]]]]]. rewrite D3, D4. intros t i j. rewrite !nth_error_map.
      destruct (nth_error vs' t) as [[a b]|] eqn:Et; [|discriminate]. cbn [option_map]. intros E1 E2. injection E1 as <-. injection E2 as <-.
      pose proof (walk_admitted _ _ _ _ _ _ _ _ _ _ _ Adm a b (nth_error_In _ _ Et)) as [Ha [Hb [Hc1 Hc2]]].
      unfold query_ix_open, ref_ix. cbn [fst snd]. rewrite Nat2Z.id. replace (S (Z.to_nat (Z.of_nat a - 1))) with a by lia. exact Hc2.
    + destruct Hdes as [_ [_ [D3 [D4 _]]]]. rewrite D3, D4. intros t i j. rewrite !nth_error_map.
      destruct (walk_first _ _ _ _ _ _ _ _ _ _ _ Adm) as [p [c0 [v' [t' [E1 _]]]]]. rewrite E1 in *. cbn [nth_error].
      destruct (nth_error v' t) as [[a b]|] eqn:Et; [|discriminate]. cbn [option_map]. intros E3 E2. injection E3 as <-. injection E2 as <-.
      pose proof (walk_admitted _ _ _ _ _ _ _ _ _ _ _ Adm a b (nth_error_In _ _ Et)) as [Ha [Hb Hc1]].
      unfold query_ix, ref_ix. cbn [fst snd]. rewrite !Nat2Z.id. exact Hc1.
  - intros Eo. unfold admissible in Adm. rewrite Eo in *. destruct (walk_first _ _ _ _ _ _ _ _ _ _ _ Adm) as [p [c0 [v' [t' [_ [E2 [E3 _]]]]]]].
    destruct Hdes as [D1 [D2 _]]. rewrite E2 in D1, D2. specialize (Hsame 0). rewrite D1, D2 in Hsame. cbn [map nth_error] in Hsame.
    specialize (Hsame _ _ eq_refl eq_refl). unfold query_ix, ref_ix in Hsame. rewrite !Nat2Z.id in Hsame.
    unfold closed_source in E3. destruct (Nat.eqb_spec (fst p) 0) as [F1|]; [|discriminate]. destruct (Nat.eqb_spec (snd p) 0) as [F2|]; [|discriminate].
    rewrite F1, F2 in Hsame. exact Hsame.
  - intros r i j c c' Hr Hi Hj Hle G.
    eapply (charge_raise L rules (cell (p_lm o lm)) (cell (p_lm o lm')) (nr (p_lm o lm)) (nc lm) (fun _ _ => None) (fun _ _ => None) (fun _ _ => True)); eauto; [|discriminate].
    intros a b Ha Hb. unfold p_lm in *. destruct (o_open_begin o).
    + cbn [nr padded] in Ha. rewrite !padded_cell by (rewrite ?R1, ?R2; auto). destruct (Nat.eqb_spec a 0).
      * split; left; apply (zero_le_zero L).
      * split; [apply Hnc; lia|apply R3; lia].
    + split; [apply Hnc; auto|apply R3; auto].
Qed.
End Narrow.
