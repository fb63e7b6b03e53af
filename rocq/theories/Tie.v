(** Tie.v - the alignment that is returned (proofs for C75). *)
From Coq Require Import ZifyBool ZifyNat QArith Qcanon Lqa.
From Verif Require Import Base Num NumQ NumQLaws StepPattern Window Core Backtrack Dtw Spec Api Tables Vocab Terms
  CoreProof DPProof DtwProof ApiProof ApiThms Uniq Thm1 Thm2 Thm3 Thm5 Thm7 Thm10 Derived SeriesSpec Thm27 TieSpec.
Open Scope string_scope.
Open Scope list_scope.
Open Scope nat_scope.

Section TieWalk.
Context {N : Num}.
Variables (rules : list (rule N)) (cost : nat -> nat -> N) (n m : nat)
          (source : nat -> nat -> option N) (allowed : nat -> nat -> Prop).
Notation W := (walk rules cost n m source allowed).

Lemma walk_len ks vs ts q c : W ks vs ts q c -> List.length vs = S (List.length ks).
Proof. induction 1; [reflexivity|]. rewrite !app_length. cbn. lia. Qed.

Lemma walk_det ks vs ts q c : W ks vs ts q c -> forall ts' q' c', W ks vs ts' q' c' -> ts' = ts /\ q' = q /\ c' = c.
Proof.
  induction 1 as [i j c Hs Hi Hj|ks vs ts i0 j0 c k r Hw IH Hk Hi Hj Ha]; intros ts' q' c' H'.
  - inversion H' as [i' j' c0 Hs' Hi' Hj' E1 E2 E3|ks' vs' ts0 i0 j0 c0 k r Hw Hk Hi' Hj' Ha E1]; subst.
    + rewrite Hs in Hs'. injection Hs' as ->. auto.
    + destruct ks'; discriminate.
  - inversion H' as [i' j' c0 Hs' Hi' Hj' E1 E2 E3|ks' vs' ts0 i0' j0' c0 k' r' Hw' Hk' Hi' Hj' Ha' E1 E2 E3 E4 E5]; subst.
    + destruct ks; discriminate.
    + apply app_inj_tail in E1. destruct E1 as [-> ->]. apply app_inj_tail in E2. destruct E2 as [-> E2].
      destruct (IH _ _ _ Hw') as [-> [Eq ->]]. injection Eq as -> ->. assert (r' = r) by congruence. subst r'. auto.
Qed.

(** A proper part of a longer walk is a part of the walk without its last step. *)
Lemma part_cases {A} (k1 k2 ks : list A) k : k1 ++ k2 = ks ++ [k] -> (k2 = [] /\ k1 = ks ++ [k]) \/ exists k2', k2 = k2' ++ [k] /\ k1 ++ k2' = ks.
Proof.
  destruct k2 as [|b l _] using rev_ind; intros H; [left; rewrite app_nil_r in H; auto|].
  right. rewrite app_assoc in H. apply app_inj_tail in H. destruct H as [H ->]. eauto.
Qed.

Lemma walk_part ks vs ts q c : W ks vs ts q c -> forall k1 k2 v1 v2 t1 q1 c1, ks = k1 ++ k2 -> vs = v1 ++ v2 -> W k1 v1 t1 q1 c1 ->
  (k2 = [] /\ v2 = [] /\ q1 = q /\ c1 = c) \/
  exists ks0 vs0 ts0 i0 j0 c0 k r k2', ks = ks0 ++ [k] /\ vs = vs0 ++ [q] /\ W ks0 vs0 ts0 (i0, j0) c0 /\ rule_no rules k = Some r /\
    q = (i0 + r_di r, j0 + r_dj r) /\ c = charge cost r (fst q) (snd q) c0 /\ fst q < n /\ snd q < m /\ allowed (fst q) (snd q) /\
    ks0 = k1 ++ k2' /\ k2 = k2' ++ [k] /\ exists v2', vs0 = v1 ++ v2' .
Proof.
  intros Hw k1 k2 v1 v2 t1 q1 c1 Ek Ev H1. pose proof (walk_len _ _ _ _ _ Hw) as Hl. pose proof (walk_len _ _ _ _ _ H1) as Hl1.
  destruct k2 as [|b k2 _] using rev_ind.
  - left. rewrite app_nil_r in Ek. subst k1. assert (v2 = []).
    { destruct v2; [reflexivity|]. rewrite Ev, app_length in Hl. cbn in Hl. lia. }
    subst v2. rewrite app_nil_r in Ev. subst v1. destruct (walk_det _ _ _ _ _ Hw _ _ _ H1) as [_ [-> ->]]. auto.
  - right. destruct Hw as [i j c Hs Hi Hj|ks0 vs0 ts0 i0 j0 c0 k r Hw Hk Hi Hj Ha].
    { destruct k1; destruct k2; discriminate. }
    rewrite app_assoc in Ek. apply app_inj_tail in Ek. destruct Ek as [Ek <-].
    destruct v2 as [|v v2 _] using rev_ind.
    { exfalso. rewrite app_nil_r in Ev. rewrite <- Ev in Hl1. apply walk_len in Hw. rewrite app_length in Hl1. cbn in Hl1.
      rewrite Ek, app_length in Hw. lia. }
    rewrite app_assoc in Ev. apply app_inj_tail in Ev. destruct Ev as [Ev <-].
    exists ks0, vs0, ts0, i0, j0, c0, k, r, k2. cbn [fst snd]. repeat split; auto. exists v2. exact Ev.
Qed.
End TieWalk.

Section Tie.
Context {N : Num}.
Variable L : NumLaws N.

Section Opt.
Variables (rules : list (rule N)) (n m : nat) (lmf seed : nat -> nat -> N) (win : nat -> nat -> bool).
Variables (cmf : nat -> nat -> N) (smf : nat -> nat -> Z).
Hypothesis Hrules : forallb valid_rule rules = true.
Hypothesis HB : bellman rules n m lmf seed win cmf smf.
Notation wk := (walk rules lmf n m (src seed) (alw seed win)).

Lemma traced_walk i j ks vs ts : traced rules smf i j ks vs ts -> i < n -> j < m -> isnan (cmf i j) = false ->
  wk ks (vs ++ [(i, j)]) (ts ++ [(i, j)]) (i, j) (cmf i j).
Proof.
  induction 1 as [i j H|i j k r ks vs ts H Hr Hi Hj T IH]; intros Hin Hjm Hn;
  destruct (cell_cases L rules n m lmf seed win cmf smf Hrules HB i j Hin Hjm Hn) as [[Hs Hd]|[k' [r' [Hk [Hdi [Hdj [Ha [Hd [G [Hn' E]]]]]]]]]].
  - constructor; auto.
  - unfold INT_MIN in *. lia.
  - unfold INT_MIN in *. lia.
  - assert (k' = k) by lia. subst k'. assert (r' = r) by congruence. subst r'.
    pose proof (walk_step rules lmf n m (src seed) (alw seed win) _ _ _ _ _ _ k r (IH ltac:(lia) ltac:(lia) Hn') Hr) as Wk.
    replace (i - r_di r + r_di r) with i in Wk by lia. replace (j - r_dj r + r_dj r) with j in Wk by lia.
    specialize (Wk Hin Hjm Ha). rewrite <- E in Wk. rewrite <- !app_assoc in Wk |- *. cbn [app] in Wk |- *. exact Wk.
Qed.

(** Along a trace every prefix has the cost in the matrix. *)
Lemma traced_parts i j ks vs ts : traced rules smf i j ks vs ts -> i < n -> j < m -> isnan (cmf i j) = false ->
  forall k1 k2 v1 v2, ks = k1 ++ k2 -> vs ++ [(i, j)] = v1 ++ v2 -> List.length v1 = S (List.length k1) ->
  exists t1 a b, wk k1 v1 t1 (a, b) (cmf a b) /\ isnan (cmf a b) = false /\ a < n /\ b < m /\ usable k1 (cmf a b).
Proof.
  induction 1 as [i j H|i j k r ks vs ts H Hr Hi Hj T IH]; intros Hin Hjm Hn k1 k2 v1 v2 Ek Ev Hl.
  - destruct k1; [|discriminate]. destruct v1 as [|p [|p' v1]]; [discriminate| |discriminate]. cbn in Ev. injection Ev as <- <-.
    exists [(i, j)], i, j. pose proof (traced_walk i j [] [] [] (traced_start rules smf i j H) Hin Hjm Hn) as Wk. cbn in Wk.
    split; [exact Wk|]. split; [exact Hn|]. split; [exact Hin|]. split; [exact Hjm|]. split; [exact Hn|]. intros C. contradiction.
  - pose proof (traced_walk _ _ _ _ _ (traced_step rules smf i j k r ks vs ts H Hr Hi Hj T) Hin Hjm Hn) as Wk.
    destruct (cell_cases L rules n m lmf seed win cmf smf Hrules HB i j Hin Hjm Hn) as [[Hs Hd]|[k' [r' [Hk [Hdi [Hdj [Ha [Hd [G [Hn' E]]]]]]]]]].
    { unfold INT_MIN in *. lia. }
    assert (k' = k) by lia. subst k'. assert (r' = r) by congruence. subst r'.
    symmetry in Ek. destruct (part_cases _ _ _ _ Ek) as [[-> Ek1]|[k2' [-> Ek1]]].
    + assert (v2 = []).
      { pose proof (walk_len _ _ _ _ _ _ _ _ _ _ _ Wk) as Hw. rewrite Ev, app_length, Hl, Ek1 in Hw. destruct v2; [reflexivity|cbn in Hw; lia]. }
      subst v2. rewrite app_nil_r in Ev. rewrite Ev in Wk. subst k1. eexists _, i, j. split; [exact Wk|]. repeat split; auto.
    + destruct v2 as [|v v2 _] using rev_ind.
      { exfalso. rewrite app_nil_r in Ev. pose proof (walk_len _ _ _ _ _ _ _ _ _ _ _ Wk) as Hw. rewrite Ev, Hl, <- Ek1, !app_length in Hw. cbn in Hw. lia. }
      rewrite app_assoc in Ev. apply app_inj_tail in Ev. destruct Ev as [Ev <-].
      eapply IH; eauto; lia.
Qed.

(** Any walk that is cheapest throughout parts from the trace by a later production. *)
Lemma traced_lower ks' vs' ts' q c' : wk ks' vs' ts' q c' -> usable ks' c' -> least_throughout wk ks' vs' ->
  forall ks vs ts, traced rules smf (fst q) (snd q) ks vs ts -> parts_with_lower ks ks'.
Proof.
  induction 1 as [i j c Hs Hi Hj|ks' vs' ts' i0 j0 c k' r Hw IH Hk Hi Hj Ha]; intros U LT ks vs ts T; cbn [fst snd] in *.
  - pose proof (HB i j Hi Hj) as C. unfold cell_eq in C. unfold src in Hs. destruct (isnan (seed i j)); [discriminate|]. cbn in C. destruct C as [_ C].
    inversion T as [? ? Hd|? ? k r ks0 vs0 ts0 Hd]; subst; [left; reflexivity|]. unfold INT_MIN in *. lia.
  - set (i := i0 + r_di r) in *. set (j := j0 + r_dj r) in *.
    destruct (usable_prefix L lmf _ _ r ks' c k' U) as [Gc Uc].
    destruct (lower_bound L rules n m lmf seed win cmf smf Hrules HB _ _ _ _ _ Hw Uc) as [N0 [L0 _]]. cbn [fst snd] in *.
    assert (Hp0 : i0 < n /\ j0 < m) by (apply (walk_in_range _ _ _ _ _ _ _ _ _ _ _ Hw)). destruct Hp0 as [Hi0 Hj0].
    assert (Wfull : wk (ks' ++ [k']) (vs' ++ [(i, j)]) (ts' ++ inner_points r i j ++ [(i, j)]) (i, j) (charge lmf r i j c))
      by (apply walk_step; auto).
    destruct (lower_bound L rules n m lmf seed win cmf smf Hrules HB _ _ _ _ _ Wfull U) as [N1 [L1 G1]]. cbn [fst snd] in *.
    assert (G1' : good (cmf i j)) by (apply G1; destruct ks'; discriminate).
    assert (Le1 : leb (charge lmf r i j c) (cmf i j) = true).
    { destruct (attained L rules n m lmf seed win cmf smf Hrules HB i j Hi Hj N1) as [ka [va [ta [Wa Ua]]]].
      destruct (LT (ks' ++ [k']) [] (vs' ++ [(i, j)]) [] _ _ _ ltac:(rewrite app_nil_r; reflexivity) ltac:(rewrite app_nil_r; reflexivity) Wfull) as [_ M].
      eapply M; eauto. }
    pose proof (HB i j Hi Hj) as C. destruct Ha as [Ha1 Ha2]. unfold cell_eq in C. rewrite Ha1, Ha2 in C. cbn [negb] in C.
    destruct C as [l [a [[Hl Hc] [Hmin Hres]]]].
    destruct k' as [|k1]; [discriminate|]. cbn [rule_no] in Hk. destruct (Hc k1 r Hk) as [v [Hv1 Hv2]]. unfold cand_is in Hv2.
    replace (Nat.leb (r_di r) i && Nat.leb (r_dj r) j)%bool with true in Hv2 by (unfold i, j; lia).
    replace (i - r_di r) with i0 in Hv2 by (unfold i; lia). replace (j - r_dj r) with j0 in Hv2 by (unfold j; lia).
    assert (Gf : good (charge lmf r i j c)) by (apply (proj2 U); destruct ks'; discriminate).
    assert (Lv : leb v (charge lmf r i j c) = true) by (subst v; apply (charge_mono L); assumption).
    assert (Gv : good v) by (eapply (le_good L); eauto).
    destruct Hmin as [[_ Hno]|[kx [x [Ea [Hx [Gx [Hle Hfst]]]]]]]; [exfalso; exact (Hno k1 v Hv1 Gv)|].
    destruct Hres as [[E _]|[kx' [E1 [E2 E3]]]]; [lia|]. assert (kx' = kx) by lia. subst kx'. rewrite Hx in E2. injection E2 as E2. subst x.
    assert (Hkx : kx <= k1).
    { destruct (Nat.le_gt_cases kx k1) as [|Hgt]; [assumption|]. exfalso. pose proof (Hfst k1 v Hgt Hv1 Gv) as Lt.
      pose proof (law_lt_le_trans _ L _ _ _ Lt Lv) as Lt2. pose proof (law_lt_le_trans _ L _ _ _ Lt2 Le1) as Lt3.
      rewrite (law_lt_irrefl _ L) in Lt3. discriminate. }
    inversion T as [? ? Hd|? ? k2 r2 ks0 vs0 ts0 Hd Hr2 Hdi Hdj T0]; subst; [unfold INT_MIN in *; lia|].
    assert (k2 = S kx) by lia. subst k2.
    destruct (Nat.eq_dec kx k1) as [->|Hne].
    + cbn [rule_no] in Hr2. assert (r2 = r) by congruence. subst r2.
      replace (i - r_di r) with i0 in T0 by (unfold i; lia). replace (j - r_dj r) with j0 in T0 by (unfold j; lia).
      assert (LT0 : least_throughout wk ks' vs').
      { intros p1 p2 q1 q2 t1 q c0 Ep Eq Wp. eapply (LT p1 (p2 ++ [S k1]) q1 (q2 ++ [(i, j)])); [subst; rewrite app_assoc; reflexivity|subst; rewrite app_assoc; reflexivity|exact Wp]. }
      destruct (IH Uc LT0 _ _ _ T0) as [->|[u [a' [u' [b' [common [-> [-> Hab]]]]]]]]; [left; reflexivity|].
      right. exists u, a', u', b', (common ++ [S k1]). rewrite <- !app_assoc. auto.
    + right. exists ks0, (S kx), ks', (S k1), []. repeat split; auto. lia.
Qed.
End Opt.

(** ** The returned alignment *)
Theorem returned_first cdist x y o (lm : mat N) d rules : costs_of cdist x y lm ->
  dtw cdist x y o = Ok d -> pattern_rules (r_stepPattern d) rules -> 0 < nr lm -> o_distance_only o = false ->
  let W := admissible (o_open_begin o) rules lm (r_windowFunction d) (r_windowArgs d) in
  exists mp ks vs ts, r_map d = Some mp /\ W ks vs ts (end_cell (o_open_begin o) lm (r_jmin d)) (r_distance d) /\
    (if o_open_begin o then describes_open mp ks vs ts else describes mp ks vs ts) /\
    least_throughout W ks vs /\
    forall ks' vs' ts' c', W ks' vs' ts' (end_cell (o_open_begin o) lm (r_jmin d)) c' -> usable ks' c' ->
      least_throughout W ks' vs' -> parts_with_lower ks ks'.
Proof.
  intros HC Hd Hp Hq Hdo W. pose proof (ok_well_posed L _ _ _ _ _ _ _ HC Hd Hp Hq) as WP.
  destruct (wp_finish_any L _ _ _ _ _ _ _ _ WP) as [cm [dm [cmf [smf [win [E [Rc [Rs [Hwi HB]]]]]]]]].
  pose proof WP as WP0. destruct WP0 as [w1 w2 w3 w4 w5 w6 w7 w8 w9 w10].
  destruct (dtw_fields L _ _ _ _ _ _ _ HC Hd Hp) as [_ [_ [_ [_ [_ [Ekw [_ [Fj _]]]]]]]].
  assert (Hv : forallb valid_rule rules = true) by apply w4.
  set (R := nr (p_lm o lm)) in *. assert (HR : 0 < R) by (unfold R; rewrite p_lm_nr; destruct (o_open_begin o); lia).
  set (sp := r_stepPattern d) in *. set (w := r_windowFunction d) in *. unfold W. rewrite Ekw.
  rewrite Hd in E. unfold finish_any in E. destruct (choose _ _ _ _ _) as [jmin| | | |]; try discriminate. cbn [bind] in E.
  destruct (isnan (cmf (R - 1) jmin)) eqn:En; [discriminate|]. rewrite Hdo in E. cbn [bind] in E.
  destruct (backtrack _ _ _) as [mp2| | | |] eqn:Eb; try discriminate. cbn [bind] in E. rewrite Bool.andb_false_r in E. injection E as E.
  assert (Ej : r_jmin d = jmin) by (rewrite E; reflexivity). rewrite Ej in *.
  assert (Ed : r_distance d = cmf (R - 1) jmin) by (rewrite E; reflexivity). rewrite Ed.
  destruct (traced_exists L rules R (nc lm) _ _ _ _ _ (R - 1) jmin Hv HB ltac:(lia) Fj En) as [ks [vs [ts [T _]]]].
  rewrite (backtrack_path L rules sp R (nc lm) smf (Mat R (nc lm) dm) jmin ks vs ts w4 eq_refl eq_refl Rs T HR Fj) in Eb. injection Eb as <-.
  pose proof (traced_walk rules R (nc lm) _ _ _ _ _ Hv HB _ _ _ _ _ T ltac:(lia) Fj En) as Wt.
  assert (Wp : p_walk o lm rules win ks (vs ++ [(R - 1, jmin)]) (ts ++ [(R - 1, jmin)]) (R - 1, jmin) (cmf (R - 1) jmin)).
  { exact Wt. }
  exists (if o_open_begin o then shift_mapping (path_of ks vs ts (R - 1, jmin)) else path_of ks vs ts (R - 1, jmin)), ks, (vs ++ [(R - 1, jmin)]), (ts ++ [(R - 1, jmin)]).
  split. { rewrite E. unfold result. cbn [r_map]. destruct (o_open_begin o); reflexivity. }
  assert (Ee : end_cell (o_open_begin o) lm jmin = (R - 1, jmin)).
  { unfold end_cell, R. rewrite p_lm_nr. destruct (o_open_begin o); f_equal; lia. }
  rewrite Ee.
  split. { eapply (p_walk_adm L); [exact Hwi|exact Hv|exact Wp]. }
  split.
  { unfold path_of. destruct (o_open_begin o).
    - destruct (walk_first _ _ _ _ _ _ _ _ _ _ _ Wp) as [p [c0 [v' [t' [E1 [E2 _]]]]]]. assert (Q : forall V T, V = p :: v' -> T = p :: t' -> describes_open (shift_mapping (mapping_of ks V T)) ks V T) by (intros V0 T0 -> ->; apply shift_describes). exact (Q _ _ E1 E2).
    - repeat split; reflexivity. }
  split.
  - intros k1 k2 v1 v2 t1 q c Ek Ev Wq.
    destruct (traced_parts rules R (nc lm) _ _ _ _ _ Hv HB _ _ _ _ _ T ltac:(lia) Fj En k1 k2 v1 v2 Ek Ev) as [t2 [a [b [W2 [Hn [Ha [Hb U2]]]]]]].
    { unfold admissible in Wq. destruct (o_open_begin o); eapply walk_len; exact Wq. }
    assert (Wa : admissible (o_open_begin o) rules lm w (o_window_args o) k1 v1 t2 (a, b) (cmf a b)).
    { eapply (p_walk_adm L); [exact Hwi|exact Hv|exact W2]. }
    assert (EQ : q = (a, b) /\ c = cmf a b).
    { unfold admissible in Wq, Wa. destruct (o_open_begin o); destruct (walk_det _ _ _ _ _ _ _ _ _ _ _ Wa _ _ _ Wq) as [_ [E1 E2]]; auto. }
    destruct EQ as [-> ->]. split; [exact U2|]. intros k' v' t' c' W' U'.
    destruct (dp_optimal L rules R (nc lm) _ _ _ _ _ Hv HB a b Ha Hb) as [D1 _]. destruct (D1 Hn) as [_ M]. eapply M; [|exact U'].
    eapply (adm_p_walk L); [exact Hwi|exact Hv|exact W'|apply U'].
  - intros ks' vs' ts' c' W' U' LT.
    eapply (traced_lower rules R (nc lm) _ _ _ _ _ Hv HB ks' vs' ts' (R - 1, jmin) c').
    + eapply (adm_p_walk L); [exact Hwi|exact Hv|exact W'|apply U'].
    + exact U'.
    + intros k1 k2 v1 v2 t1 q c Ek Ev Wq.
      destruct (LT k1 k2 v1 v2 t1 q c Ek Ev) as [A B]; [eapply (p_walk_adm L); [exact Hwi|exact Hv|exact Wq]|].
      split; [exact A|]. intros k3 v3 t3 c3 W3 U3. eapply B; [eapply (p_walk_adm L); [exact Hwi|exact Hv|exact W3]|exact U3].
    + exact T.
Qed.
End Tie.

(** ** Exact arithmetic: the cheapest alignments are cheapest throughout *)
Lemma fold_fin (cost : nat -> nat -> NumQ) (i j : nat) (l : list (nat * nat * NumQ)) : forall (c : NumQ) (z : Qc),
  fold_left (fun (c : NumQ) a => macc c (snd a) (cost (i - fst (fst a)) (j - snd (fst a)))) l c = XFin z ->
  exists s z0 : Qc, c = XFin z0 /\ z = (z0 + s)%Qc /\
    (forall z2 : Qc, fold_left (fun (c : NumQ) a => macc c (snd a) (cost (i - fst (fst a)) (j - snd (fst a)))) l (XFin z2 : NumQ) = XFin (z2 + s)%Qc) /\
    fold_left (fun (c : NumQ) a => macc c (snd a) (cost (i - fst (fst a)) (j - snd (fst a)))) l (XNInf : NumQ) = XNInf.
Proof.
  induction l as [|a l IH]; intros c z H; cbn [fold_left] in *.
  - exists (Q2Qc 0), z. repeat split; auto; [ring|]. intros z2. f_equal. ring.
  - destruct (IH _ _ H) as [s [z0 [E1 [E2 [E3 E4]]]]].
    change (xq_add c (xq_mul (snd a) (cost (i - fst (fst a)) (j - snd (fst a)))) = XFin z0) in E1.
    destruct (xq_mul (snd a) (cost (i - fst (fst a)) (j - snd (fst a)))) as [| | |pr] eqn:Ep; destruct c as [| | |cc]; try discriminate E1.
    cbn [xq_add] in E1. injection E1 as E1.
    exists (pr + s)%Qc, cc. split; [reflexivity|]. split; [rewrite E2, <- E1; ring|]. split.
    + intros z2. change (@macc NumQ (XFin z2) (snd a) (cost (i - fst (fst a)) (j - snd (fst a)))) with
        (xq_add (XFin z2) (xq_mul (snd a) (cost (i - fst (fst a)) (j - snd (fst a))))).
      rewrite Ep. cbn [xq_add]. rewrite E3. f_equal. ring.
    + change (@macc NumQ XNInf (snd a) (cost (i - fst (fst a)) (j - snd (fst a)))) with
        (xq_add XNInf (xq_mul (snd a) (cost (i - fst (fst a)) (j - snd (fst a))))).
      rewrite Ep. cbn [xq_add]. exact E4.
Qed.

Section Splice.
Variables (rules : list (rule NumQ)) (cost : nat -> nat -> NumQ) (n m : nat)
          (source : nat -> nat -> option NumQ) (allowed : nat -> nat -> Prop).
Notation W := (walk rules cost n m source allowed).

(** Another way to a cell of a walk, followed by the rest of the walk. *)
Lemma splice ks vs ts q c : W ks vs ts q c -> forall z k1 k2 v1 v2 t1 q1 c1, c = XFin z -> ks = k1 ++ k2 -> vs = v1 ++ v2 -> W k1 v1 t1 q1 c1 ->
  exists s z1 : Qc, c1 = XFin z1 /\ z = (z1 + s)%Qc /\
    forall k' v' t' c', W k' v' t' q1 c' -> exists v3 t3,
      (forall z2, c' = XFin z2 -> W (k' ++ k2) v3 t3 q (XFin (z2 + s)%Qc)) /\
      (c' = XNInf -> W (k' ++ k2) v3 t3 q (XNInf : NumQ)).
Proof.
  induction 1 as [i j c Hs Hi Hj|ks vs ts i0 j0 c k r Hw IH Hk Hi Hj Ha]; intros z k1 k2 v1 v2 t1 q1 c1 Ez Ek Ev H1.
  - destruct (walk_part rules cost n m source allowed _ _ _ _ _ (walk_start rules cost n m source allowed i j c Hs Hi Hj) _ _ _ _ _ _ _ Ek Ev H1)
      as [[-> [-> [-> ->]]]|[ks0 [? [? [? [? [? [k [? [? [E _]]]]]]]]]]]; [|destruct ks0; discriminate].
    exists (Q2Qc 0), z. split; [exact Ez|]. split; [ring|]. intros k' v' t' c' W'. exists v', t'. rewrite app_nil_r.
    split; [intros z2 ->; replace (z2 + Q2Qc 0)%Qc with z2 by ring; exact W'|intros ->; exact W'].
  - pose proof (walk_step rules cost n m source allowed _ _ _ _ _ _ k r Hw Hk Hi Hj Ha) as Wf.
    destruct k2 as [|b k2 _] using rev_ind.
    { destruct (walk_part _ _ _ _ _ _ _ _ _ _ _ Wf _ _ _ _ _ _ _ Ek Ev H1) as [[_ [-> [-> ->]]]|[? [? [? [? [? [? [? [? [k2' [? [? [? [? [? [? [? [? [? [? [C _]]]]]]]]]]]]]]]]]]]]];
        [|destruct k2'; discriminate].
      exists (Q2Qc 0), z. split; [exact Ez|]. split; [ring|]. intros k' v' t' c' W'. exists v', t'. rewrite app_nil_r.
      split; [intros z2 ->; replace (z2 + Q2Qc 0)%Qc with z2 by ring; exact W'|intros ->; exact W']. }
    pose proof (walk_len _ _ _ _ _ _ _ _ _ _ _ Wf) as Hl. pose proof (walk_len _ _ _ _ _ _ _ _ _ _ _ H1) as Hl1.
    destruct v2 as [|v v2 _] using rev_ind.
    { exfalso. rewrite app_nil_r in Ev. rewrite Ev, Hl1, Ek, !app_length in Hl. cbn in Hl. lia. }
    rewrite app_assoc in Ek, Ev. apply app_inj_tail in Ek, Ev. destruct Ek as [Ek <-], Ev as [Ev <-].
    unfold charge in Ez. destruct (fold_fin _ _ _ _ _ _ Ez) as [s0 [z0 [E1 [E2 [E3 E4]]]]].
    destruct (IH z0 k1 k2 v1 v2 t1 q1 c1 E1 Ek Ev H1) as [s [z1 [F1 [F2 F3]]]].
    exists (s + s0)%Qc, z1. split; [exact F1|]. split; [rewrite E2, F2; ring|].
    intros k' v' t' c' W'. destruct (F3 _ _ _ _ W') as [v3 [t3 [G1 G2]]].
    exists (v3 ++ [(i0 + r_di r, j0 + r_dj r)]), (t3 ++ inner_points r (i0 + r_di r) (j0 + r_dj r) ++ [(i0 + r_di r, j0 + r_dj r)]).
    split.
    + intros z2 Ec. specialize (G1 z2 Ec). pose proof (walk_step rules cost n m source allowed _ _ _ _ _ _ k r G1 Hk Hi Hj Ha) as Wg.
      unfold charge in Wg. rewrite E3 in Wg. rewrite <- app_assoc in Wg. replace (z2 + (s + s0))%Qc with (z2 + s + s0)%Qc by ring. exact Wg.
    + intros Ec. specialize (G2 Ec). pose proof (walk_step rules cost n m source allowed _ _ _ _ _ _ k r G2 Hk Hi Hj Ha) as Wg.
      unfold charge in Wg. rewrite E4 in Wg. rewrite <- app_assoc in Wg. exact Wg.
Qed.

Lemma cheapest_throughout ks vs ts q z : W ks vs ts q (XFin z) ->
  (forall ks' vs' ts' c', W ks' vs' ts' q c' -> usable ks' c' -> leb (XFin z : NumQ) c' = true) ->
  least_throughout W ks vs.
Proof.
  intros Hw M k1 k2 v1 v2 t1 q1 c1 Ek Ev H1.
  destruct (splice _ _ _ _ _ Hw z k1 k2 v1 v2 t1 q1 c1 eq_refl Ek Ev H1) as [s [z1 [-> [Ez F]]]].
  split; [split; [reflexivity|intros _; reflexivity]|].
  intros k' v' t' c' W' U'. destruct (F _ _ _ _ W') as [v3 [t3 [G1 G2]]].
  destruct c' as [| | |z2].
  - destruct U' as [U' _]. discriminate U'.
  - specialize (M _ _ _ _ (G2 eq_refl)). assert (C : leb (XFin z : NumQ) (XNInf : NumQ) = true) by (apply M; split; [reflexivity|intros _; reflexivity]). discriminate C.
  - reflexivity.
  - specialize (M _ _ _ _ (G1 z2 eq_refl)). assert (C : xq_leb (XFin z) (XFin (z2 + s)) = true) by (apply M; split; [reflexivity|intros _; reflexivity]).
    apply xq_leb_fin in C. apply xq_leb_fin. rewrite Ez in C. clear -C. qc2q. lra.
Qed.
End Splice.

(** In exact arithmetic the returned alignment is the first of all the cheapest ones. *)
Theorem returned_first_exact cdist x y o (lm : mat NumQ) d rules : costs_of cdist x y lm ->
  dtw cdist x y o = Ok d -> pattern_rules (r_stepPattern d) rules -> 0 < nr lm -> o_distance_only o = false ->
  isfin (r_distance d) = true ->
  let W := admissible (o_open_begin o) rules lm (r_windowFunction d) (r_windowArgs d) in
  exists mp ks vs ts, r_map d = Some mp /\ W ks vs ts (end_cell (o_open_begin o) lm (r_jmin d)) (r_distance d) /\
    (if o_open_begin o then describes_open mp ks vs ts else describes mp ks vs ts) /\
    forall ks' vs' ts', W ks' vs' ts' (end_cell (o_open_begin o) lm (r_jmin d)) (r_distance d) ->
      parts_with_lower ks ks'.
Proof.
  intros HC Hd Hp Hq Hdo Hf W. destruct (returned_first NumQ_laws _ _ _ _ _ _ _ HC Hd Hp Hq Hdo) as [mp [ks [vs [ts [Em [Wk [D [_ F]]]]]]]].
  exists mp, ks, vs, ts. split; [exact Em|]. split; [exact Wk|]. split; [exact D|]. intros ks' vs' ts' W'.
  destruct (dtw_best NumQ_laws _ _ _ _ _ _ _ HC Hd Hp) as [_ M].
  remember (r_distance d) as c eqn:Ec. clear Ec. destruct c as [| | |z]; try discriminate Hf.
  eapply F; [exact W'|split; [reflexivity|intros _; reflexivity]|].
  unfold W, admissible in *. destruct (o_open_begin o); eapply cheapest_throughout; eauto.
Qed.

(** ** A series and itself *)
Section Self.
Context {N : Num}.
Variable L : NumLaws N.

Definition diag (t : nat) : list point := map (fun i => (i, i)) (seq 0 (S t)).
Lemma diag_next t : diag (S t) = diag t ++ [(S t, S t)].
Proof. unfold diag. rewrite (seq_S (S t)), map_app. reflexivity. Qed.

Lemma app_len_inj {A} (a b c e : list A) : List.length a = List.length b -> a ++ c = b ++ e -> a = b.
Proof.
  revert b. induction a as [|x a IH]; intros [|y b] Hl H; cbn in *; try discriminate; [reflexivity|].
  injection H as -> H. f_equal. apply IH; auto.
Qed.
Lemma diag_prefix u t v1 v2 : t <= u -> diag u = v1 ++ v2 -> List.length v1 = S t -> v1 = diag t.
Proof.
  intros Ht H Hl. unfold diag in H. replace (S u) with (S t + (u - t)) in H by lia. rewrite seq_app, map_app in H.
  symmetry in H. eapply app_len_inj; [|exact H]. unfold diag. rewrite Hl, map_length, seq_length. reflexivity.
Qed.

Lemma diagonal_inner (r : rule N) i j : diagonal_rule r -> inner_points r i j = [].
Proof.
  intros [_ [_ D]]. unfold inner_points. induction (r_add r) as [|a l IH]; [reflexivity|]. cbn [filter].
  destruct (D a (or_introl eq_refl)) as [E _]. rewrite E. cbn. apply IH. intros b Hb. apply D. right. exact Hb.
Qed.

Lemma diag_walk rules (lm : mat N) w kw k r : rule_no rules k = Some r -> diagonal_rule r ->
  (forall i, i < nr lm -> i < nc lm -> eqb (cell lm i i) (ofZ 0) = true) ->
  (forall i, 0 < i -> i < nr lm -> i < nc lm -> in_window w kw (nr lm) (nc lm) i i) ->
  forall t, t < nr lm -> t < nc lm ->
  exists c, closed_walk rules lm w kw (repeat k t) (diag t) (diag t) (t, t) c /\ eqb c (ofZ 0) = true.
Proof.
  intros Hk Hd Hz Hw. pose proof Hd as [D1 [D2 D3]]. induction t as [|t IH]; intros H1 H2.
  - exists (cell lm 0 0). split; [|apply Hz; assumption]. unfold closed_walk. constructor; auto.
  - destruct IH as [c [W E]]; [lia|lia|].
    replace (repeat k (S t)) with (repeat k t ++ [k]) by (symmetry; apply repeat_cons).
    pose proof (walk_step _ _ _ _ _ _ _ _ _ _ _ _ _ _ W Hk) as Ws. rewrite D1, D2, (diagonal_inner r _ _ Hd) in Ws. cbn [app] in Ws.
    replace (t + 1) with (S t) in Ws by lia. rewrite diag_next. eexists. split; [apply Ws; auto; apply Hw; lia|].
    unfold charge. apply (chg_zero L); [|exact D3|exact E]. apply Hz; lia.
Qed.

Theorem identity_alignment cdist x y o (lm : mat N) sp rules w r :
  well_posed cdist x y o lm sp rules w ->
  o_open_begin o = false -> o_open_end o = false -> o_distance_only o = false -> nr lm = nc lm ->
  nonneg_weights rules -> nonneg_costs lm ->
  rule_no rules 1 = Some r -> diagonal_rule r ->
  (forall i, i < nr lm -> eqb (cell lm i i) (ofZ 0) = true) ->
  (forall i, 0 < i -> i < nr lm -> in_window w (o_window_args o) (nr lm) (nc lm) i i) ->
  exists d, dtw cdist x y o = Ok d /\ r_map d = Some (identity_map (nr lm)).
Proof.
  intros WP Hb He Hdo Hsq Hnw Hnc Hk Hr Hz Hw.
  pose proof (wp_query _ _ _ _ _ _ _ _ WP) as Q. pose proof (wp_costs _ _ _ _ _ _ _ _ WP) as HC.
  pose proof (costs_of_wf _ _ _ _ HC) as Hwf.
  assert (DW : forall t, t < nr lm -> exists c, closed_walk rules lm w (o_window_args o) (repeat 1 t) (diag t) (diag t) (t, t) c /\ eqb c (ofZ 0) = true).
  { intros t Ht. apply (diag_walk rules lm w (o_window_args o) 1 r Hk Hr); auto; lia. }
  destruct (dtw_identity L _ _ _ _ _ _ _ _ _ _ WP Hb He Hsq Hnw Hnc Hk Hr Hz Hw) as [d [Hd _]].
  exists d. split; [exact Hd|].
  assert (F23 : r_stepPattern d = sp /\ r_windowFunction d = w).
  { destruct (dtw_closed_end_iff L _ _ _ _ _ _ _ _ WP He) as [[F _]|[d' [F [F2 [F3 _]]]]]; [congruence|].
    assert (d' = d) by congruence. subst d'. auto. }
  destruct F23 as [F2 F3].
  assert (Hp : pattern_rules (r_stepPattern d) rules) by (rewrite F2; apply WP).
  destruct (dtw_fields L _ _ _ _ _ _ _ HC Hd Hp) as [_ [_ [_ [_ [_ [Ekw [_ [_ [Fj _]]]]]]]]].
  destruct (returned_first L _ _ _ _ _ _ _ HC Hd Hp Q Hdo) as [mp [ks [vs [ts [Em [W [D [_ F]]]]]]]].
  rewrite Em. rewrite Hb, F3, Ekw, (Fj He) in *. unfold admissible, end_cell in *. rewrite <- Hsq in *.
  destruct (DW (nr lm - 1) ltac:(lia)) as [c0 [W0 E0]].
  assert (LW : parts_with_lower ks (repeat 1 (nr lm - 1))).
  { eapply F; [exact W0|apply (eq_zero_usable L); exact E0|].
    intros k1 k2 v1 v2 t1 q c Ek Ev W1.
    assert (Ek1 : k1 = repeat 1 (List.length k1)).
    { apply (f_equal (firstn (List.length k1))) in Ek. rewrite firstn_app, Nat.sub_diag, firstn_all in Ek. cbn [firstn] in Ek. rewrite app_nil_r in Ek.
      rewrite <- Ek at 1. apply (f_equal (@List.length nat)) in Ek. rewrite firstn_length, repeat_length in Ek. clear -Ek.
      remember (List.length k1) as t. clear Heqt. assert (Ht : t <= nr lm - 1) by lia. clear Ek. revert t Ht. generalize (nr lm - 1) as u.
      intros u. induction u as [|u IH]; intros [|t] Ht; cbn; try reflexivity; [lia|]. f_equal. apply IH. lia. }
    set (t := List.length k1) in *.
    assert (Ht : t <= nr lm - 1).
    { apply (f_equal (@List.length nat)) in Ek. rewrite app_length, repeat_length in Ek. fold t in Ek. lia. }
    destruct (DW t ltac:(lia)) as [ct [Wt Et]].
    assert (Ev1 : v1 = diag t).
    { pose proof (walk_len _ _ _ _ _ _ _ _ _ _ _ W1) as Hl. fold t in Hl.
      apply (diag_prefix (nr lm - 1) t v1 v2); auto. }
    rewrite Ek1, Ev1 in W1. destruct (walk_det _ _ _ _ _ _ _ _ _ _ _ Wt _ _ _ W1) as [_ [-> ->]].
    split; [apply (eq_zero_usable L); exact Et|]. intros k' v' t' c' W' U'.
    apply (law_le_trans _ L) with (ofZ 0); [apply (law_eq_le _ L); exact Et|].
    eapply (adm_nonneg L false); eauto. }
  assert (Hks : ks = repeat 1 (nr lm - 1)).
  { destruct LW as [->|[u [a [u' [b [common [E1 [E2 Hab]]]]]]]]; [reflexivity|]. exfalso.
    assert (b = 1). { apply (repeat_spec (nr lm - 1) 1). rewrite E2. apply in_or_app. right. left. reflexivity. }
    assert (Ha : exists r0, rule_no rules a = Some r0).
    { rewrite E1 in W. clear -W. remember (u ++ a :: common) as l eqn:El. revert u common El.
      induction W as [|ks vs ts i0 j0 c k r0 Hw IH Hk Hi Hj Ha]; intros u common El; [destruct u; discriminate|].
      destruct common as [|b common _] using rev_ind.
      - apply app_inj_tail in El. destruct El as [_ ->]. eauto.
      - rewrite app_comm_cons, app_assoc in El. apply app_inj_tail in El. destruct El as [El _]. eapply IH; eauto. }
    destruct Ha as [r0 Ha]. assert (a = 0) by lia. subst a. discriminate Ha. }
  subst ks. destruct (DW (nr lm - 1) ltac:(lia)) as [cd [Wd _]].
  assert (SAME : vs = diag (nr lm - 1) /\ ts = diag (nr lm - 1)).
  { assert (G : forall t vs ts q c, closed_walk rules lm w (o_window_args o) (repeat 1 t) vs ts q c -> vs = diag t /\ ts = diag t /\ q = (t, t)).
    { clear -Hk Hr. induction t as [|t IH]; intros vs ts q c W.
      - inversion W as [i j c1 Hs Hi Hj|ks0 vs0 ts0 i0 j0 c1 k r0 W1 Hk0 Hi Hj Ha E]; subst; [|destruct ks0; discriminate].
        unfold closed_source in Hs. destruct ((i =? 0) && (j =? 0)) eqn:E; [|discriminate]. assert (i = 0) by lia. assert (j = 0) by lia. subst. auto.
      - replace (repeat 1 (S t)) with (repeat 1 t ++ [1]) in W by (symmetry; apply repeat_cons).
        inversion W as [i j c1 Hs Hi Hj E|ks0 vs0 ts0 i0 j0 c1 k r0 W1 Hk0 Hi Hj Ha E]; subst; [destruct (repeat 1 t); discriminate|].
        apply app_inj_tail in E. destruct E as [-> ->]. assert (r0 = r) by congruence. subst r0.
        destruct (IH _ _ _ _ W1) as [-> [-> E]]. injection E as -> ->. pose proof Hr as [D1 [D2 _]]. rewrite (diagonal_inner r _ _ Hr), D1, D2.
        replace (t + 1) with (S t) by lia. rewrite diag_next. auto. }
    destruct (G _ _ _ _ _ W) as [-> [-> _]]. auto. }
  destruct SAME as [-> ->]. f_equal. destruct mp as [a1 a2 a3 a4 a5]. destruct D as [E1 [E2 [E3 [E4 E5]]]]. cbn in E1, E2, E3, E4, E5. unfold identity_map.
  assert (Ed1 : map query_ix (diag (nr lm - 1)) = map Z.of_nat (seq 0 (nr lm))).
  { unfold diag. rewrite map_map. replace (S (nr lm - 1)) with (nr lm) by lia. reflexivity. }
  assert (Ed2 : map ref_ix (diag (nr lm - 1)) = map Z.of_nat (seq 0 (nr lm))).
  { unfold diag. rewrite map_map. replace (S (nr lm - 1)) with (nr lm) by lia. reflexivity. }
  assert (Er : map Z.of_nat (repeat 1 (nr lm - 1)) = repeat 1%Z (nr lm - 1)).
  { generalize (nr lm - 1). intros u. induction u as [|u IH]; [reflexivity|]. cbn. f_equal. exact IH. }
  f_equal; [exact (eq_trans E1 Ed1)|exact (eq_trans E2 Ed2)|exact (eq_trans E3 Ed1)|exact (eq_trans E4 Ed2)|exact (eq_trans E5 Er)].
Qed.

Theorem identity_alignment_named cdist x y o (lm : mat N) k sp rules w :
  well_posed cdist x y o lm sp rules w ->
  lookup k pattern_table = Some sp -> In k diagonal_first ->
  o_open_begin o = false -> o_open_end o = false -> o_distance_only o = false -> nr lm = nc lm -> nonneg_costs lm ->
  (forall i, i < nr lm -> eqb (cell lm i i) (ofZ 0) = true) ->
  (forall i, 0 < i -> i < nr lm -> in_window w (o_window_args o) (nr lm) (nc lm) i i) ->
  exists d, dtw cdist x y o = Ok d /\ r_map d = Some (identity_map (nr lm)).
Proof.
  intros WP Hk Hin Hb He Hdo Hsq Hc Hz Hw. destruct (predefined_rules L _ _ Hk) as [l [El Hl]].
  assert (Hneg : ~ In k negative_names) by (intros [<-|[]]; cbn in Hin; repeat (destruct Hin as [Hin|Hin]; [discriminate Hin|]); exact Hin).
  assert (HD : exists wr l', l = wr :: l' /\ wdiagonal wr = true).
  { assert (G : forallb (fun k => match lookup k predefined with Some (r :: _) => wdiagonal r | _ => false end) diagonal_first = true) by reflexivity.
    rewrite forallb_forall in G. specialize (G _ Hin). rewrite El in G. destruct l as [|wr l']; [discriminate|]. eauto. }
  destruct HD as [wr [l' [-> Hdg]]].
  assert (WP' : well_posed cdist x y o lm sp (productions (wr :: l')) w).
  { destruct WP as [A1 A2 A3 A4 A5 A6 A7 A8 A9 A10]. constructor; assumption. }
  eapply (identity_alignment _ _ _ _ _ _ _ _ (production wr) WP'); try eassumption.
  - eapply (predefined_nonneg L); eassumption.
  - reflexivity.
  - unfold wdiagonal in Hdg. apply andb_prop in Hdg. destruct Hdg as [Hd H3].
    split; [cbn [production r_di]; lia|]. split; [cbn [production r_dj]; lia|].
    intros a Ha. cbn [production r_add] in Ha. apply in_map_iff in Ha. destruct Ha as [b [<- Hb2]]. cbn [fst snd].
    rewrite forallb_forall in H3. specialize (H3 _ Hb2). destruct b as [[p1 p2] q2]. cbn [fst snd] in *.
    apply andb_prop in H3. destruct H3 as [H3 H4]. split; [f_equal; lia|]. apply (weight_fin L). exact H4.
Qed.
End Self.

Section SelfMvm.
Context {N : Num}.
Variable L : NumLaws N.
Theorem identity_alignment_mvm cdist x y o (lm : mat N) e rules w :
  1 <= e -> (8 * Z.of_nat e <= INT_MAX)%Z ->
  well_posed cdist x y o lm (mvmStepPattern e) rules w ->
  o_open_begin o = false -> o_open_end o = false -> o_distance_only o = false -> nr lm = nc lm -> nonneg_costs lm ->
  (forall i, i < nr lm -> eqb (cell lm i i) (ofZ 0) = true) ->
  (forall i, 0 < i -> i < nr lm -> in_window w (o_window_args o) (nr lm) (nc lm) i i) ->
  exists d, dtw cdist x y o = Ok d /\ r_map d = Some (identity_map (nr lm)).
Proof.
  intros He1 He2 WP Hb He Hdo Hsq Hc Hz Hw. pose proof (mvm_rules L e He1 He2) as Hl.
  assert (WP' : well_posed cdist x y o lm (mvmStepPattern e) (productions (mvm_productions e)) w).
  { destruct WP as [A1 A2 A3 A4 A5 A6 A7 A8 A9 A10]. constructor; assumption. }
  destruct e as [|e]; [lia|].
  assert (ADD : forall r, In r (@productions N (mvm_productions (S e))) -> forall a, In a (r_add r) -> fst a = (0, 0) /\ snd a = ofZ 1).
  { intros r Hr a Ha. unfold productions in Hr. apply in_map_iff in Hr. destruct Hr as [wr [<- Hwr]]. unfold mvm_productions in Hwr.
    apply in_map_iff in Hwr. destruct Hwr as [q [<- _]]. cbn in Ha. destruct Ha as [<-|[]]. split; reflexivity. }
  eapply (identity_alignment L _ _ _ _ _ _ _ _ _ WP'); try eassumption.
  - intros r a Hr Ha. rewrite (proj2 (ADD r Hr a Ha)). rewrite (law_le_ofZ _ L); [reflexivity|lia|lia].
  - reflexivity.
  - split; [reflexivity|]. split; [reflexivity|]. intros a Ha. destruct (ADD _ (or_introl eq_refl) a Ha) as [E1 E2].
    split; [exact E1|]. rewrite E2. apply (law_fin_ofZ _ L). lia.
Qed.
End SelfMvm.
