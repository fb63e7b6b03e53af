(** Thm19.v - the data drawn by the plotting functions, and the command line tool
    (C45 to C50). *)
From Coq Require Import ZifyBool ZifyNat.
From Verif Require Import Base Num StepPattern Window Core Backtrack Dtw Spec Api Tables Vocab Terms
  CoreProof DtwProof ApiProof WalkGeom ApiThms Thm1 Thm3 Thm10 Derived Warp WarpSpec WarpProof NumQ NumQLaws Laws2 Thm16 Thm17 Thm18 Plot Laws3.
Open Scope string_scope.
Open Scope list_scope.
Open Scope nat_scope.

Section Plots.
Context {N : Num} (L : NumLaws N).

(** ** What is kept *)
Lemma mget_drop {A} (g : mat A) i j : 0 < nr g -> mget (drop_first_row g) i j = mget g (S i) j.
Proof.
  intros H. unfold mget, drop_first_row. cbn [nr nc dat].
  destruct (Nat.ltb_spec i (nr g - 1)), (Nat.ltb_spec (S i) (nr g)); try lia; [|reflexivity]. cbn [andb].
  destruct (j <? nc g); [|reflexivity].
  replace (S i * nc g + j) with (nc g + (i * nc g + j)) by lia. generalize (i * nc g + j) as t. generalize (dat g) as l.
  generalize (nc g) as k. induction k as [|k IH]; intros l t; [reflexivity|]. destruct l; cbn; [destruct t; reflexivity|apply IH].
Qed.
Lemma drop_wf {A} (g : mat A) : wf_mat g -> wf_mat (drop_first_row g).
Proof. unfold wf_mat, drop_first_row. cbn [nr nc dat]. intros H. rewrite skipn_length, H. nia. Qed.

Theorem kept_fields cdist x y o (lm : mat N) d rules : costs_of cdist x y lm ->
  dtw cdist x y o = Ok d -> pattern_rules (r_stepPattern d) rules -> o_keep_internals o = true ->
  r_localCostMatrix d = Some lm /\
  (exists cm dm, r_costMatrix d = Some cm /\ nr cm = nr lm /\ nc cm = nc lm /\ wf_mat cm /\
    r_directionMatrix d = Some dm /\ nr dm = nr lm /\ nc dm = nc lm /\ wf_mat dm /\
    (0 < nr lm -> mget cm (nr lm - 1) (r_jmin d) = Some (r_distance d))) /\
  match y with
  | None => r_query d = None /\ r_reference d = None
  | Some y => exists xm ym, matrix_of (nd_val x) = Some xm /\ matrix_of (nd_val y) = Some ym /\
                r_query d = Some (Nd2 xm) /\ r_reference d = Some (Nd2 ym)
  end.
Proof.
  intros HC H Hp Hk.
  destruct (dtw_ok_inv L _ _ _ _ _ _ _ HC H Hp) as [_ [_ [[Sn [Sm Ss]] [_ Q]]]].
  destruct Q as [cmx [dmx [cmf [smf [win [ks [vs [ts [jmin [S [_ [Hjm [_ [_ [_ [_ E]]]]]]]]]]]]]]]].
  destruct S as [[D1 [D2 [D3 D4]]] Hcm Hsm _ _]. rewrite <- rows_used_p in *. unfold rows_used in *.
  assert (W1 : wf_mat cmx) by (unfold wf_mat; rewrite D1, D2; apply Hcm).
  assert (W2 : wf_mat dmx) by (unfold wf_mat; rewrite D3, D4; apply Hsm).
  assert (Hg : forall i, i < nr cmx -> mget cmx i jmin = Some (cmf i jmin)).
  { intros i Hi. apply mget_reps; [rewrite D1, D2; exact Hcm|exact Hi|lia]. }
  rewrite E. cbn [result r_localCostMatrix r_costMatrix r_directionMatrix r_jmin r_distance r_query r_reference]. rewrite Hk.
  destruct (o_open_begin o).
  - rewrite drop_padded. split; [reflexivity|]. split.
    + exists (drop_first_row cmx), (drop_first_row dmx). cbn [nr nc drop_first_row].
      repeat split; try lia; try (apply drop_wf; assumption).
      intros Hn. rewrite mget_drop by lia. rewrite Hg by lia. f_equal. f_equal. lia.
    + inversion HC; subst; cbn [qr_of option_map fst snd]; [split; reflexivity|].
      exists xm, ym. split; [assumption|]. split; [assumption|].
      unfold matrix_of, as_column in *. destruct (nd_val x), (nd_val y0); try discriminate; cbn; repeat match goal with Q : Some _ = Some _ |- _ => injection Q as <- end; split; reflexivity.
  - split; [reflexivity|]. split.
    + exists cmx, dmx. repeat split; try lia; try assumption.
      intros Hn. rewrite Hg by lia. reflexivity.
    + inversion HC; subst; cbn [qr_of option_map fst snd]; [split; reflexivity|].
      exists xm, ym. split; [assumption|]. split; [assumption|].
      unfold matrix_of, as_column in *. destruct (nd_val x), (nd_val y0); try discriminate; cbn; repeat match goal with Q : Some _ = Some _ |- _ => injection Q as <- end; split; reflexivity.
Qed.

(** ** Density plot *)
Lemma normalize_spec norm (cm : mat N) : wf_mat cm -> norm <> "NA" ->
  exists g, normalize_cells norm cm = Ok g /\ nr g = nr cm /\ nc g = nc cm /\ wf_mat g /\
    forall i j v, mget cm i j = Some v -> mget g i j = Some (normalized norm (i + 1) j v).
Proof.
  intros Hw Hn. unfold normalize_cells, normalized. destruct (String.eqb_spec norm "NA"); [contradiction|].
  assert (G : forall f : Z -> Z -> Z, exists g,
    @Ok (mat N) (Mat (nr cm) (nc cm) (zip_with (fun v ij => div v (ofZ (f (Z.of_nat (fst ij)) (Z.of_nat (snd ij))))) (dat cm) (indices (nr cm) (nc cm)))) = Ok g /\
    nr g = nr cm /\ nc g = nc cm /\ wf_mat g /\ forall i j v, mget cm i j = Some v -> mget g i j = Some (div v (ofZ (f (Z.of_nat i) (Z.of_nat j))))).
  { intros f. eexists. split; [reflexivity|]. cbn [nr nc]. split; [reflexivity|]. split; [reflexivity|]. split.
    - unfold wf_mat in *. cbn [nr nc dat]. rewrite zip_with_length, Hw, indices_length. lia.
    - intros i j v. unfold mget. cbn [nr nc dat]. destruct (Nat.ltb_spec i (nr cm)), (Nat.ltb_spec j (nc cm)); try discriminate. cbn [andb].
      intros Hv. rewrite (zip_with_nth (fun v ij => div v (ofZ (f (Z.of_nat (fst ij)) (Z.of_nat (snd ij))))) _ _ _ v (i, j)); [reflexivity|exact Hv|apply indices_nth; assumption]. }
  destruct (String.eqb norm "N") eqn:E1; [|destruct (String.eqb norm "N+M") eqn:E2; [|destruct (String.eqb norm "M") eqn:E3]].
  - destruct (G (fun row _ => (row + 1)%Z)) as [g [A [B [C [D F]]]]]. exists g. repeat split; try assumption.
    intros i j v Hv. apply String.eqb_eq in E1. subst norm. rewrite (F _ _ _ Hv).
    change (String.eqb "N" "N+M") with false. change (String.eqb "N" "N") with true. cbn iota. do 3 f_equal; lia.
  - destruct (G (fun row col => (row + col + 2)%Z)) as [g [A [B [C [D F]]]]]. exists g. repeat split; try assumption.
    intros i j v Hv. rewrite (F _ _ _ Hv). do 3 f_equal; lia.
  - destruct (G (fun _ col => (col + 1)%Z)) as [g [A [B [C [D F]]]]]. exists g. repeat split; try assumption.
    intros i j v Hv. rewrite (F _ _ _ Hv). do 3 f_equal; lia.
  - exists cm. repeat split; try assumption. intros i j v Hv. exact Hv.
Qed.

Theorem density_plain cdist x y o (lm : mat N) d rules : costs_of cdist x y lm ->
  dtw cdist x y o = Ok d -> pattern_rules (r_stepPattern d) rules -> o_keep_internals o = true ->
  o_distance_only o = false ->
  exists mp cm, r_map d = Some mp /\ r_costMatrix d = Some cm /\
    dtwPlotDensity d false = Ok (mkDensity cm (combine (index1 mp) (index2 mp))).
Proof.
  intros HC H Hp Hk Hd. destruct (kept_fields _ _ _ _ _ _ _ HC H Hp Hk) as [_ [[cm [dm [Ec _]]] _]].
  destruct (dtw_fields L _ _ _ _ _ _ _ HC H Hp) as [_ [_ [_ [_ [_ [_ [_ [_ [_ [_ [_ [_ M]]]]]]]]]]]].
  destruct (r_map d) as [mp|] eqn:Em; [|destruct M as [_ M]; rewrite M in Hd by reflexivity; discriminate].
  exists mp, cm. unfold dtwPlotDensity. rewrite Ec, Em. auto.
Qed.

Theorem density_normalized cdist x y o (lm : mat N) d rules : costs_of cdist x y lm ->
  dtw cdist x y o = Ok d -> pattern_rules (r_stepPattern d) rules -> o_keep_internals o = true ->
  o_distance_only o = false -> hint (r_stepPattern d) <> "NA" -> 0 < nr lm ->
  exists mp cm g, r_map d = Some mp /\ r_costMatrix d = Some cm /\
    dtwPlotDensity d true = Ok (mkDensity g (combine (index1 mp) (index2 mp))) /\
    nr g = nr lm /\ nc g = nc lm /\
    (forall i j v, mget cm i j = Some v -> mget g i j = Some (normalized (hint (r_stepPattern d)) (i + 1) j v)) /\
    mget g (nr lm - 1) (r_jmin d) = Some (r_normalizedDistance d).
Proof.
  intros HC H Hp Hk Hd Hh Hn. destruct (kept_fields _ _ _ _ _ _ _ HC H Hp Hk) as [_ [[cm [dm [Ec [C1 [C2 [C3 [_ [_ [_ [_ C4]]]]]]]]]] _]].
  destruct (dtw_fields L _ _ _ _ _ _ _ HC H Hp) as [EN [_ [_ [_ [_ [_ [_ [_ [_ [Enorm [_ [_ M]]]]]]]]]]]].
  destruct (r_map d) as [mp|] eqn:Em; [|destruct M as [_ M]; rewrite M in Hd by reflexivity; discriminate].
  destruct (normalize_spec (hint (r_stepPattern d)) cm C3 Hh) as [g [G1 [G2 [G3 [G4 G5]]]]].
  exists mp, cm, g. unfold dtwPlotDensity. rewrite Ec, G1, Em. cbn [bind].
  split; [reflexivity|]. split; [reflexivity|]. split; [reflexivity|]. split; [lia|]. split; [lia|]. split; [exact G5|].
  rewrite (G5 _ _ _ (C4 Hn)). rewrite Enorm, EN. destruct (String.eqb_spec (hint (r_stepPattern d)) "NA"); [contradiction|].
  f_equal. f_equal. lia.
Qed.

Theorem density_rejects (d : DTW N) normalize :
  (r_costMatrix d = None ->
     dtwPlotDensity d normalize = Raise (ValueError "dtwPlotDensity requires dtw internals (set keep.internals=True on dtw() call)")) /\
  (r_costMatrix d <> None -> hint (r_stepPattern d) = "NA" ->
     dtwPlotDensity d true = Raise (ValueError "Step pattern has no normalization")).
Proof.
  unfold dtwPlotDensity. split.
  - intros ->. reflexivity.
  - intros H E. destruct (r_costMatrix d) as [cm|]; [|contradiction]. unfold normalize_cells. rewrite E. reflexivity.
Qed.
End Plots.
