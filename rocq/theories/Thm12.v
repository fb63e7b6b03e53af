(** Thm12.v - symmetric1 and symmetric2 solve the textbook problem (C26). *)
From Coq Require Import ZifyBool ZifyNat.
From Verif Require Import Base Num StepPattern Window Core Backtrack Dtw Spec Api Tables Textbook
  DPProof DtwProof ApiProof ApiThms WalkGeom Vocab Thm1 Thm2 Thm3 Thm5 Bound Feas Thm9 Terms.
Open Scope string_scope.
Open Scope list_scope.
Open Scope nat_scope.

(** ** Geometry of warping paths *)
Lemma continues_snoc p ps q q' : continues p ps q -> neighbour q q' -> continues p (ps ++ [q']) q'.
Proof.
  revert p. induction ps as [|p' ps IH]; intros p; cbn.
  - intros ->. auto.
  - intros [H1 H2] H3. auto.
Qed.
Lemma continues_le p ps q : continues p ps q -> fst p <= fst q /\ snd p <= snd q /\
  (forall v, In v ps -> fst v <= fst q /\ snd v <= snd q).
Proof.
  revert p. induction ps as [|p' ps IH]; intros p; cbn [continues].
  - intros ->. split; [lia|]. split; [lia|]. intros v [].
  - intros [H1 H2]. destruct (IH _ H2) as [A [B C]].
    assert (D : fst p <= fst p' /\ snd p <= snd p') by (destruct H1 as [-> | [-> | -> ]]; cbn [fst snd]; lia).
    split; [lia|]. split; [lia|]. intros v Hv. destruct Hv as [Hv|Hv]; [subst v; lia|auto].
Qed.
Lemma continues_length p ps q : continues p ps q ->
  fst q - fst p <= List.length ps /\ snd q - snd p <= List.length ps /\
  List.length ps <= (fst q - fst p) + (snd q - snd p).
Proof.
  revert p. induction ps as [|p' ps IH]; intros p; cbn [continues].
  - intros ->. cbn. lia.
  - intros [H1 H2]. specialize (IH _ H2). pose proof (continues_le _ _ _ H2) as [A [B _]]. cbn [List.length].
    destruct H1 as [-> | [-> | -> ]]; cbn [fst snd] in *; lia.
Qed.
Lemma continues_covers p ps q : continues p ps q ->
  (forall i, fst p <= i <= fst q -> exists v, In v (p :: ps) /\ fst v = i) /\
  (forall j, snd p <= j <= snd q -> exists v, In v (p :: ps) /\ snd v = j).
Proof.
  revert p. induction ps as [|p' ps IH]; intros p; cbn [continues].
  - intros ->. split; intros k Hk; exists q; split; try (left; reflexivity); lia.
  - intros [H1 H2]. destruct (IH _ H2) as [A B]. split; intros k Hk.
    + destruct (Nat.eq_dec k (fst p)) as [->|]; [exists p; split; [left|]; reflexivity|].
      destruct (A k) as [v [V1 V2]]; [destruct H1 as [-> | [-> | -> ]]; cbn [fst snd] in *; lia|].
      exists v. split; [right; exact V1|exact V2].
    + destruct (Nat.eq_dec k (snd p)) as [->|]; [exists p; split; [left|]; reflexivity|].
      destruct (B k) as [v [V1 V2]]; [destruct H1 as [-> | [-> | -> ]]; cbn [fst snd] in *; lia|].
      exists v. split; [right; exact V1|exact V2].
Qed.

Section Thm12.
Context {N : Num}.
Variable L : NumLaws N.
Variable diag : Z.

Lemma cost_from_snoc (lm : mat N) p c ps q q' : continues p ps q ->
  cost_from diag lm p c (ps ++ [q']) =
  macc (cost_from diag lm p c ps) (ofZ (step_count diag q q')) (cell lm (fst q') (snd q')).
Proof.
  revert p c. induction ps as [|p' ps IH]; intros p c; cbn [continues].
  - intros ->. reflexivity.
  - intros [H1 H2]. cbn [app cost_from]. apply IH. exact H2.
Qed.

(** the three productions *)
Definition textbook_productions : list wrule :=
  [W 1 1 [(0, 0, (diag, 1)%Z)]; W 0 1 [(0, 0, (1, 1)%Z)]; W 1 0 [(0, 0, (1, 1)%Z)]].
Notation rules := (@productions N textbook_productions).

Lemma tb_rule k r : rule_no rules k = Some r -> forall i j,
  neighbour (i, j) (i + r_di r, j + r_dj r) /\ inner_points r (i + r_di r) (j + r_dj r) = [] /\
  forall (lm : mat N) c, charge (cell lm) r (i + r_di r) (j + r_dj r) c =
    macc c (ofZ (step_count diag (i, j) (i + r_di r, j + r_dj r))) (cell lm (i + r_di r) (j + r_dj r)).
Proof.
  intros H i j.
  assert (St : forall di dj, step_count diag (i, j) (i + di, j + dj) = if (0 <? di) && (0 <? dj) then diag else 1%Z).
  { intros di dj. unfold step_count. cbn [fst snd].
    replace (i <? i + di) with (0 <? di) by lia. replace (j <? j + dj) with (0 <? dj) by lia. reflexivity. }
  destruct k as [|[|[|[|[|k]]]]]; try discriminate; injection H as <-;
  cbn [production r_di r_dj r_add w_di w_dj w_add map fst snd]; (split; [|split; [reflexivity|]]).
  - right. right. f_equal; cbn [fst snd]; lia.
  - intros lm c. rewrite St. unfold charge, production. cbn [r_add w_add map fold_left fst snd]. rewrite !Nat.sub_0_r. reflexivity.
  - left. f_equal; cbn [fst snd]; lia.
  - intros lm c. rewrite St. unfold charge, production. cbn [r_add w_add map fold_left fst snd]. rewrite !Nat.sub_0_r. reflexivity.
  - right. left. f_equal; cbn [fst snd]; lia.
  - intros lm c. rewrite St. unfold charge, production. cbn [r_add w_add map fold_left fst snd]. rewrite !Nat.sub_0_r. reflexivity.
Qed.

Lemma walk_textbook (lm : mat N) w kw ks vs ts q c : closed_walk rules lm w kw ks vs ts q c ->
  exists ps, vs = (0, 0) :: ps /\ ts = vs /\ continues (0, 0) ps q /\
    c = cost_from diag lm (0, 0) (cell lm 0 0) ps /\ List.length ks = List.length ps.
Proof.
  intros W. induction W as [i j c Hso Hi Hj | ks vs ts i0 j0 c k r Hwk IH Hk Hi Hj Ha].
  - unfold closed_source in Hso. destruct (Nat.eqb_spec i 0); [|discriminate]. destruct (Nat.eqb_spec j 0); [|discriminate].
    subst. injection Hso as <-. exists []. repeat split.
  - destruct IH as [ps [-> [-> [C [-> El]]]]]. destruct (tb_rule k r Hk i0 j0) as [T1 [T2 T3]].
    exists (ps ++ [(i0 + r_di r, j0 + r_dj r)]). split; [reflexivity|]. split; [rewrite T2; reflexivity|].
    split; [eapply continues_snoc; eassumption|]. split; [|rewrite !app_length; cbn; lia].
    rewrite (cost_from_snoc lm (0, 0) _ ps _ _ C), T3. reflexivity.
Qed.

Lemma textbook_walk (lm : mat N) kw ps q : continues (0, 0) ps q -> fst q < nr lm -> snd q < nc lm ->
  exists ks, closed_walk rules lm NoWindow kw ks ((0, 0) :: ps) ((0, 0) :: ps) q (cost_from diag lm (0, 0) (cell lm 0 0) ps) /\
    List.length ks = List.length ps.
Proof.
  revert q. induction ps as [|p' ps IH] using rev_ind; intros q C Hi Hj.
  - cbn in C. subst q. exists []. split; [|reflexivity]. constructor; auto. 
  - assert (C' : exists p, continues (0, 0) ps p /\ neighbour p p' /\ p' = q).
    { revert C. generalize (0, 0). clear. induction ps as [|a ps IH]; intros p0 C; cbn [app continues] in C.
      - exists p0. cbn. tauto.
      - destruct C as [C1 C2]. destruct (IH _ C2) as [p [D1 [D2 D3]]]. exists p. cbn. tauto. }
    destruct C' as [p [C1 [C2 ->]]]. 
    assert (Hp : fst p < nr lm /\ snd p < nc lm) by (destruct C2 as [-> | [-> | -> ]]; cbn [fst snd] in *; lia).
    destruct (IH p C1 (proj1 Hp) (proj2 Hp)) as [ks [W El]].
    assert (R : exists k r, rule_no rules k = Some r /\ q = (fst p + r_di r, snd p + r_dj r)).
    { destruct C2 as [-> | [-> | -> ]].
      - exists 2. eexists. split; [reflexivity|]. cbn [production r_di r_dj w_di w_dj]. f_equal; lia.
      - exists 3. eexists. split; [reflexivity|]. cbn [production r_di r_dj w_di w_dj]. f_equal; lia.
      - exists 1. eexists. split; [reflexivity|]. cbn [production r_di r_dj w_di w_dj]. f_equal; lia. }
    destruct R as [k [r [Er Eq]]]. destruct (tb_rule k r Er (fst p) (snd p)) as [T1 [T2 T3]].
    exists (ks ++ [k]). split; [|rewrite !app_length; cbn; lia].
    rewrite (cost_from_snoc lm (0, 0) _ ps p q C1).
    destruct p as [i0 j0]. cbn [fst snd] in *. subst q.
    change ((0, 0) :: ps ++ [(i0 + r_di r, j0 + r_dj r)]) with (((0, 0) :: ps) ++ [(i0 + r_di r, j0 + r_dj r)]).
    cbn [fst snd]. rewrite <- T3.
    assert (E : ((0, 0) :: ps) ++ [(i0 + r_di r, j0 + r_dj r)] = ((0, 0) :: ps) ++ inner_points r (i0 + r_di r) (j0 + r_dj r) ++ [(i0 + r_di r, j0 + r_dj r)]).
    { rewrite T2. reflexivity. }
    unfold closed_walk. 
    pose proof (walk_step rules (cell lm) (nr lm) (nc lm) (closed_source lm) (in_window NoWindow kw (nr lm) (nc lm)) ks ((0, 0) :: ps) ((0, 0) :: ps)
      i0 j0 (cost_from diag lm (0, 0) (cell lm 0 0) ps) k r W Er Hi Hj I) as Q.
    rewrite T2 in Q. exact Q.
Qed.

Lemma cells_describes mp ks vs ts : describes mp ks vs ts -> cells mp = ts.
Proof.
  intros [E1 [E2 _]]. unfold cells. rewrite E1, E2, !map_map. unfold query_ix, ref_ix. clear E1 E2.
  induction ts as [|[a b] ts IH]; [reflexivity|]. cbn [map combine fst snd]. rewrite IH, !Nat2Z.id. reflexivity.
Qed.

Theorem textbook_result cdist x y o (lm : mat N) d :
  costs_of cdist x y lm -> dtw cdist x y o = Ok d ->
  pattern_rules (r_stepPattern d) rules -> r_windowFunction d = NoWindow ->
  o_open_begin o = false -> o_open_end o = false -> o_distance_only o = false -> 0 < nr lm ->
  exists mp, r_map d = Some mp /\
    warping_path (nr lm) (nc lm) (cells mp) /\ path_cost diag lm (cells mp) = r_distance d /\
    List.length (index1 mp) = List.length (cells mp) /\
    List.length (index2 mp) = List.length (cells mp) /\
    Nat.max (nr lm) (nc lm) <= List.length (cells mp) <= nr lm + nc lm - 1 /\
    (forall i, i < nr lm -> In (Z.of_nat i) (index1 mp)) /\
    (forall j, j < nc lm -> In (Z.of_nat j) (index2 mp)) /\
    forall path, warping_path (nr lm) (nc lm) path -> isnan (path_cost diag lm path) = false ->
      (1 < List.length path -> good (path_cost diag lm path)) ->
      leb (r_distance d) (path_cost diag lm path) = true.
Proof.
  intros HC H Hp Hw Hb He Hd Hn.
  destruct (dtw_alignment L _ _ _ _ _ _ _ HC H Hp Hd) as [mp [ks [vs [ts [Em [W [U [Hl D]]]]]]]].
  destruct (dtw_fields L _ _ _ _ _ _ _ HC H Hp) as [_ [_ [_ [_ [_ [_ [_ [J0 [J _]]]]]]]]]. specialize (J He).
  rewrite Hb in *. unfold admissible, end_cell in W. rewrite J in W.
  destruct (walk_textbook _ _ _ _ _ _ _ _ W) as [ps [-> [-> [C [Ec El]]]]].
  pose proof (cells_describes _ _ _ _ D) as Ed. destruct D as [D1 [D2 _]].
  exists mp. split; [exact Em|]. rewrite Ed.
  split; [exists ps; auto|]. split; [cbn [path_cost fst snd]; symmetry; exact Ec|].
  split; [rewrite D1, map_length; reflexivity|]. split; [rewrite D2, map_length; reflexivity|].
  destruct (continues_length _ _ _ C) as [K1 [K2 K3]]. cbn [fst snd List.length] in *. split; [unfold point in *; lia|].
  destruct (continues_covers _ _ _ C) as [V1 V2]. cbn [fst snd] in *.
  split. { intros i Hi. destruct (V1 i ltac:(lia)) as [v [I1 I2]]. rewrite D1. apply in_map_iff. exists v. unfold query_ix. split; [lia|exact I1]. }
  split. { intros j Hj. destruct (V2 j ltac:(lia)) as [v [I1 I2]]. rewrite D2. apply in_map_iff. exists v. unfold ref_ix. split; [lia|exact I1]. }
  intros path [ps' [-> C']] G1 G2. cbn [path_cost fst snd] in *.
  destruct (textbook_walk lm (r_windowArgs d) ps' _ C') as [ks' [W' El']]; cbn [fst snd]; try lia.
  destruct (dtw_best L _ _ _ _ _ _ _ HC H Hp) as [_ B]. rewrite Hb, Hw, J in B.
  apply (B _ _ _ _ W'). split; [exact G1|]. intros Hne. apply G2. cbn [List.length].
  destruct ks'; [contradiction|]. cbn in El'. lia.
Qed.
End Thm12.

Lemma symmetric1_textbook {N : Num} (L : NumLaws N) : pattern_rules (@symmetric1 N) (productions (textbook_productions 1)).
Proof. apply (wgood_rules L); [apply (predefined_good "symmetric1"); reflexivity|reflexivity]. Qed.
Lemma symmetric2_textbook {N : Num} (L : NumLaws N) : pattern_rules (@symmetric2 N) (productions (textbook_productions 2)).
Proof. apply (wgood_rules L); [apply (predefined_good "symmetric2"); reflexivity|reflexivity]. Qed.
