(** Thm24.v - when is the distance zero (proofs for C53). *)
From Coq Require Import ZifyBool ZifyNat.
From Verif Require Import Base Num StepPattern Window Core Backtrack Dtw Spec Api Tables Vocab Terms
  NumQ NumQLaws NumF NumFLaws CoreProof DtwProof ApiThms Thm1 Thm3 Thm5 Thm10 Derived SeriesSpec ZeroSum Thm23.
Open Scope string_scope.
Open Scope list_scope.
Open Scope nat_scope.

(** ** Stretched sequences *)
Section Stretch.
Context {A : Type}.
Lemma st_snoc (z x : list A) a : stretched z x -> stretched (z ++ [a]) (x ++ [a]).
Proof.
  induction 1; cbn [app] in *.
  - apply st_new, st_nil.
  - apply st_new. assumption.
  - apply st_again. assumption.
Qed.
Lemma st_more (z x : list A) a : stretched z (x ++ [a]) -> stretched z (x ++ [a; a]).
Proof.
  intros H. remember (x ++ [a]) as u eqn:E. revert x E. induction H as [|b z x0 H IH|b z x0 H IH]; intros x E.
  - destruct x; discriminate.
  - destruct x as [|c x]; cbn [app] in E.
    + injection E as -> ->. inversion H; subst. apply st_again, st_new, st_nil.
    + injection E as -> ->. cbn [app]. apply st_new. apply IH. reflexivity.
  - destruct x as [|c x]; [discriminate|]. cbn [app] in E. injection E as -> E.
    specialize (IH x E). cbn [app]. destruct x as [|c' x]; cbn [app] in *.
    + injection E as -> ->. apply st_again. exact IH.
    + injection E as -> ->. apply st_again. exact IH.
Qed.
Lemma st_snoc_inv (z x : list A) a : stretched z (x ++ [a]) ->
  exists z0, z = z0 ++ [a] /\ (stretched z0 x \/ exists x0, x = x0 ++ [a] /\ stretched z x).
Proof.
  intros H. remember (x ++ [a]) as u eqn:E. revert x E. induction H as [|b z x0 H IH|b z x0 H IH]; intros x E.
  - destruct x; discriminate.
  - destruct x as [|c x]; cbn [app] in E.
    + injection E as -> ->. inversion H; subst. exists []. split; [reflexivity|]. left. constructor.
    + injection E as -> ->. destruct (IH x eq_refl) as [z0 [-> [S|[x1 [-> S]]]]].
      * exists (c :: z0). split; [reflexivity|]. left. constructor. exact S.
      * exists (c :: z0). split; [reflexivity|]. right. exists (c :: x1). split; [reflexivity|]. constructor. exact S.
  - destruct x as [|c x]; [discriminate|]. cbn [app] in E. injection E as -> E.
    destruct (IH x E) as [z0 [Ez [S|[x1 [-> S]]]]]; rewrite Ez.
    + exists z0. split; [reflexivity|]. destruct x as [|c' x]; cbn [app] in E.
      * injection E as -> ->. right. exists []. split; [reflexivity|]. rewrite <- Ez. inversion S; subst. rewrite Ez. repeat constructor.
      * injection E as -> ->. left. destruct z0 as [|d z0]; [inversion S|]. cbn [app] in Ez. injection Ez as -> ->. apply st_again. exact S.
    + exists z0. split; [reflexivity|]. right. exists (c :: x1). split; [reflexivity|].
      destruct x1 as [|c' x1]; cbn [app] in *; injection E as -> ->; rewrite <- Ez in *; apply st_again; exact S.
Qed.
Lemma st_nil_inv (z : list A) : stretched z [] -> z = [].
Proof. intros H. inversion H. reflexivity. Qed.
Lemma st_nil_l (x : list A) : stretched [] x -> x = [].
Proof. intros H. inversion H. reflexivity. Qed.

Lemma firstn_snoc (l : list A) i a : nth_error l i = Some a -> firstn (S i) l = firstn i l ++ [a].
Proof.
  revert i. induction l as [|b l IH]; intros [|i] H; cbn in *; try discriminate.
  - injection H as ->. reflexivity.
  - f_equal. apply IH. exact H.
Qed.
End Stretch.

(** ** Zero walks *)

(** The productions of symmetric1 and symmetric2: w is the weight of the diagonal one. *)
Definition sym_rules {N : Num} (w : N) : list (rule N) :=
  [Rule 1 1 [(0, 0, w)]; Rule 0 1 [(0, 0, ofZ 1)]; Rule 1 0 [(0, 0, ofZ 1)]].

Section Zero.
Context {N : Num}.
Variable L : NumLaws N.
Hypothesis Z0 : zero_sum N.
Variable k : Z.
Hypothesis Hk : (k = 1 \/ k = 2)%Z.
Variable lm : mat N.
Hypothesis Hnn : forall i j, i < nr lm -> j < nc lm -> leb (ofZ 0) (cell lm i j) = true.
Context {A : Type}.
Variables xs ys : list A.
Hypothesis Hx : List.length xs = nr lm.
Hypothesis Hy : List.length ys = nc lm.
Hypothesis Hlab : forall i j a b, nth_error xs i = Some a -> nth_error ys j = Some b ->
  (eqb (cell lm i j) (ofZ 0) = true <-> a = b).
Notation walkz := (walk (sym_rules (@ofZ N k)) (cell lm) (nr lm) (nc lm) (closed_source lm) (fun _ _ => True)).

Lemma sym_in r : In r (sym_rules (@ofZ N k)) -> exists q, (q = 1 \/ q = 2)%Z /\ r_add r = [(0, 0, ofZ q)] /\
  ((r_di r = 1 /\ r_dj r = 1) \/ (r_di r = 0 /\ r_dj r = 1) \/ (r_di r = 1 /\ r_dj r = 0)).
Proof.
  intros [<-|[<-|[<-|[]]]]; cbn [r_add r_di r_dj]; [exists k|exists 1%Z|exists 1%Z]; auto 10.
Qed.
Lemma zero_le a : eqb a (@ofZ N 0) = true -> leb (ofZ 0) a = true.
Proof. intros H. apply (law_eq_le _ L). rewrite (law_eq_sym _ L). exact H. Qed.

Lemma zero_walk_nonneg ks vs ts q c : walkz ks vs ts q c -> isnan c = false -> leb (ofZ 0) c = true.
Proof.
  induction 1 as [i j c Hs Hi Hj|ks vs ts i0 j0 c kk r W IH Hr Hi Hj _]; intros Hn.
  - unfold closed_source in Hs. destruct (_ && _) eqn:E; [|discriminate]. assert (c = cell lm 0 0) as -> by congruence.
    apply Hnn; lia.
  - apply rule_no_in in Hr. destruct (sym_in r Hr) as [qq [Hq [Ea _]]]. unfold charge in *. rewrite Ea in *. cbn [fold_left fst snd] in *.
    rewrite !Nat.sub_0_r in *. destruct (isnan c) eqn:Ec.
    { rewrite (law_nan_macc _ L _ _ _ Ec) in Hn. discriminate. }
    apply (law_macc_nonneg _ L); auto. rewrite (law_le_ofZ _ L) by lia. lia.
Qed.

Lemma zero_walk_st ks vs ts q c : walkz ks vs ts q c -> eqb c (ofZ 0) = true ->
  eqb (cell lm (fst q) (snd q)) (ofZ 0) = true /\ fst q < nr lm /\ snd q < nc lm /\
  exists z, stretched z (firstn (S (fst q)) xs) /\ stretched z (firstn (S (snd q)) ys).
Proof.
  induction 1 as [i j c Hs Hi Hj|ks vs ts i0 j0 c kk r W IH Hr Hi Hj _]; intros Hz; cbn [fst snd] in *.
  - unfold closed_source in Hs. destruct (_ && _) eqn:E; [|discriminate]. assert (c = cell lm 0 0) as -> by congruence.
    assert (i = 0) by lia. assert (j = 0) by lia. subst i j. split; [exact Hz|]. split; [exact Hi|]. split; [exact Hj|].
    destruct xs as [|a xs']; [cbn in Hx; lia|]. destruct ys as [|b ys']; [cbn in Hy; lia|].
    apply (Hlab 0 0 a b eq_refl eq_refl) in Hz. subst b. exists [a]. split; cbn; repeat constructor.
  - apply rule_no_in in Hr. destruct (sym_in r Hr) as [qq [Hq [Ea Hd]]]. unfold charge in *. rewrite Ea in *. cbn [fold_left fst snd] in *.
    rewrite !Nat.sub_0_r in *.
    assert (Hc : isnan c = false).
    { destruct (isnan c) eqn:Ec; [|reflexivity]. pose proof (law_nan_macc _ L c (ofZ qq) (cell lm (i0 + r_di r) (j0 + r_dj r)) Ec) as Hn.
      apply (law_eq_le _ L) in Hz. apply (law_le_nan _ L) in Hz. destruct Hz. congruence. }
    destruct (Z0 _ _ qq Hq (zero_walk_nonneg _ _ _ _ _ W Hc) (Hnn _ _ Hi Hj) Hz) as [Hcz Hxz].
    destruct (IH Hcz) as [Hprev [Hi0 [Hj0 [z [S1 S2]]]]].
    split; [exact Hxz|]. split; [exact Hi|]. split; [exact Hj|].
    destruct (nth_error xs i0) as [a|] eqn:Ea0; [|apply nth_error_None in Ea0; lia].
    destruct (nth_error ys j0) as [b|] eqn:Eb0; [|apply nth_error_None in Eb0; lia].
    destruct (nth_error xs (i0 + r_di r)) as [a'|] eqn:Ea1; [|apply nth_error_None in Ea1; lia].
    destruct (nth_error ys (j0 + r_dj r)) as [b'|] eqn:Eb1; [|apply nth_error_None in Eb1; lia].
    apply (Hlab _ _ _ _ Ea0 Eb0) in Hprev. apply (Hlab _ _ _ _ Ea1 Eb1) in Hxz. subst b b'.
    destruct Hd as [[D1 D2]|[[D1 D2]|[D1 D2]]]; rewrite D1, D2 in *; rewrite ?Nat.add_0_r, ?Nat.add_1_r in *.
    + exists (z ++ [a']). rewrite (firstn_snoc _ _ _ Ea1), (firstn_snoc _ _ _ Eb1). split; apply st_snoc; assumption.
    + exists z. split; [exact S1|]. assert (a' = a) by congruence. subst a'.
      rewrite (firstn_snoc _ _ _ Eb1), (firstn_snoc _ _ _ Eb0), <- app_assoc. apply st_more. rewrite <- (firstn_snoc _ _ _ Eb0). exact S2.
    + exists z. split; [|exact S2]. assert (a' = a) by congruence. subst a'.
      rewrite (firstn_snoc _ _ _ Ea1), (firstn_snoc _ _ _ Ea0), <- app_assoc. apply st_more. rewrite <- (firstn_snoc _ _ _ Ea0). exact S1.
Qed.

Lemma zero_step ks vs ts i0 j0 c di dj kk r : walkz ks vs ts (i0, j0) c -> eqb c (ofZ 0) = true ->
  rule_no (sym_rules (@ofZ N k)) kk = Some r -> r_di r = di -> r_dj r = dj -> i0 + di < nr lm -> j0 + dj < nc lm ->
  eqb (cell lm (i0 + di) (j0 + dj)) (ofZ 0) = true ->
  exists ks vs ts c, walkz ks vs ts (i0 + di, j0 + dj) c /\ eqb c (ofZ 0) = true.
Proof.
  intros W Hc Hr <- <- Hi Hj Hz. eexists _, _, _, _. split; [eapply walk_step; eauto|].
  apply rule_no_in in Hr. destruct (sym_in r Hr) as [qq [Hq [Ea _]]]. unfold charge. rewrite Ea. cbn [fold_left fst snd].
  rewrite !Nat.sub_0_r. apply (law_macc_zero _ L); auto. apply (law_fin_ofZ _ L). lia.
Qed.

Lemma st_zero_walk s : forall i j z, i + j <= s -> i < nr lm -> j < nc lm ->
  stretched z (firstn (S i) xs) -> stretched z (firstn (S j) ys) ->
  exists ks vs ts c, walkz ks vs ts (i, j) c /\ eqb c (ofZ 0) = true.
Proof.
  induction s as [|s IH]; intros i j z Hs Hi Hj S1 S2;
  (destruct (nth_error xs i) as [a|] eqn:Ea; [|apply nth_error_None in Ea; lia]);
  (destruct (nth_error ys j) as [b|] eqn:Eb; [|apply nth_error_None in Eb; lia]);
  rewrite (firstn_snoc _ _ _ Ea) in S1; rewrite (firstn_snoc _ _ _ Eb) in S2;
  destruct (st_snoc_inv _ _ _ S1) as [z1 [E1 C1]]; destruct (st_snoc_inv _ _ _ S2) as [z2 [E2 C2]];
  (assert (a = b) by (rewrite E1 in E2; apply app_inj_tail in E2; tauto)); subst b;
  (assert (z1 = z2) by (rewrite E1 in E2; apply app_inj_tail in E2; tauto)); subst z2.
  - assert (i = 0) by lia. assert (j = 0) by lia. subst i j.
    eexists _, _, _, _. split; [apply walk_start; [reflexivity|exact Hi|exact Hj]|]. apply (Hlab 0 0 a a Ea Eb). reflexivity.
  - assert (Hcell : eqb (cell lm i j) (ofZ 0) = true) by (apply (Hlab _ _ _ _ Ea Eb); reflexivity).
    destruct C1 as [N1|[x1 [Ex1 R1]]].
    + destruct C2 as [N2|[x2 [Ex2 R2]]].
      * destruct i as [|i'], j as [|j'].
        { eexists _, _, _, _. split; [apply walk_start; [reflexivity|exact Hi|exact Hj]|]. exact Hcell. }
        { exfalso. cbn [firstn] in N1. apply st_nil_inv in N1. subst z1. apply st_nil_l in N2.
          apply (f_equal (@List.length _)) in N2. rewrite firstn_length in N2. cbn [List.length] in N2. lia. }
        { exfalso. cbn [firstn] in N2. apply st_nil_inv in N2. subst z1. apply st_nil_l in N1.
          apply (f_equal (@List.length _)) in N1. rewrite firstn_length in N1. cbn [List.length] in N1. lia. }
        destruct (IH i' j' z1 ltac:(lia) ltac:(lia) ltac:(lia) N1 N2) as [ks [vs [ts [c [W Hc]]]]].
        replace (S i') with (i' + 1) in * by lia. replace (S j') with (j' + 1) in * by lia.
        eapply (zero_step _ _ _ _ _ _ _ _ 1); eauto; reflexivity.
      * destruct j as [|j']; [destruct x2; discriminate|].
        destruct (IH i j' z ltac:(lia) ltac:(lia) ltac:(lia)) as [ks [vs [ts [c [W Hc]]]]]; [rewrite (firstn_snoc _ _ _ Ea); exact S1|exact R2|].
        replace (S j') with (j' + 1) in * by lia. replace i with (i + 0) in Hcell |- * by lia.
        eapply (zero_step _ _ _ _ _ _ _ _ 2); eauto; try reflexivity; lia.
    + destruct i as [|i']; [destruct x1; discriminate|].
      destruct (IH i' j z ltac:(lia) ltac:(lia) ltac:(lia)) as [ks [vs [ts [c [W Hc]]]]]; [exact R1|rewrite (firstn_snoc _ _ _ Eb); exact S2|].
      replace (S i') with (i' + 1) in * by lia. replace j with (j + 0) in Hcell |- * by lia.
      eapply (zero_step _ _ _ _ _ _ _ _ 3); eauto; try reflexivity; lia.
Qed.
End Zero.

Lemma modelled_laws N : modelled N -> NumLaws N /\ zero_sum N.
Proof.
  intros [->|[->| ->]]; split; auto using NumQ_laws, NumF_laws, NumFMA_laws, zero_sum_Q, zero_sum_F, zero_sum_FMA.
Qed.

Lemma sym_lookup {N : Num} nm l : nm = "symmetric1" \/ nm = "symmetric2" -> lookup nm predefined = Some l ->
  exists k, (k = 1 \/ k = 2)%Z /\ @productions N l = sym_rules (ofZ k).
Proof. intros [->| ->] H; vm_compute in H; injection H as <-; [exists 1%Z|exists 2%Z]; split; auto. Qed.

Theorem zero_distance (N : Num) cdist x y o (lm : mat N) d nm A (xs ys : list A) :
  modelled N -> costs_of cdist x y lm -> dtw cdist x y o = Ok d -> 0 < nr lm ->
  nm = "symmetric1" \/ nm = "symmetric2" -> lookup nm pattern_table = Some (r_stepPattern d) ->
  r_windowFunction d = NoWindow -> o_open_begin o = false -> o_open_end o = false ->
  (forall i j, i < nr lm -> j < nc lm -> leb (ofZ 0) (cell lm i j) = true) ->
  List.length xs = nr lm -> List.length ys = nc lm ->
  (forall i j a b, nth_error xs i = Some a -> nth_error ys j = Some b ->
     (eqb (cell lm i j) (ofZ 0) = true <-> a = b)) ->
  (eqb (r_distance d) (ofZ 0) = true <-> exists z, stretched z xs /\ stretched z ys).
Proof.
  intros HN HC Hd Hq Hnm Hk Hw Hob Hoe Hnn Hx Hy Hlab. destruct (modelled_laws N HN) as [L Z0].
  destruct (predefined_rules L _ _ Hk) as [l [Hl Hp]].
  destruct (sym_lookup (N := N) nm l Hnm Hl) as [k [Hk12 El]]. rewrite El in Hp.
  destruct (dtw_fields L _ _ _ _ _ _ _ HC Hd Hp) as [_ [_ [_ [_ [_ [_ [_ [Fj0 [Fj _]]]]]]]]]. specialize (Fj Hoe).
  destruct (dtw_best L _ _ _ _ _ _ _ HC Hd Hp) as [[ks [vs [ts [W U]]]] Hmin].
  rewrite Hob, Hw, Fj in W, Hmin. cbn [admissible] in W, Hmin. unfold end_cell in W, Hmin. unfold closed_walk in W, Hmin. cbn [in_window] in W, Hmin.
  change (in_window NoWindow (r_windowArgs d) (nr lm) (nc lm)) with (fun _ _ : nat => True) in W, Hmin.
  assert (F : firstn (S (nr lm - 1)) xs = xs /\ firstn (S (nc lm - 1)) ys = ys) by (split; apply firstn_all2; lia).
  destruct F as [F1 F2]. split.
  - intros Hz. destruct (zero_walk_st L Z0 k Hk12 lm Hnn xs ys Hx Hy Hlab _ _ _ _ _ W Hz) as [_ [_ [_ [z [S1 S2]]]]].
    cbn [fst snd] in S1, S2. rewrite F1 in S1. rewrite F2 in S2. exists z. auto.
  - intros [z [S1 S2]]. rewrite <- F1 in S1. rewrite <- F2 in S2.
    destruct (st_zero_walk L k Hk12 lm Hnn xs ys Hx Hy Hlab _ (nr lm - 1) (nc lm - 1) z (le_n _) ltac:(lia) ltac:(lia) S1 S2) as [ks' [vs' [ts' [c [W' Hc]]]]].
    assert (Hc0 : leb c (ofZ 0) = true) by (apply (law_eq_le _ L); exact Hc).
    assert (Hg : good c).
    { unfold good. eapply (law_le_lt_trans _ L); [exact Hc0|]. apply (law_fin_good _ L). apply (law_fin_ofZ _ L). lia. }
    assert (U' : usable ks' c) by (split; [apply (law_good_not_nan _ L); exact Hg|auto]).
    apply (law_le_antisym _ L); [eapply (law_le_trans _ L); [exact (Hmin _ _ _ _ W' U')|exact Hc0]|].
    eapply zero_walk_nonneg; eauto. apply U.
Qed.
