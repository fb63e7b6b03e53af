(** Tri2.v - windows that compose, and the weak triangle inequality for three series
    (proofs for C68). *)
From Coq Require Import QArith Qcanon Lqa ZifyBool ZifyNat.
From Verif Require Import Base Num NumQ NumQLaws StepPattern Window Core Backtrack Dtw Spec Api Tables Vocab Terms
  CoreProof DPProof DtwProof ApiProof ApiThms Uniq Thm2 Thm5 Thm9 WalkGeom Thm11 Derived Derived2 Thm22 SeriesSpec Thm23 Sim Thm31 StableSpec Stable TriSpec Tri.
Open Scope string_scope.
Open Scope list_scope.
Open Scope nat_scope.

Theorem compose_none w1 kw1 w2 kw2 kw nx ny nz :
  in_window w1 kw1 nx ny 0 0 -> in_window w2 kw2 ny nz 0 0 ->
  windows_compose w1 kw1 w2 kw2 NoWindow kw nx ny nz.
Proof. intros H1 H2. split; [exact H1|]. split; [exact H2|]. intros. exact I. Qed.

Theorem compose_sakoe (s1 s2 : Qc) nx ny nz : (0 <= s1)%Qc -> (0 <= s2)%Qc ->
  windows_compose SakoeChiba [("window_size", XFin s1 : NumQ)] SakoeChiba [("window_size", XFin s2 : NumQ)]
    SakoeChiba [("window_size", XFin (s1 + s2)%Qc : NumQ)] nx ny nz.
Proof.
  intros H1 H2. unfold windows_compose, in_window, call_window. cbn [String.eqb Ascii.eqb Bool.eqb]. unfold sakoeChibaWindow.
  assert (K : forall z s, Ok (@leb NumQ (ofZ z) (XFin s)) = Ok true <-> (qc_ofZ z <= s)%Qc).
  { intros z s. split; intros Q; [injection Q as Q; apply xq_leb_fin; exact Q|f_equal; apply xq_leb_fin; exact Q]. }
  split; [|split].
  - apply K. replace (Z.abs (Z.of_nat 0 - Z.of_nat 0)) with 0%Z by lia. exact H1.
  - apply K. replace (Z.abs (Z.of_nat 0 - Z.of_nat 0)) with 0%Z by lia. exact H2.
  - intros i j k _ _ _ Q1 Q2. apply K in Q1. apply K in Q2. apply K. unfold Qcle in *. rewrite this_add. rewrite this_ofZ in *.
    assert (T : (Z.abs (Z.of_nat k - Z.of_nat i) <= Z.abs (Z.of_nat j - Z.of_nat i) + Z.abs (Z.of_nat k - Z.of_nat j))%Z) by lia.
    rewrite Zle_Qle, inject_Z_plus in T. clear - T Q1 Q2. lra.
Qed.

(** Three series compared sample by sample *)
Theorem weak_triangle_series nm (cdist : mat NumQ -> mat NumQ -> out (mat NumQ)) (f : list NumQ -> list NumQ -> NumQ) (x y z : ndarray NumQ)
  (xm ym zm : mat NumQ) (o : opts NumQ) d1 d2 :
  In nm ["symmetric1"; "symmetric2"; "symmetricP0"] -> o_step_pattern o = SPName nm -> o_window_type o = WTNone ->
  o_open_begin o = false -> o_open_end o = false ->
  entrywise cdist f ->
  matrix_of (nd_val x) = Some xm -> matrix_of (nd_val y) = Some ym -> matrix_of (nd_val z) = Some zm ->
  wf_mat xm -> wf_mat ym -> wf_mat zm -> nc ym = nc xm -> nc zm = nc xm -> size_ok (nr xm) (nr zm) ->
  (forall i j k, i < nr xm -> j < nr ym -> k < nr zm ->
     exists a b c : Qc, f (sample xm i) (sample ym j) = XFin a /\ f (sample ym j) (sample zm k) = XFin b /\
       f (sample xm i) (sample zm k) = XFin c /\ (0 <= a)%Qc /\ (0 <= b)%Qc /\ (c <= a + b)%Qc) ->
  dtw cdist x (Some y) o = Ok d1 -> dtw cdist y (Some z) o = Ok d2 ->
  exists d v1 v2 v, dtw cdist x (Some z) o = Ok d /\
    r_distance d1 = XFin v1 /\ r_distance d2 = XFin v2 /\ r_distance d = XFin v /\
    (v <= qc_ofZ (Z.of_nat (nr zm)) * v1 + qc_ofZ (Z.of_nat (nr xm)) * v2)%Qc.
Proof.
  intros Hnm Hsp Hwt Hob Hoe He Hx Hy Hz Wx Wy Wz Cy Cz Hsz Ht D1 D2.
  destruct (He xm ym Wx Wy ltac:(congruence)) as [xy [E1 [W1 [R1 [C1 G1]]]]].
  destruct (He ym zm Wy Wz ltac:(congruence)) as [yz [E2 [W2 [R2 [C2 G2]]]]].
  destruct (He xm zm Wx Wz ltac:(congruence)) as [xz [E3 [W3 [R3 [C3 G3]]]]].
  assert (HC1 : costs_of cdist x (Some y) xy) by (econstructor; eauto).
  assert (HC2 : costs_of cdist y (Some z) yz) by (econstructor; eauto).
  assert (HC3 : costs_of cdist x (Some z) xz) by (econstructor; eauto).
  assert (L : exists sp : steppat NumQ, lookup nm pattern_table = Some sp).
  { cbn in Hnm. destruct Hnm as [<-|[<-|[<-|[]]]]; eexists; reflexivity. }
  destruct L as [sp L]. destruct (predefined_rules NumQ_laws _ _ L) as [l [Hl' Hp]].
  assert (P : forall x' y' lm d, costs_of cdist x' (Some y') lm -> dtw cdist x' (Some y') o = Ok d -> r_stepPattern d = sp).
  { intros x' y' lm d Q1 Q2. pose proof (ok_pattern _ _ _ _ _ _ Q1 Q2) as Q. rewrite Hsp in Q. inversion Q; congruence. }
  assert (WW : forall x' y' lm d, costs_of cdist x' (Some y') lm -> dtw cdist x' (Some y') o = Ok d -> r_windowFunction d = NoWindow).
  { intros x' y' lm d Q1 Q2. assert (Q3 : pattern_rules (r_stepPattern d) (productions l)) by (rewrite (P _ _ _ _ Q1 Q2); exact Hp).
    destruct (dtw_fields NumQ_laws _ _ _ _ _ _ _ Q1 Q2 Q3) as [_ [_ [_ [_ [Q _]]]]]. rewrite Hwt in Q. inversion Q; reflexivity. }
  destruct (weak_triangle nm sp cdist x (Some y) o xy d1 cdist y (Some z) o yz d2 cdist x (Some z) o xz NoWindow) as [d [v1 [v2 [v [A1 [A2 [A3 [A4 A5]]]]]]]]; auto.
  - exact (P _ _ _ _ HC1 D1).
  - exact (P _ _ _ _ HC2 D2).
  - exact I.
  - rewrite Hsp. constructor. exact L.
  - rewrite Hwt. constructor.
  - exact I.
  - rewrite R3, C3. exact Hsz.
  - split; [congruence|]. split; [congruence|]. split; [congruence|]. intros i j k Hi Hj Hk. rewrite R1 in Hi. rewrite C1 in Hj. rewrite C2 in Hk.
    rewrite G1, G2, G3 by assumption. apply Ht; assumption.
  - rewrite (WW _ _ _ _ HC1 D1), (WW _ _ _ _ HC2 D2). apply compose_none; exact I.
  - exists d, v1, v2, v. rewrite R3, C3 in A5. repeat (split; [assumption|]). exact A5.
Qed.
