(** Join.v - aligning joined series costs at most the sum (proofs for C66). *)
From Coq Require Import QArith Qcanon Lqa ZifyBool ZifyNat.
From Verif Require Import Base Num NumQ NumQLaws StepPattern Window Core Backtrack Dtw Spec Api Tables Vocab Terms
  CoreProof DPProof DtwProof ApiProof ApiThms Uniq Thm2 Thm5 Thm9 WalkGeom Thm11 Derived Derived2 Thm22 Thm23 Sim Thm31 StableSpec Stable Hold JoinSpec.
Open Scope string_scope.
Open Scope list_scope.
Open Scope nat_scope.

Lemma fold_left_same {A B} (f g : A -> B -> A) l v : (forall a b, In b l -> f a b = g a b) -> fold_left f l v = fold_left g l v.
Proof.
  revert v. induction l as [|b l IH]; intros v H; [reflexivity|]. cbn [fold_left]. rewrite (H v b) by (left; reflexivity).
  apply IH. intros a b' Hb. apply H. right. exact Hb.
Qed.
Lemma fold_shift (K : Qc) (cost cost2 : nat -> nat -> NumQ) a b i j (adds : list (nat * nat * NumQ)) q t :
  (forall p, In p adds -> fst (fst p) <= i /\ snd (fst p) <= j) ->
  (forall p, In p adds -> cost (a + (i - fst (fst p))) (b + (j - snd (fst p))) = cost2 (i - fst (fst p)) (j - snd (fst p))) ->
  fold_left (fun c p => macc c (snd p) (cost2 (i - fst (fst p)) (j - snd (fst p)))) adds (XFin q : NumQ) = XFin t ->
  fold_left (fun c p => macc c (snd p) (cost (a + i - fst (fst p)) (b + j - snd (fst p)))) adds (XFin (q + K)%Qc : NumQ) = XFin (t + K)%Qc.
Proof.
  revert q. induction adds as [|p adds IH]; intros q Hb Hc.
  - cbn [fold_left]. intros E. injection E as <-. reflexivity.
  - cbn [fold_left]. intros E. destruct (Hb p (or_introl eq_refl)) as [B1 B2]. pose proof (Hc p (or_introl eq_refl)) as C.
    replace (a + i - fst (fst p)) with (a + (i - fst (fst p))) by lia. replace (b + j - snd (fst p)) with (b + (j - snd (fst p))) by lia. rewrite C.
    set (v := cost2 (i - fst (fst p)) (j - snd (fst p))) in *. destruct p as [pp w]. cbn [fst snd] in *.
    destruct (xq_mul w v) as [| | |z] eqn:Ez.
    4:{ assert (M : forall u : Qc, macc (XFin u : NumQ) w v = XFin (u + z)%Qc) by (intros u; cbn [macc NumQ]; rewrite Ez; reflexivity).
        rewrite M in E |- *. replace (q + K + z)%Qc with (q + z + K)%Qc by ring. apply IH; auto.
        - intros p Hp. apply Hb. right. exact Hp.
        - intros p Hp. apply Hc. right. exact Hp. }
    all: exfalso; assert (M : ~ finiteq (macc (XFin q : NumQ) w v)) by (cbn [macc NumQ]; rewrite Ez; intros []);
      apply (fold_special cost2 i j adds _ M); exact (@eq_ind_r _ (XFin t) finiteq I _ E).
Qed.

Section J.
Variable rules : list (rule NumQ).
Hypothesis Hv : forallb valid_rule rules = true.

(** Costs restricted to a corner. *)
Lemma walk_corner (cost cost1 : nat -> nat -> NumQ) n m n1 m1 src src1 ks vs ts p c :
  n1 <= n -> m1 <= m -> (forall i j, i < n1 -> j < m1 -> cost i j = cost1 i j) ->
  (forall i j c, src1 i j = Some c -> i < n1 -> j < m1 -> src i j = Some c) ->
  walk rules cost1 n1 m1 src1 (fun _ _ => True) ks vs ts p c ->
  walk rules cost n m src (fun _ _ => True) ks vs ts p c.
Proof.
  intros Hn Hm Hc Hs W. induction W as [i j c Hso Hi Hj | ks vs ts i1 j1 c k r Hwk IH Hk Hi Hj Ha].
  - apply walk_start; [eauto|lia|lia].
  - replace (charge cost1 r (i1 + r_di r) (j1 + r_dj r) c) with (charge cost r (i1 + r_di r) (j1 + r_dj r) c).
    + apply walk_step; auto; lia.
    + unfold charge. apply fold_left_same. intros a b Hb. rewrite Hc by lia. reflexivity.
Qed.

(** A walk of the second part, continued in the joined costs. *)
Lemma walk_after (K s : Qc) (cost cost2 : nat -> nat -> NumQ) a b n m n2 m2 src src2 ks vs ts p c :
  n = a + n2 -> m = b + m2 -> (forall i j, i < n2 -> j < m2 -> cost (a + i) (b + j) = cost2 i j) ->
  (forall i j c, src2 i j = Some c -> i = 0 /\ j = 0 /\ c = (XFin s : NumQ)) ->
  (exists ks0 vs0 ts0, walk rules cost n m src (fun _ _ => True) ks0 vs0 ts0 (a, b) (XFin (s + K)%Qc : NumQ) /\ ks0 <> []) ->
  walk rules cost2 n2 m2 src2 (fun _ _ => True) ks vs ts p c -> forall t, c = XFin t ->
  exists ks' vs' ts', walk rules cost n m src (fun _ _ => True) ks' vs' ts' (a + fst p, b + snd p) (XFin (t + K)%Qc : NumQ) /\ ks' <> [].
Proof.
  intros En Em Hc Hs Hb W. induction W as [i j c Hso Hi Hj | ks vs ts i1 j1 c k r Hwk IH Hk Hi Hj Ha]; intros t Et.
  - destruct (Hs _ _ _ Hso) as [-> [-> E]]. rewrite Et in E. injection E as ->. cbn [fst snd]. rewrite !Nat.add_0_r. exact Hb.
  - assert (V : valid_rule r = true) by (rewrite forallb_forall in Hv; apply Hv; eapply rule_no_in; exact Hk).
    unfold valid_rule in V. apply andb_prop in V. destruct V as [V _]. apply andb_prop in V. destruct V as [_ V].
    assert (F : finiteq c).
    { unfold charge in Et. destruct c as [| | |q]; try exact I; exfalso;
      match type of Et with fold_left _ ?l ?v = _ => apply (fold_special cost2 (i1 + r_di r) (j1 + r_dj r) l v); [intros []|exact (@eq_ind_r _ (XFin t) finiteq I _ Et)] end. }
    destruct c as [| | |q]; try contradiction F. destruct (IH q eq_refl) as [ks' [vs' [ts' [W' _]]]]. cbn [fst snd] in *.
    exists (ks' ++ [k]). eexists _, _. split; [|destruct ks'; discriminate].
    assert (E : charge cost r (a + i1 + r_di r) (b + j1 + r_dj r) (XFin (q + K)%Qc : NumQ) = XFin (t + K)%Qc).
    { unfold charge in Et |- *. rewrite <- !Nat.add_assoc. eapply fold_shift; [| |exact Et].
      - intros p Hp. destruct (going_down_le _ _ _ _ V Hp). lia.
      - intros p Hp. destruct (going_down_le _ _ _ _ V Hp). apply Hc; lia. }
    rewrite !Nat.add_assoc. rewrite <- E. apply walk_step; [exact W'|exact Hk|lia|lia|exact I].
Qed.
End J.

Theorem joined_distance cdist x y cdist1 x1 y1 cdist2 x2 y2 o (lm lm1 lm2 : mat NumQ) sp rules d1 d2 k w v1 v2 :
  well_posed cdist x y o lm sp rules NoWindow -> o_open_begin o = false -> o_open_end o = false ->
  rule_no rules k = Some (Rule 1 1 [(0, 0, XFin w : NumQ)]) ->
  costs_of cdist1 x1 y1 lm1 -> dtw cdist1 x1 y1 o = Ok d1 -> r_distance d1 = XFin v1 -> 0 < nr lm1 ->
  costs_of cdist2 x2 y2 lm2 -> dtw cdist2 x2 y2 o = Ok d2 -> r_distance d2 = XFin v2 -> 0 < nr lm2 ->
  joined lm1 lm2 lm ->
  exists d s, cell lm2 0 0 = XFin s /\ dtw cdist x y o = Ok d /\
    leb (r_distance d) (XFin (v1 + v2 + (w - Q2Qc 1) * s)%Qc : NumQ) = true.
Proof.
  intros WP Hob Hoe Hk HC1 Hd1 E1 Hq1 HC2 Hd2 E2 Hq2 [Jn [Jm [J1 J2]]].
  assert (Sp : forall cdist x y (lm : mat NumQ) d, costs_of cdist x y lm -> dtw cdist x y o = Ok d ->
     r_stepPattern d = sp /\ r_windowFunction d = NoWindow /\ pattern_rules (r_stepPattern d) rules).
  { intros cd xx yy l d HC Hd. pose proof (wp_pattern _ _ _ _ _ _ _ _ WP) as P1. pose proof (ok_pattern _ _ _ _ _ _ HC Hd) as P2.
    apply pattern_of_ok in P1, P2. rewrite P1 in P2. injection P2 as P2. split; [auto|].
    assert (Hp : pattern_rules (r_stepPattern d) rules) by (rewrite <- P2; exact (wp_rules _ _ _ _ _ _ _ _ WP)).
    split; [|exact Hp]. pose proof (dtw_fields NumQ_laws _ _ _ _ _ _ _ HC Hd Hp) as [_ [_ [_ [_ [HW _]]]]].
    rewrite <- (window_of_canon _ _ HW). apply window_of_canon. exact (wp_window _ _ _ _ _ _ _ _ WP). }
  assert (Hv : forallb valid_rule rules = true) by apply (wp_rules _ _ _ _ _ _ _ _ WP).
  destruct (Sp _ _ _ _ _ HC1 Hd1) as [S1 [W1 P1]]. destruct (Sp _ _ _ _ _ HC2 Hd2) as [S2 [W2 P2]].
  assert (B : forall cdist x y (lm : mat NumQ) d v, costs_of cdist x y lm -> dtw cdist x y o = Ok d -> r_distance d = XFin v -> 0 < nr lm ->
     0 < nc lm /\ exists ks vs ts, walk rules (cell lm) (nr lm) (nc lm) (closed_source lm) (fun _ _ => True) ks vs ts (nr lm - 1, nc lm - 1) (XFin v : NumQ)).
  { intros cd xx yy l d v HC Hd Ed Hq. destruct (Sp _ _ _ _ _ HC Hd) as [S [W P]].
    destruct (dtw_fields NumQ_laws _ _ _ _ _ _ _ HC Hd P) as [_ [_ [_ [_ [_ [_ [_ [Hj0 [Hj _]]]]]]]]].
    pose proof (dtw_best NumQ_laws _ _ _ _ _ _ _ HC Hd P) as [[ks [vs [ts [X _]]]] _]. rewrite Hob, W, (Hj Hoe), Ed in X.
    split; [lia|]. exists ks, vs, ts. exact X. }
  destruct (B _ _ _ _ _ _ HC1 Hd1 E1 Hq1) as [Hm1 [ks1 [vs1 [ts1 X1]]]]. destruct (B _ _ _ _ _ _ HC2 Hd2 E2 Hq2) as [Hm2 [ks2 [vs2 [ts2 X2]]]].
  (* the first cell of the second part is finite *)
  assert (Fs : exists s, cell lm2 0 0 = XFin s).
  { destruct (cell lm2 0 0) as [| | |s] eqn:Es; [| | |eauto]; exfalso;
    (assert (Z : forall ks vs ts p c, walk rules (cell lm2) (nr lm2) (nc lm2) (closed_source lm2) (fun _ _ => True) ks vs ts p c -> ~ finiteq c);
     [|exact (Z _ _ _ _ _ X2 I)]);
    intros ks vs ts p c W; (induction W as [i j c Hso Hi Hj | ks vs ts i1 j1 c k0 r Hwk IH Hk0 Hi Hj Ha];
      [destruct (source_inv _ _ _ _ Hso) as [_ [_ ->]]; rewrite Es; intros []|unfold charge; apply fold_special; exact IH]). }
  destruct Fs as [s Es].
  assert (C1 : walk rules (cell lm) (nr lm) (nc lm) (closed_source lm) (fun _ _ => True) ks1 vs1 ts1 (nr lm1 - 1, nc lm1 - 1) (XFin v1 : NumQ)).
  { eapply (walk_corner rules Hv); [| | | |exact X1]; [lia|lia|exact J1|].
    intros i j c Hs Hi Hj. destruct (source_inv _ _ _ _ Hs) as [-> [-> ->]]. rewrite <- (J1 0 0) by lia. reflexivity. }
  assert (C2 : exists vs ts, walk rules (cell lm) (nr lm) (nc lm) (closed_source lm) (fun _ _ => True) (ks1 ++ [k]) vs ts (nr lm1, nc lm1) (XFin (s + (v1 + (w - Q2Qc 1) * s))%Qc : NumQ)).
  { pose proof (walk_step rules (cell lm) (nr lm) (nc lm) (closed_source lm) (fun _ _ => True) _ _ _ _ _ _ k _ C1 Hk) as X.
    cbn [r_di r_dj] in X. replace (nr lm1 - 1 + 1) with (nr lm1) in X by lia. replace (nc lm1 - 1 + 1) with (nc lm1) in X by lia.
    specialize (X ltac:(lia) ltac:(lia) I). unfold charge in X. cbn [r_add fold_left fst snd] in X. rewrite !Nat.sub_0_r in X.
    pose proof (J2 0 0 Hq2 Hm2) as Ec. rewrite !Nat.add_0_r, Es in Ec. rewrite Ec in X. cbn [macc NumQ xq_mul xq_add] in X.
    replace (v1 + w * s)%Qc with (s + (v1 + (w - Q2Qc 1) * s))%Qc in X by ring. eauto. }
  destruct C2 as [vs0 [ts0 C2]].
  destruct (walk_after rules Hv (v1 + (w - Q2Qc 1) * s)%Qc s (cell lm) (cell lm2) (nr lm1) (nc lm1) (nr lm) (nc lm) (nr lm2) (nc lm2) (closed_source lm) (closed_source lm2)
     ks2 vs2 ts2 (nr lm2 - 1, nc lm2 - 1) (XFin v2) Jn Jm J2) with (t := v2) as [ks [vs [ts [W Hne]]]].
  { intros i j c Hs. destruct (source_inv _ _ _ _ Hs) as [-> [-> ->]]. rewrite Es. auto. }
  { exists (ks1 ++ [k]), vs0, ts0. split; [exact C2|destruct ks1; discriminate]. }
  { exact X2. } { reflexivity. }
  cbn [fst snd] in W. replace (nr lm1 + (nr lm2 - 1)) with (nr lm - 1) in W by lia. replace (nc lm1 + (nc lm2 - 1)) with (nc lm - 1) in W by lia.
  set (tot := (v1 + v2 + (w - Q2Qc 1) * s)%Qc). replace (v2 + (v1 + (w - Q2Qc 1) * s))%Qc with tot in W by (unfold tot; ring).
  assert (U : usable ks (XFin tot : NumQ)) by (split; [reflexivity|intros _; reflexivity]).
  destruct (dtw_closed_end_iff NumQ_laws _ _ _ _ _ _ _ _ WP Hoe) as [[_ F]|[d [E [T1 [T2 _]]]]].
  - exfalso. rewrite Hob in F. exact (F _ _ _ _ W U).
  - exists d, s. split; [exact Es|]. split; [exact E|].
    pose proof (wp_costs _ _ _ _ _ _ _ _ WP) as HC.
    assert (Hp2 : pattern_rules (r_stepPattern d) rules) by (rewrite T1; exact (wp_rules _ _ _ _ _ _ _ _ WP)).
    destruct (dtw_fields NumQ_laws _ _ _ _ _ _ _ HC E Hp2) as [_ [_ [_ [_ [_ [Ea2 [_ [_ [Hj2 _]]]]]]]]].
    pose proof (dtw_best NumQ_laws _ _ _ _ _ _ _ HC E Hp2) as [_ BB].
    rewrite Hob, (Hj2 Hoe), T2 in BB. exact (BB _ _ _ _ W U).
Qed.

Lemma diagonal_of k l : lookup k predefined = Some l -> ~ In k negative_names ->
  exists n, rule_no (@productions NumQ l) n = Some (Rule 1 1 [(0, 0, XFin (qc_ofZ (diagonal_weight k)) : NumQ)]).
Proof.
  intros H Hk.
  assert (G : forallb (fun kl => String.eqb (fst kl) "_symmetricVelichkoZagoruyko" ||
     existsb (fun r => (w_di r =? 1) && (w_dj r =? 1) && match w_add r with
       | [(0, 0, (z, 1%Z))] => Z.eqb z (diagonal_weight (fst kl)) | _ => false end) (snd kl)) predefined = true) by (vm_compute; reflexivity).
  rewrite forallb_forall in G. specialize (G _ (lookup_In _ _ _ H)). cbn [fst snd] in G.
  destruct (String.eqb_spec k "_symmetricVelichkoZagoruyko") as [->|]; [exfalso; apply Hk; left; reflexivity|]. cbn [orb] in G.
  apply existsb_exists in G. destruct G as [r [Hr G]]. apply andb_prop in G. destruct G as [G G3]. apply andb_prop in G. destruct G as [G1 G2].
  apply Nat.eqb_eq in G1, G2. destruct r as [di dj adds]. cbn [w_di w_dj w_add] in *. subst.
  destruct adds as [|[[[|?] [|?]] [z [|[?|?|]|?]]] [|]]; try discriminate. apply Z.eqb_eq in G3. subst z.
  apply (in_map (@production NumQ)) in Hr. destruct (in_rule_no _ _ Hr) as [kk Hn]. exists kk. unfold productions. rewrite Hn. f_equal.
Qed.

Theorem joined_named cdist x y cdist1 x1 y1 cdist2 x2 y2 o (lm lm1 lm2 : mat NumQ) k sp d1 d2 v1 v2 s :
  lookup k pattern_table = Some sp -> ~ In k negative_names -> pattern_of (o_step_pattern o) sp ->
  window_of (o_window_type o) NoWindow -> o_open_begin o = false -> o_open_end o = false ->
  costs_of cdist x y lm -> native_array x y -> size_ok (nr lm) (nc lm) ->
  costs_of cdist1 x1 y1 lm1 -> dtw cdist1 x1 y1 o = Ok d1 -> r_distance d1 = XFin v1 -> 0 < nr lm1 ->
  costs_of cdist2 x2 y2 lm2 -> dtw cdist2 x2 y2 o = Ok d2 -> r_distance d2 = XFin v2 -> 0 < nr lm2 ->
  joined lm1 lm2 lm -> cell lm2 0 0 = XFin s ->
  exists d, dtw cdist x y o = Ok d /\
    leb (r_distance d) (XFin (v1 + v2 + (qc_ofZ (diagonal_weight k) - Q2Qc 1) * s)%Qc : NumQ) = true.
Proof.
  intros Hk Hneg Hpo Hwo Hob Hoe HC Hn Hsz HC1 Hd1 E1 Hq1 HC2 Hd2 E2 Hq2 J Es.
  destruct (predefined_rules NumQ_laws _ _ Hk) as [l [Hl Hp]].
  destruct (diagonal_of _ _ Hl Hneg) as [n Hdn].
  assert (WP : well_posed cdist x y o lm sp (productions l) NoWindow).
  { constructor; auto; unfold rows_used; rewrite ?Hob; auto; try exact I; try congruence. apply Hsz. }
  destruct (joined_distance _ _ _ _ _ _ _ _ _ _ _ _ _ _ _ _ _ _ _ _ _ WP Hob Hoe Hdn HC1 Hd1 E1 Hq1 HC2 Hd2 E2 Hq2 J) as [d [s' [Es' [D LE]]]].
  rewrite Es in Es'. injection Es' as <-. exists d. auto.
Qed.
