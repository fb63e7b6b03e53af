(** Stable.v - the distance depends continuously on the local costs (proofs for C64). *)
From Coq Require Import QArith Qcanon Lqa ZifyBool ZifyNat.
From Verif Require Import Base Num NumQ NumQLaws StepPattern Window Core Backtrack Dtw Spec Api Tables Vocab Terms
  CoreProof DPProof DtwProof ApiProof ApiThms Uniq Thm2 Thm5 Thm9 WalkGeom Thm11 Derived Derived2 Thm22 Thm23 Sim Thm31 StableSpec.
Open Scope string_scope.
Open Scope list_scope.
Open Scope nat_scope.

Lemma shift_exists (l : list xq) : exists K : Qc, forall a, In (XFin a) l -> (Q2Qc 0 <= a + K)%Qc.
Proof.
  assert (Q : exists K : Qc, (Q2Qc 0 <= K)%Qc /\ forall a, In (XFin a) l -> (Q2Qc 0 <= a + K)%Qc).
  { induction l as [|x l [K [K0 IH]]].
    - exists (Q2Qc 0). split; [apply Qcle_refl|]. intros a [].
    - destruct x as [| | |b]; try (exists K; split; [exact K0|]; intros a [C|H]; [discriminate|apply IH; exact H]).
      destruct (Qclt_le_dec b (Q2Qc 0)) as [Hb|Hb].
      + exists (K - b)%Qc. unfold Qcle, Qclt in *. rewrite this_ofQ in *.
        split; [rewrite this_sub; lra|]. intros a [E|H]; [injection E as <-; rewrite this_add, this_sub, this_ofQ; lra|].
        specialize (IH a H). rewrite this_add, this_ofQ in IH. rewrite this_add, this_sub, this_ofQ. lra.
      + exists K. split; [exact K0|]. intros a [E|H]; [injection E as <-|apply IH; exact H].
        unfold Qcle in *. rewrite this_ofQ in *. rewrite this_add. lra. }
  destruct Q as [K [_ H]]. exists K. exact H.
Qed.

Lemma cell_in (lm : mat NumQ) i j v : cell lm i j = XFin v -> In (XFin v) (dat lm).
Proof.
  unfold cell. destruct (mget lm i j) as [u|] eqn:E; [|discriminate]. intros ->. unfold mget in E. destruct (_ && _); [|discriminate].
  eapply nth_error_In. exact E.
Qed.

Lemma hint_not_negative k (sp : steppat NumQ) al be : lookup k pattern_table = Some sp -> hint_law (hint sp) = Some (al, be) ->
  ~ In k negative_names.
Proof. intros H Hh [<-|[]]. injection H as <-. discriminate. Qed.

Definition dcall : mat NumQ -> mat NumQ -> out (mat NumQ) := fun _ _ => Raise TypeError.
Definition direct (lm : mat NumQ) : ndarray NumQ := NdArray (Nd2 lm) true true.
Lemma direct_costs lm : wf_mat lm -> costs_of dcall (direct lm) None lm.
Proof. intros H. apply costs_one; [reflexivity|exact H]. Qed.

Lemma raised_shift e K (lm lm' : mat NumQ) : perturbed e lm lm' ->
  raised (plus_cost K lm') (plus_cost (e + K) lm).
Proof.
  intros [E1 [E2 H]]. split; [cbn; auto|]. split; [cbn; auto|]. cbn [plus_cost nr nc]. intros i j Hi Hj.
  rewrite !plus_cost_cell. rewrite E1 in Hi. rewrite E2 in Hj. specialize (H i j Hi Hj). unfold near in H.
  destruct (cell lm i j) as [| | |a], (cell lm' i j) as [| | |b]; try contradiction; cbn; auto.
  left. apply xq_leb_fin. destruct H as [_ H]. unfold Qcle in *. rewrite !this_add in *. lra.
Qed.
Lemma nonneg_shift K (lm : mat NumQ) : (forall a, In (XFin a) (dat lm) -> (Q2Qc 0 <= a + K)%Qc) ->
  (forall i j, i < nr lm -> j < nc lm -> cell lm i j <> XNInf) -> nonneg_costs (plus_cost K lm).
Proof.
  intros H Hn i j Hi Hj. cbn [plus_cost nr nc] in Hi, Hj. rewrite plus_cost_cell. specialize (Hn i j Hi Hj).
  destruct (cell lm i j) as [| | |a] eqn:E; cbn; auto; try congruence. left. apply xq_leb_fin. apply H. eapply cell_in; exact E.
Qed.
Lemma perturbed_sym e lm lm' : perturbed e lm lm' -> perturbed e lm' lm.
Proof.
  intros [E1 [E2 H]]. split; [auto|]. split; [auto|]. rewrite E1, E2. intros i j Hi Hj. specialize (H i j Hi Hj). unfold near in *.
  destruct (cell lm i j), (cell lm' i j); try contradiction; tauto.
Qed.
Lemma perturbed_ninf e lm lm' i j : perturbed e lm lm' -> i < nr lm' -> j < nc lm' -> cell lm' i j <> XNInf.
Proof.
  intros [E1 [E2 H]] Hi Hj C. rewrite E1 in Hi. rewrite E2 in Hj. specialize (H i j Hi Hj). rewrite C in H. unfold near in H.
  destruct (cell lm i j); contradiction.
Qed.

(** A chain of three calls: costs raised by e + K, then lowered to lm' + K, then by K. *)
Lemma chain e cdist x y o (lm lm' : mat NumQ) d k al be :
  costs_of cdist x y lm -> dtw cdist x y o = Ok d -> 0 < nr lm -> wf_mat lm' ->
  lookup k pattern_table = Some (r_stepPattern d) -> hint_law (hint (r_stepPattern d)) = Some (al, be) ->
  (o_open_end o = true -> hint (r_stepPattern d) = "N") -> perturbed e lm lm' ->
  exists K d1 d2, costs_of dcall (direct (plus_cost (e + K) lm)) None (plus_cost (e + K) lm) /\
    costs_of dcall (direct (plus_cost K lm')) None (plus_cost K lm') /\
    dtw dcall (direct (plus_cost (e + K) lm)) None o = Ok d1 /\
    dtw dcall (direct (plus_cost K lm')) None o = Ok d2 /\
    r_stepPattern d1 = r_stepPattern d /\ r_stepPattern d2 = r_stepPattern d /\
    (o_open_end o = false -> leb (r_distance d2) (r_distance d1) = true) /\
    (o_open_end o = true -> leb (r_normalizedDistance d2) (r_normalizedDistance d1) = true).
Proof.
  intros HC Hd Hq Hw Hk Hh He HP. destruct (shift_exists (dat lm')) as [K HK].
  destruct (predefined_rules NumQ_laws _ _ Hk) as [l [Hl Hp]].
  pose proof (direct_costs (plus_cost (e + K) lm) (plus_cost_wf (e + K) lm (costs_of_wf _ _ _ _ HC))) as C1.
  pose proof (direct_costs (plus_cost K lm') (plus_cost_wf K lm' Hw)) as C2.
  destruct (plus_constant (e + K) _ _ _ _ _ _ _ _ _ _ _ _ HC Hd Hq Hk Hh He C1 (or_intror (conj eq_refl eq_refl))) as [d1 [D1 [_ [_ [_ [_ S1]]]]]].
  assert (Hp1 : pattern_rules (r_stepPattern d1) (productions l)) by (rewrite S1; exact Hp).
  assert (NW : nonneg_weights (@productions NumQ l)) by (eapply predefined_nonneg; [exact NumQ_laws|exact Hl|eapply hint_not_negative; eassumption]).
  assert (NC : nonneg_costs (plus_cost K lm')) by (apply nonneg_shift; [exact HK|intros i j; eapply perturbed_ninf; exact HP]).
  assert (Hq' : 0 < nr (plus_cost K lm')) by (change (0 < nr lm'); rewrite (proj1 HP); exact Hq).
  assert (SP : forall d2, dtw dcall (direct (plus_cost K lm')) None o = Ok d2 -> r_stepPattern d2 = r_stepPattern d).
  { intros d2 D2. rewrite <- S1. pose proof (ok_pattern _ _ _ _ _ _ C2 D2) as P2. pose proof (ok_pattern _ _ _ _ _ _ C1 D1) as P1.
    apply pattern_of_ok in P1, P2. rewrite P1 in P2. injection P2 as ->. reflexivity. }
  exists K, d1. destruct (o_open_end o) eqn:Eo.
  - destruct (raised_open_end NumQ_laws _ _ _ _ _ o _ _ d1 _ C2 (or_intror (conj eq_refl eq_refl)) C1 D1 Hp1 Hq' NW NC (raised_shift e K lm lm' HP) Eo) as [d2 [D2 LE]].
    exists d2. repeat split; auto; discriminate.
  - destruct (raised_closed_end NumQ_laws _ _ _ _ _ o _ _ d1 _ C2 (or_intror (conj eq_refl eq_refl)) C1 D1 Hp1 Hq' NW NC (raised_shift e K lm lm' HP) Eo) as [d2 [D2 LE]].
    exists d2. repeat split; auto; discriminate.
Qed.

Lemma shift_le (w e K : Qc) (u u1 u2 u' : NumQ) :
  u1 = add u (mul (XFin w : NumQ) (XFin (e + K)%Qc)) -> leb u2 u1 = true ->
  u' = add u2 (mul (XFin w : NumQ) (XFin (- K)%Qc)) -> leb u' (add u (mul (XFin w : NumQ) (XFin e))) = true.
Proof.
  intros -> H ->. destruct u as [| | |u], u2 as [| | |u2]; try discriminate; try reflexivity.
  apply xq_leb_fin. apply xq_leb_fin in H. unfold Qcle in *. repeat rewrite ?this_add, ?this_mul, ?this_opp in H. repeat rewrite ?this_add, ?this_mul, ?this_opp. 
  lra.
Qed.

Definition total (o : opts NumQ) (lm : mat NumQ) (al be : nat) : nat :=
  if o_open_begin o then nr lm else 1 + (al * (nr lm - 1) + be * (nc lm - 1)).

Lemma stable_one e cdist x y cdist' x' y' o (lm lm' : mat NumQ) d k al be :
  costs_of cdist x y lm -> dtw cdist x y o = Ok d -> 0 < nr lm ->
  lookup k pattern_table = Some (r_stepPattern d) -> hint_law (hint (r_stepPattern d)) = Some (al, be) ->
  o_open_end o = false ->
  costs_of cdist' x' y' lm' -> (o_open_begin o = true \/ native_array x' y') -> perturbed e lm lm' ->
  exists d', dtw cdist' x' y' o = Ok d' /\ r_stepPattern d' = r_stepPattern d /\
    leb (r_distance d') (add (r_distance d) (mul (ofZ (Z.of_nat (total o lm al be))) (XFin e : NumQ))) = true.
Proof.
  intros HC Hd Hq Hk Hh Ho HC' Hn HP.
  assert (He : o_open_end o = true -> hint (r_stepPattern d) = "N") by (intros C; congruence).
  destruct (chain e _ _ _ _ _ _ _ _ _ _ HC Hd Hq (costs_of_wf _ _ _ _ HC') Hk Hh He HP) as [K [d1 [d2 [C1 [C2 [D1 [D2 [S1 [S2 [LE _]]]]]]]]]].
  destruct (predefined_rules NumQ_laws _ _ Hk) as [l [Hl Hp]].
  assert (JM : forall cdist x y (lm : mat NumQ) d0, costs_of cdist x y lm -> dtw cdist x y o = Ok d0 -> r_stepPattern d0 = r_stepPattern d -> r_jmin d0 = nc lm - 1).
  { intros cd a b g d0 A1 A2 A3. apply (normalization_rule NumQ_laws _ _ _ _ _ d0 (productions l) A1 A2); [rewrite A3; exact Hp|exact Ho]. }
  destruct (plus_constant (e + K) _ _ _ _ _ _ _ _ _ _ _ _ HC Hd Hq Hk Hh He C1 (or_intror (conj eq_refl eq_refl))) as [d1' [D1' [E1 _]]].
  rewrite D1 in D1'. injection D1' as <-.
  assert (Hk2 : lookup k pattern_table = Some (r_stepPattern d2)) by (rewrite S2; exact Hk).
  assert (Hh2 : hint_law (hint (r_stepPattern d2)) = Some (al, be)) by (rewrite S2; exact Hh).
  assert (He2 : o_open_end o = true -> hint (r_stepPattern d2) = "N") by (intros C; congruence).
  assert (Hq2 : 0 < nr (plus_cost K lm')) by (change (0 < nr lm'); rewrite (proj1 HP); exact Hq).
  assert (C3 : costs_of cdist' x' y' (plus_cost (- K) (plus_cost K lm'))) by (rewrite plus_minus; exact HC').
  destruct (plus_constant (- K) _ _ _ _ _ _ _ _ _ _ _ _ C2 D2 Hq2 Hk2 Hh2 He2 C3 Hn) as [d' [D' [E2 [_ [_ [_ S3]]]]]].
  exists d'. split; [exact D'|]. split; [congruence|].
  rewrite (JM _ _ _ _ _ HC Hd eq_refl) in E1. rewrite (JM _ _ _ _ _ C2 D2 S2) in E2. cbn [plus_cost nr nc] in E2.
  rewrite (proj1 HP), (proj1 (proj2 HP)) in E2. fold (total o lm al be) in E1, E2.
  exact (shift_le _ _ _ _ _ _ _ E1 (LE Ho) E2).
Qed.

(** Closed end. *)
Theorem stable_closed e cdist x y cdist' x' y' o (lm lm' : mat NumQ) d k al be :
  costs_of cdist x y lm -> dtw cdist x y o = Ok d -> 0 < nr lm ->
  lookup k pattern_table = Some (r_stepPattern d) -> hint_law (hint (r_stepPattern d)) = Some (al, be) ->
  o_open_end o = false ->
  costs_of cdist' x' y' lm' -> (o_open_begin o = true \/ native_array x' y') -> perturbed e lm lm' ->
  exists d', dtw cdist' x' y' o = Ok d' /\
    differ_at_most (mul (ofZ (Z.of_nat (if o_open_begin o then nr lm else 1 + (al * (nr lm - 1) + be * (nc lm - 1))))) (XFin e : NumQ))
      (r_distance d) (r_distance d').
Proof.
  intros HC Hd Hq Hk Hh Ho HC' Hn HP.
  destruct (stable_one e _ _ _ _ _ _ _ _ _ _ _ _ _ HC Hd Hq Hk Hh Ho HC' Hn HP) as [d' [D' [S LE]]].
  exists d'. split; [exact D'|]. split; [|exact LE].
  destruct (predefined_rules NumQ_laws _ _ Hk) as [l [Hl Hp]].
  pose proof (wp_native _ _ _ _ _ _ _ _ (ok_well_posed NumQ_laws _ _ _ _ _ _ _ HC Hd Hp Hq)) as Hn0.
  destruct (stable_one e _ _ _ cdist x y o lm' lm d' k al be HC' D') as [d0 [D0 [_ LE0]]]; auto.
  - rewrite (proj1 HP). exact Hq.
  - rewrite S. exact Hk.
  - rewrite S. exact Hh.
  - apply perturbed_sym. exact HP.
  - rewrite Hd in D0. injection D0 as <-. unfold total in LE0. rewrite (proj1 HP), (proj1 (proj2 HP)) in LE0. exact LE0.
Qed.

Lemma shift_le1 (e K : Qc) (u u1 u2 u' : NumQ) :
  u1 = add u (XFin (e + K)%Qc : NumQ) -> leb u2 u1 = true ->
  u' = add u2 (XFin (- K)%Qc : NumQ) -> leb u' (add u (XFin e : NumQ)) = true.
Proof.
  intros -> H ->. destruct u as [| | |u], u2 as [| | |u2]; try discriminate; try reflexivity.
  apply xq_leb_fin. apply xq_leb_fin in H. unfold Qcle in *. repeat rewrite ?this_add, ?this_mul, ?this_opp in H. repeat rewrite ?this_add, ?this_mul, ?this_opp. 
  lra.
Qed.

(** ** Walks in perturbed costs *)
Definition finiteq (x : NumQ) : Prop := match x with XFin _ => True | _ => False end.
Lemma fold_special (cost : nat -> nat -> NumQ) i j adds v : ~ finiteq v ->
  ~ finiteq (fold_left (fun c (a : nat * nat * NumQ) => macc c (snd a) (cost (i - fst (fst a)) (j - snd (fst a)))) adds v).
Proof.
  revert v. induction adds as [|a adds IH]; intros v Hv; cbn [fold_left]; [exact Hv|]. apply IH.
  destruct v as [| | |q]; [| | |exfalso; apply Hv; exact I]; cbn [macc NumQ]; destruct (xq_mul _ _); cbn; auto.
Qed.
Section Near.
Variables (l : list wrule) (al be : nat) (e : Qc) (cost cost' : nat -> nat -> NumQ) (n m : nat)
          (source source' : nat -> nat -> option NumQ) (allowed : nat -> nat -> Prop).
Hypothesis Hw : weighs al be l.
Hypothesis Hnn : forallb wnonneg l = true.
Hypothesis Hc : forall i j, i < n -> j < m -> near e (cost i j) (cost' i j).
Hypothesis Hs : forall i j c, source i j = Some c -> i < n -> j < m -> i = 0 /\ j = 0 /\ exists c', source' i j = Some c' /\ near e c c'.

Lemma charges_near i j adds q q' b : i < n -> j < m ->
  denoms adds -> forallb (fun a => (0 <=? fst (snd a))%Z) adds = true -> (this q' <= this q + b)%Q ->
  forall t, fold_left (fun c (a : nat * nat * NumQ) => macc c (snd a) (cost (i - fst (fst a)) (j - snd (fst a))))
      (map (fun a => (fst a, @weight NumQ (snd a))) adds) (XFin q) = XFin t ->
  exists t', fold_left (fun c (a : nat * nat * NumQ) => macc c (snd a) (cost' (i - fst (fst a)) (j - snd (fst a))))
      (map (fun a => (fst a, @weight NumQ (snd a))) adds) (XFin q') = XFin t' /\
   (this t' <= this t + (b + this e * wsum adds))%Q.
Proof.
  intros Hi Hj. revert q q' b. induction adds as [|a adds IH]; intros q q' b D P Hb t.
  - cbn [map fold_left]. intros E. injection E as <-. exists q'. split; [reflexivity|]. cbn [wsum fold_right]. lra.
  - cbn [map fold_left fst snd]. cbn [forallb] in P. apply andb_prop in P. destruct P as [P1 P2].
    rewrite weight_q by (apply D; left; reflexivity). pose proof (Hc (i - fst (fst a)) (j - snd (fst a)) ltac:(lia) ltac:(lia)) as Nr.
    destruct (cost (i - fst (fst a)) (j - snd (fst a))) as [| | |x] eqn:Ex, (cost' (i - fst (fst a)) (j - snd (fst a))) as [| | |x'] eqn:Ex'; try contradiction.
    + cbn [macc NumQ xq_add xq_mul]. intros E. exfalso.
      match type of E with fold_left _ ?k ?v = _ => apply (fold_special cost i j k v); [|exact (@eq_ind_r _ (XFin t) finiteq I _ E)] end. intros [].
    + cbn [macc NumQ xq_mul]. intros E. exfalso.
      match type of E with fold_left _ ?k ?v = _ => apply (fold_special cost i j k v); [|exact (@eq_ind_r _ (XFin t) finiteq I _ E)] end. unfold xq_sgn_inf. destruct (_ ?= _)%Qc; intros [].
    + cbn [macc NumQ xq_add xq_mul]. intros E. cbn [near] in Nr.
      destruct (IH (q + Q2Qc (fracq (snd a)) * x)%Qc (q' + Q2Qc (fracq (snd a)) * x')%Qc (b + this e * fracq (snd a))%Q) with (t := t) as [t' [E1 E2]]; auto.
      { intros c Hcc. apply D. right. exact Hcc. }
      { rewrite !this_add, !this_mul, !this_ofQ. destruct Nr as [_ Nr]. unfold Qcle in Nr. rewrite this_add in Nr.
        assert (F : (0 <= fracq (snd a))%Q) by (unfold fracq, Qle; cbn [Qnum Qden]; lia). nra. }
      exists t'. split; [exact E1|]. cbn [wsum fold_right]. fold (wsum adds). lra.
Qed.

Lemma walk_near ks vs ts p c : walk (productions l) cost n m source allowed ks vs ts p c ->
  forall t, c = XFin t ->
  exists t', walk (productions l) cost' n m source' allowed ks vs ts p (XFin t') /\
   (this t' <= this t + this e * inject_Z (1 + Z.of_nat (al * fst p + be * snd p)))%Q.
Proof.
  intros W. induction W as [i j c Hso Hi Hj | ks vs ts i1 j1 c k r Hwk IH Hk Hi Hj Ha]; intros t Et.
  - destruct (Hs _ _ _ Hso Hi Hj) as [-> [-> [c' [Es Nr]]]]. subst c. destruct c' as [| | |t']; try contradiction.
    exists t'. split; [constructor; assumption|]. cbn [fst snd]. rewrite !Nat.mul_0_r. destruct Nr as [_ Nr]. unfold Qcle in Nr. rewrite this_add in Nr.
    change (inject_Z (1 + Z.of_nat (0 + 0))) with 1%Q. lra.
  - destruct c as [| | |q]; try (exfalso; refine (fold_special cost (i1 + r_di r) (j1 + r_dj r) (r_add r) _ _ (@eq_ind_r _ (XFin t) finiteq I _ Et)); intros []; fail).
    destruct (IH q eq_refl) as [q' [W' LE]]. destruct (prod_rule _ _ _ Hk) as [w [Hin ->]]. destruct (Hw w Hin) as [D Ew].
    pose proof Hnn as Hn'. rewrite forallb_forall in Hn'. specialize (Hn' w Hin). cbn [production r_di r_dj] in *.
    destruct (charges_near (i1 + w_di w) (j1 + w_dj w) (w_add w) q q' _ Hi Hj D Hn' LE t Et) as [t' [E1 E2]].
    exists t'. split.
    + rewrite <- E1. change (fold_left _ _ _) with (charge cost' (production w) (i1 + r_di (@production NumQ w)) (j1 + r_dj (@production NumQ w)) (XFin q')).
      apply (walk_step _ cost' n m source' allowed ks vs ts i1 j1 (XFin q') k (production w)); assumption.
    + cbn [fst snd] in *. rewrite Ew in E2.
      assert (E : (1 + Z.of_nat (al * (i1 + w_di w) + be * (j1 + w_dj w)) =
        (1 + Z.of_nat (al * i1 + be * j1)) + Z.of_nat (al * w_di w + be * w_dj w))%Z) by nia.
      rewrite E, inject_Z_plus. set (A := inject_Z (1 + Z.of_nat (al * i1 + be * j1))) in *.
      set (B := inject_Z (Z.of_nat (al * w_di w + be * w_dj w))) in *. lra.
Qed.
End Near.

(** ** Normalized distances *)
Definition wrate (h : string) : nat := if String.eqb h "M" then 3 else 1.
Lemma div_near (e : Qc) (W r k : nat) (v v' : NumQ) : (Q2Qc 0 <= e)%Qc -> 1 <= k -> W <= r * k ->
  leb v' (add v (mul (ofZ (Z.of_nat W)) (XFin e : NumQ))) = true ->
  leb (div v' (ofZ (Z.of_nat k))) (add (div v (ofZ (Z.of_nat k))) (mul (ofZ (Z.of_nat r)) (XFin e : NumQ))) = true.
Proof.
  intros He Hk HW H.
  assert (Hz : qc_eqb (qc_ofZ (Z.of_nat k)) (Q2Qc 0) = false).
  { apply Bool.not_true_is_false. intros Ez. apply qc_eqb_eq in Ez. apply Qc_eq_this in Ez. rewrite this_ofZ, this_ofQ in Ez.
    change (inject_Z (Z.of_nat k) == inject_Z 0)%Q in Ez. apply (proj1 (inject_Z_injective _ _)) in Ez. lia. }
  assert (Hlz : qc_ltb (qc_ofZ (Z.of_nat k)) (Q2Qc 0) = false).
  { apply qc_ltb_false. unfold Qcle. rewrite this_ofZ, this_ofQ.
    change (inject_Z 0 <= inject_Z (Z.of_nat k))%Q. rewrite <- Zle_Qle. lia. }
  destruct v as [| | |v], v' as [| | |v']; try discriminate; cbn [xq_add xq_mul div add mul NumQ ofZ xq_div]; rewrite ?Hz, ?Hlz; try reflexivity.
  cbn [xq_add]. apply xq_leb_fin. cbn [add mul NumQ ofZ xq_add xq_mul] in H. apply xq_leb_fin in H.
  unfold Qcle in *. unfold Qcdiv. repeat rewrite ?this_add, ?this_mul, ?this_inv, ?this_ofZ in *. rewrite this_ofQ in He.
  assert (K1 : (1 <= inject_Z (Z.of_nat k))%Q) by (change 1%Q with (inject_Z 1); rewrite <- Zle_Qle; lia).
  assert (KW : (inject_Z (Z.of_nat W) <= inject_Z (Z.of_nat r) * inject_Z (Z.of_nat k))%Q) by (rewrite <- inject_Z_mult, <- Zle_Qle; lia).
  set (ik := inject_Z (Z.of_nat k)) in *. set (ir := inject_Z (Z.of_nat r)) in *. set (iw := inject_Z (Z.of_nat W)) in *.
  set (q := this v) in *. set (q' := this v') in *. set (ee := this e) in *. clearbody ik ir iw q q' ee.
  assert (E : (q * / ik + ir * ee == (q + ir * ik * ee) * / ik)%Q) by (field; lra). rewrite E.
  apply Qmult_le_compat_r; [|apply Qlt_le_weak, Qinv_lt_0_compat; lra].
  assert (iw * ee <= ir * ik * ee)%Q by (apply Qmult_le_compat_r; assumption). lra.
Qed.
Lemma norm_near (e : Qc) h al be n j (v v' : NumQ) : (Q2Qc 0 <= e)%Qc -> 0 < n -> hint_law h = Some (al, be) ->
  leb v' (add v (mul (ofZ (Z.of_nat (1 + (al * (n - 1) + be * j)))) (XFin e : NumQ))) = true ->
  leb (normalized h n j v') (add (normalized h n j v) (mul (ofZ (Z.of_nat (wrate h))) (XFin e : NumQ))) = true.
Proof.
  intros He Hn Hh H. unfold hint_law in Hh. unfold normalized, wrate. destruct (String.eqb_spec h "N") as [->|N1].
  - injection Hh as <- <-. cbn [String.eqb Ascii.eqb Bool.eqb]. eapply div_near; [exact He|lia| |exact H]. lia.
  - destruct (String.eqb_spec h "N+M") as [->|N2].
    + injection Hh as <- <-. cbn [String.eqb Ascii.eqb Bool.eqb].
      replace (Z.of_nat n + Z.of_nat j + 1)%Z with (Z.of_nat (n + j + 1)) by lia. eapply div_near; [exact He|lia| |exact H]. lia.
    + destruct (String.eqb_spec h "M") as [->|N3]; [|discriminate]. injection Hh as <- <-.
      replace (1 + Z.of_nat j)%Z with (Z.of_nat (1 + j)) by lia. eapply div_near; [exact He|lia| |exact H]. lia.
Qed.

Lemma wp_other_costs {N : Num} cdist cdist' x y x' y' (o : opts N) (lm lm' : mat N) sp rules w :
  well_posed cdist x y o lm sp rules w -> costs_of cdist' x' y' lm' -> (o_open_begin o = true \/ native_array x' y') ->
  nr lm' = nr lm -> nc lm' = nc lm -> well_posed cdist' x' y' o lm' sp rules w.
Proof.
  intros [C1 C2 C3 C4 C5 C6 C7 C8 C9 C10] Hc Hn E1 E2. unfold rows_used in *.
  constructor; auto; unfold rows_used; rewrite ?E1, ?E2; assumption.
Qed.

Lemma leb_trans_q (a b c : NumQ) : leb a b = true -> leb b c = true -> leb a c = true.
Proof.
  intros H1 H2. destruct a as [| | |a], b as [| | |b], c as [| | |c]; try discriminate; try reflexivity.
  apply xq_leb_fin in H1. apply xq_leb_fin in H2. apply xq_leb_fin. eapply Qcle_trans; eassumption.
Qed.
Lemma normalized_mono h n j (u v : NumQ) : 0 < n -> leb u v = true -> leb (normalized h n j u) (normalized h n j v) = true.
Proof.
  intros Hn H.
  assert (X : forall k, 1 <= k -> leb (div u (ofZ (Z.of_nat k))) (div v (ofZ (Z.of_nat k))) = true).
  { intros k Hk. pose proof (div_near (Q2Qc 0) 0 0 k v u (Qcle_refl _) Hk ltac:(lia)) as D.
    assert (Z : forall t : NumQ, add t (mul (ofZ (Z.of_nat 0)) (XFin (Q2Qc 0) : NumQ)) = t).
    { intros [| | |t]; try reflexivity. cbn. f_equal. rewrite Qcmult_comm. change (qc_ofZ 0) with (Q2Qc 0). ring. }
    rewrite !Z in D. apply D. exact H. }
  unfold normalized. destruct (String.eqb h "N+M").
  - replace (Z.of_nat n + Z.of_nat j + 1)%Z with (Z.of_nat (n + j + 1)) by lia. apply X. lia.
  - destruct (String.eqb h "N"); [apply X; lia|]. destruct (String.eqb h "M"); [|exact H].
    replace (1 + Z.of_nat j)%Z with (Z.of_nat (1 + j)) by lia. apply X. lia.
Qed.

Lemma closed_near e l al be (lm lm' : mat NumQ) w kw ks vs ts p t :
  weighs al be l -> forallb wnonneg l = true -> perturbed e lm lm' ->
  closed_walk (productions l) lm w kw ks vs ts p (XFin t) ->
  exists t', closed_walk (productions l) lm' w kw ks vs ts p (XFin t') /\
   (this t' <= this t + this e * inject_Z (1 + Z.of_nat (al * fst p + be * snd p)))%Q.
Proof.
  intros Hw Hn [E1 [E2 HP]] W. unfold closed_walk in *. rewrite E1, E2.
  eapply (walk_near l al be e (cell lm) (cell lm') (nr lm) (nc lm) (closed_source lm) (closed_source lm')); eauto.
  intros i j c Hs Hi Hj. unfold closed_source in *. destruct (Nat.eqb_spec i 0); [|discriminate]. destruct (Nat.eqb_spec j 0); [|discriminate]. cbn [andb] in *.
  injection Hs as <-. subst. split; [reflexivity|]. split; [reflexivity|]. eexists. split; [reflexivity|]. apply HP; assumption.
Qed.

Lemma fold_not_ninf (cost : nat -> nat -> NumQ) n m i j adds v : (forall i j, i < n -> j < m -> cost i j <> XNInf) -> i < n -> j < m ->
  denoms adds -> forallb (fun a => (0 <=? fst (snd a))%Z) adds = true -> v <> XNInf ->
  fold_left (fun c (a : nat * nat * NumQ) => macc c (snd a) (cost (i - fst (fst a)) (j - snd (fst a))))
      (map (fun a => (fst a, @weight NumQ (snd a))) adds) v <> XNInf.
Proof.
  intros Hc Hi Hj. revert v. induction adds as [|a adds IH]; intros v D P Hv; [exact Hv|].
  cbn [map fold_left fst snd]. cbn [forallb] in P. apply andb_prop in P. destruct P as [P1 P2]. apply IH.
  - intros b Hb. apply D. right. exact Hb.
  - exact P2.
  - rewrite weight_q by (apply D; left; reflexivity). specialize (Hc (i - fst (fst a)) (j - snd (fst a)) ltac:(lia) ltac:(lia)).
    assert (F : (Q2Qc 0 <= Q2Qc (fracq (snd a)))%Qc).
    { unfold Qcle. rewrite !this_ofQ. unfold fracq, Qle. cbn [Qnum Qden]. lia. }
    cbn [macc NumQ]. destruct (cost _ _) as [| | |x]; [|congruence| |]; cbn [xq_mul].
    + destruct v; discriminate.
    + unfold xq_sgn_inf. destruct (_ ?= _)%Qc eqn:Ecmp; [destruct v; discriminate| |destruct v; congruence || discriminate].
      exfalso. apply (Qclt_not_le _ _ Ecmp). exact F.
    + destruct v; cbn; congruence.
Qed.
Lemma walk_not_ninf l al be (cost : nat -> nat -> NumQ) n m (source : nat -> nat -> option NumQ) allowed ks vs ts p (c : NumQ) : weighs al be l -> forallb wnonneg l = true ->
  (forall i j, i < n -> j < m -> cost i j <> (XNInf : NumQ)) -> (forall i j c, source i j = Some c -> i < n -> j < m -> c <> (XNInf : NumQ)) ->
  walk (productions l) cost n m source allowed ks vs ts p c -> c <> (XNInf : NumQ).
Proof.
  intros Hw Hnn Hc Hs W. induction W as [i j c Hso Hi Hj | ks vs ts i1 j1 c k r Hwk IH Hk Hi Hj Ha].
  - eapply Hs; eassumption.
  - destruct (prod_rule _ _ _ Hk) as [w [Hin ->]]. destruct (Hw w Hin) as [D Ew].
    rewrite forallb_forall in Hnn. specialize (Hnn w Hin). unfold charge. cbn [production r_di r_dj r_add] in *.
    eapply fold_not_ninf; eassumption.
Qed.

Lemma source_inv {N : Num} (lm : mat N) i j c : closed_source lm i j = Some c -> i = 0 /\ j = 0 /\ c = cell lm 0 0.
Proof. unfold closed_source. destruct (Nat.eqb_spec i 0); [|discriminate]. destruct (Nat.eqb_spec j 0); [|discriminate]. intros H. injection H as <-. auto. Qed.
Lemma source_val {N : Num} (lm : mat N) i j : i = 0 -> j = 0 -> closed_source lm i j = Some (cell lm 0 0).
Proof. intros -> ->. reflexivity. Qed.

Lemma stable_normalized_one e cdist x y cdist' x' y' o (lm lm' : mat NumQ) d k al be :
  (Q2Qc 0 <= e)%Qc ->
  costs_of cdist x y lm -> dtw cdist x y o = Ok d -> 0 < nr lm ->
  lookup k pattern_table = Some (r_stepPattern d) -> hint_law (hint (r_stepPattern d)) = Some (al, be) ->
  costs_of cdist' x' y' lm' -> (o_open_begin o = true \/ native_array x' y') -> perturbed e lm lm' ->
  exists d', dtw cdist' x' y' o = Ok d' /\ r_stepPattern d' = r_stepPattern d /\
    leb (r_normalizedDistance d') (add (r_normalizedDistance d) (mul (ofZ (Z.of_nat (wrate (hint (r_stepPattern d))))) (XFin e : NumQ))) = true.
Proof.
  intros He HC Hd Hq Hk Hh HC' Hn HP.
  destruct (predefined_rules NumQ_laws _ _ Hk) as [l [Hl Hp]].
  assert (Hna : String.eqb (hint (r_stepPattern d)) "NA" = false) by (destruct (String.eqb_spec (hint (r_stepPattern d)) "NA") as [E|]; [rewrite E in Hh; discriminate|reflexivity]).
  pose proof (dtw_fields NumQ_laws _ _ _ _ _ _ _ HC Hd Hp) as [EN [EM [_ [_ [HW [EA [_ [Hj [Hjc [End [Hob _]]]]]]]]]]].
  rewrite Hna, EN in End.
  pose proof (ok_well_posed NumQ_laws _ _ _ _ _ _ _ HC Hd Hp Hq) as WP.
  pose proof (wp_other_costs _ _ _ _ _ _ _ _ _ _ _ _ WP HC' Hn (proj1 HP) (proj1 (proj2 HP))) as WP'.
  destruct (o_open_end o) eqn:Eo.
  - destruct (o_open_begin o) eqn:Eb.
    + (* both ends open: hint N *)
      destruct (Hob eq_refl) as [HN _].
      destruct (chain e _ _ _ _ _ _ _ _ _ _ HC Hd Hq (costs_of_wf _ _ _ _ HC') Hk Hh (fun _ => HN) HP) as [K [d1 [d2 [C1 [C2 [D1 [D2 [S1 [S2 [_ LE]]]]]]]]]].
      destruct (plus_constant_N (e + K) _ _ _ _ _ _ _ _ _ _ HC Hd Hq Hk HN C1 (or_intror (conj eq_refl eq_refl))) as [d1' [D1' [E1 _]]].
      rewrite D1 in D1'. injection D1' as <-.
      assert (C3 : costs_of cdist' x' y' (plus_cost (- K) (plus_cost K lm'))) by (rewrite plus_minus; exact HC').
      assert (Hq2 : 0 < nr (plus_cost K lm')) by (change (0 < nr lm'); rewrite (proj1 HP); exact Hq).
      destruct (plus_constant_N (- K) dcall (direct (plus_cost K lm')) None o _ d2 k cdist' x' y' C2 D2 Hq2) as [d' [D' [E2 _]]]; auto.
      { rewrite S2. exact Hk. } { rewrite S2. exact HN. }
      exists d'. split; [exact D'|]. split.
      { pose proof (ok_pattern _ _ _ _ _ _ HC' D') as P2. pose proof (ok_pattern _ _ _ _ _ _ HC Hd) as P1.
        apply pattern_of_ok in P1, P2. rewrite P1 in P2. injection P2 as ->. reflexivity. }
      rewrite HN. change (wrate "N") with 1.
      replace (mul (ofZ (Z.of_nat 1)) (XFin e : NumQ)) with (XFin e : NumQ) by (cbn; f_equal; change (qc_ofZ 1) with (Q2Qc 1); ring).
      exact (shift_le1 _ _ _ _ _ _ E1 (LE Eo) E2).
    + (* open end, closed begin *)
      destruct (hint_weighs _ _ _ _ _ Hk Hl Hh) as [Hw [Hnn _]].
      pose proof (dtw_best NumQ_laws _ _ _ _ _ _ _ HC Hd Hp) as [[ks [vs [ts [W U]]]] _]. rewrite Eb in W. cbn [admissible end_cell] in W. rewrite EA in W.
      assert (X : exists c', closed_walk (productions l) lm' (r_windowFunction d) (o_window_args o) ks vs ts (nr lm - 1, r_jmin d) c' /\ usable ks c' /\
        leb c' (add (r_distance d) (mul (ofZ (Z.of_nat (1 + (al * (nr lm - 1) + be * r_jmin d)))) (XFin e : NumQ))) = true).
      { destruct (r_distance d) as [| | |t] eqn:Ed.
        - destruct U as [U _]. discriminate.
        - exfalso. eapply (walk_not_ninf l al be); [exact Hw|exact Hnn| | |exact W|reflexivity].
          + intros i j Hi Hj0. eapply perturbed_ninf; [apply perturbed_sym; exact HP|exact Hi|exact Hj0].
          + intros i j c Hs Hi Hj0. unfold closed_source in Hs. destruct (_ && _); [|discriminate]. injection Hs as <-. eapply perturbed_ninf; [apply perturbed_sym; exact HP|lia|lia].
        - destruct U as [_ U]. destruct ks as [|kk ks]; [|exfalso; specialize (U ltac:(discriminate)); discriminate].
          inversion W as [i j c Hs Hi Hj1 E1 E2 E3 E4 E5 |]; [|destruct ks; discriminate].
          destruct (source_inv _ _ _ _ Hs) as [Z1' [Z2' Hs1]]. symmetry in Hs1.

          pose proof (proj2 (proj2 HP) 0 0 Hq ltac:(lia)) as Nr. rewrite Hs1 in Nr. destruct (cell lm' 0 0) as [| | |] eqn:Ec; try contradiction.
          exists (XPInf : NumQ). split; [|split; [split; [reflexivity|intros C; congruence]|reflexivity]].
          unfold closed_walk. rewrite (proj1 HP), (proj1 (proj2 HP)). constructor; [|exact Hi|exact Hj1]. eapply eq_trans; [apply source_val; assumption|rewrite Ec; reflexivity].
        - destruct (closed_near e l al be lm lm' _ _ _ _ _ _ _ Hw Hnn HP W) as [t' [W' LE]]. exists (XFin t' : NumQ). split; [exact W'|].
          split; [split; [reflexivity|intros _; reflexivity]|]. cbn [add mul ofZ NumQ xq_add xq_mul]. apply xq_leb_fin.
          unfold Qcle. rewrite this_add, this_mul, this_ofZ. cbn [fst snd] in LE. rewrite Nat2Z.inj_add. change (Z.of_nat 1) with 1%Z. eapply Qle_trans; [exact LE|]. apply Qplus_le_compat; [apply Qle_refl|]. rewrite Qmult_comm. apply Qle_refl. }
      destruct X as [c' [W' [U' LE]]].
      assert (Hj' : r_jmin d < nc lm') by (rewrite (proj1 (proj2 HP)); exact Hj).
      assert (Ex : exists d', dtw cdist' x' y' o = Ok d').
      { apply (proj1 (found_iff_open_end NumQ_laws _ _ _ _ _ _ _ _ WP' Eb Eo)). exists (r_jmin d), ks, vs, ts, c'. split; [exact Hj'|].
        rewrite (proj1 HP). split; assumption. }
      destruct Ex as [d' D']. exists d'. split; [exact D'|].
      assert (S : r_stepPattern d' = r_stepPattern d).
      { pose proof (ok_pattern _ _ _ _ _ _ HC' D') as P2. pose proof (ok_pattern _ _ _ _ _ _ HC Hd) as P1.
        apply pattern_of_ok in P1, P2. rewrite P1 in P2. injection P2 as ->. reflexivity. }
      split; [exact S|].
      assert (Hp' : pattern_rules (r_stepPattern d') (productions l)) by (rewrite S; exact Hp).
      assert (Hq' : 0 < nr lm') by (rewrite (proj1 HP); exact Hq).
      pose proof (dtw_fields NumQ_laws _ _ _ _ _ _ _ HC' D' Hp') as [_ [_ [_ [_ [HW' [EA' _]]]]]].
      assert (EW : r_windowFunction d' = r_windowFunction d) by (rewrite <- (window_of_canon _ _ HW'), <- (window_of_canon _ _ HW); reflexivity).
      destruct (open_end_choice NumQ_laws _ _ _ _ _ _ _ HC' D' Hp' Eo Hq') as [_ [_ [_ Best]]].
      destruct (column_best NumQ_laws _ _ _ _ _ _ _ _ (r_jmin d) ks vs ts c' WP' Hj') as [c0 [B0 L0]].
      { rewrite Eb. cbn [admissible end_cell]. exact (eq_ind_r (fun n => closed_walk (productions l) lm' (r_windowFunction d) (o_window_args o) ks vs ts (n - 1, r_jmin d) c') W' (proj1 HP)). } { exact U'. }
      rewrite EW, EA' in Best. destruct (Best _ _ Hj' B0) as [L1 _]. rewrite S, (proj1 HP) in L1.
      eapply leb_trans_q; [exact L1|]. eapply leb_trans_q; [apply normalized_mono; [exact Hq|exact L0]|].
      rewrite End. eapply norm_near; eassumption.
  - destruct (stable_one e _ _ _ _ _ _ _ _ _ _ _ _ _ HC Hd Hq Hk Hh Eo HC' Hn HP) as [d' [D' [S LE]]].
    exists d'. split; [exact D'|]. split; [exact S|].
    assert (Hp' : pattern_rules (r_stepPattern d') (productions l)) by (rewrite S; exact Hp).
    pose proof (dtw_fields NumQ_laws _ _ _ _ _ _ _ HC' D' Hp') as [EN' [_ [_ [_ [_ [_ [_ [_ [Hjc' [End' _]]]]]]]]]].
    rewrite S, Hna, EN' in End'. rewrite (Hjc' Eo), (proj1 HP), (proj1 (proj2 HP)) in End'. rewrite (Hjc eq_refl) in End.
    rewrite End, End'. eapply norm_near; [exact He|exact Hq|exact Hh|].
    unfold total in LE. destruct (o_open_begin o) eqn:Eb; [|exact LE].
    destruct (Hob eq_refl) as [HN _]. rewrite HN in Hh. injection Hh as <- <-.
    replace (1 + (1 * (nr lm - 1) + 0 * (nc lm - 1))) with (nr lm) by lia. exact LE.
Qed.

Lemma hint_law_na k (sp : steppat NumQ) : lookup k pattern_table = Some sp -> hint sp <> "NA" -> exists al be, hint_law (hint sp) = Some (al, be).
Proof.
  intros Hk Hna.
  assert (G : forallb (fun kl : string * steppat NumQ => String.eqb (hint (snd kl)) "NA" || (match hint_law (hint (snd kl)) with Some _ => true | None => false end)) (@pattern_table NumQ) = true) by (vm_compute; reflexivity).
  rewrite forallb_forall in G. specialize (G (k, sp) (lookup_In _ _ _ Hk)). cbn beta in G. cbn [snd] in G.
  destruct (String.eqb_spec (hint sp) "NA") as [E|]; [contradiction|]. cbn [orb] in G.
  destruct (hint_law (hint sp)) as [[al be]|]; [eauto|discriminate].
Qed.

Theorem stable_normalized e cdist x y cdist' x' y' o (lm lm' : mat NumQ) d k :
  (Q2Qc 0 <= e)%Qc ->
  costs_of cdist x y lm -> dtw cdist x y o = Ok d -> 0 < nr lm ->
  lookup k pattern_table = Some (r_stepPattern d) -> hint (r_stepPattern d) <> "NA" ->
  costs_of cdist' x' y' lm' -> (o_open_begin o = true \/ native_array x' y') -> perturbed e lm lm' ->
  exists d', dtw cdist' x' y' o = Ok d' /\
    differ_at_most (mul (ofZ (if String.eqb (hint (r_stepPattern d)) "M" then 3 else 1)) (XFin e : NumQ))
      (r_normalizedDistance d) (r_normalizedDistance d').
Proof.
  intros He HC Hd Hq Hk Hna HC' Hn HP.
  destruct (hint_law_na _ _ Hk Hna) as [al [be Hh]].
  assert (EW : ofZ (if String.eqb (hint (r_stepPattern d)) "M" then 3 else 1)%Z = ofZ (Z.of_nat (wrate (hint (r_stepPattern d)))) :> NumQ).
  { unfold wrate. destruct (String.eqb _ "M"); reflexivity. }
  rewrite EW. clear EW.
  destruct (stable_normalized_one e _ _ _ _ _ _ _ _ _ _ _ _ _ He HC Hd Hq Hk Hh HC' Hn HP) as [d' [D' [S LE]]].
  exists d'. split; [exact D'|]. split; [|exact LE].
  destruct (predefined_rules NumQ_laws _ _ Hk) as [l [Hl Hp]].
  pose proof (wp_native _ _ _ _ _ _ _ _ (ok_well_posed NumQ_laws _ _ _ _ _ _ _ HC Hd Hp Hq)) as Hn0.
  destruct (stable_normalized_one e _ _ _ cdist x y o lm' lm d' k al be He HC' D') as [d0 [D0 [_ LE0]]]; auto.
  - rewrite (proj1 HP). exact Hq.
  - rewrite S. exact Hk.
  - rewrite S. exact Hh.
  - apply perturbed_sym. exact HP.
  - rewrite Hd in D0. injection D0 as <-. rewrite S in LE0. exact LE0.
Qed.
