(** NumQLaws.v - the exact instance satisfies the laws. *)
From Coq Require Import QArith Qcanon Qround Lqa.
From Verif Require Import Base Num NumQ.
Open Scope Z_scope.

Lemma xq_leb_fin p q : xq_leb (XFin p) (XFin q) = true <-> (p <= q)%Qc.
Proof.
  unfold xq_leb; cbn [xq_ltb xq_eqb]. rewrite orb_true_iff, qc_ltb_lt, qc_eqb_eq. split.
  - intros [H | ->]; [apply Qclt_le_weak; exact H | apply Qcle_refl].
  - intros H. destruct (Qc_eq_dec p q) as [-> | n]; [right; reflexivity | left].
    qc2q. lra.
Qed.

Lemma ofZ_le a b : (qc_ofZ a <= qc_ofZ b)%Qc <-> a <= b.
Proof. qc2q. unfold inject_Z, Qle; simpl. lia. Qed.
Lemma ofZ_lt a b : (qc_ofZ a < qc_ofZ b)%Qc <-> a < b.
Proof. qc2q. unfold inject_Z, Qlt; simpl. lia. Qed.
Lemma ofZ_inj a b : qc_ofZ a = qc_ofZ b <-> a = b.
Proof. qc2q. unfold inject_Z, Qeq; simpl. lia. Qed.
Lemma ofZ_add a b : (qc_ofZ a + qc_ofZ b)%Qc = qc_ofZ (a + b).
Proof. qc2q. rewrite inject_Z_plus. reflexivity. Qed.
Lemma ofZ_mul a b : (qc_ofZ a * qc_ofZ b)%Qc = qc_ofZ (a * b).
Proof. qc2q. rewrite inject_Z_mult. reflexivity. Qed.
Lemma ofZ_opp a : (- qc_ofZ a)%Qc = qc_ofZ (- a).
Proof. qc2q. rewrite inject_Z_opp. reflexivity. Qed.

Lemma this_ofZ z : this (qc_ofZ z) = inject_Z z.
Proof.
  unfold qc_ofZ, Q2Qc, this. unfold inject_Z. unfold Qred.
  pose proof (Z.ggcd_gcd z 1) as H. pose proof (Z.ggcd_correct_divisors z 1) as H2.
  destruct (Z.ggcd z 1) as [g [aa bb]]. simpl in *.
  rewrite Z.gcd_1_r in H. subst g. destruct H2 as [H1 H2].
  rewrite Z.mul_1_l in *. subst. reflexivity.
Qed.

Lemma qc_trunc_ofZ z : qc_trunc (qc_ofZ z) = z.
Proof. unfold qc_trunc. rewrite this_ofZ. simpl. apply Z.quot_1_r. Qed.

Lemma ofZ_0 : qc_ofZ 0 = Q2Qc 0.
Proof. reflexivity. Qed.

Ltac qbool :=
  repeat match goal with
  | H : xq_leb (XFin _) (XFin _) = true |- _ => apply xq_leb_fin in H
  | |- xq_leb (XFin _) (XFin _) = true => apply xq_leb_fin
  | H : qc_ltb _ _ = true |- _ => apply qc_ltb_lt in H
  | H : qc_ltb _ _ = false |- _ => apply qc_ltb_false in H
  | H : qc_eqb _ _ = true |- _ => apply qc_eqb_eq in H
  | |- qc_ltb _ _ = true => apply qc_ltb_lt
  | |- qc_ltb _ _ = false => apply qc_ltb_false
  | |- qc_eqb _ _ = true => apply qc_eqb_eq
  end.

Ltac qfin := qbool; qc2q; try lra; try nra.

Lemma sgn_inf_cases q b :
  (xq_sgn_inf q b = XNan /\ q = Q2Qc 0)
  \/ (xq_sgn_inf q b = (if b then XPInf else XNInf) /\ (Q2Qc 0 < q)%Qc)
  \/ (xq_sgn_inf q b = (if b then XNInf else XPInf) /\ (q < Q2Qc 0)%Qc).
Proof.
  unfold xq_sgn_inf. destruct (q ?= Q2Qc 0)%Qc eqn:E.
  - left. split; [reflexivity | apply Qceq_alt; exact E].
  - right; right. split; [destruct b; reflexivity | apply Qclt_alt; exact E].
  - right; left. split; [destruct b; reflexivity |]. apply Qcgt_alt in E. exact E.
Qed.

Ltac sgn1 q b :=
  let E := fresh "E" in
  destruct (sgn_inf_cases q b) as [[E ?] | [[E ?] | [E ?]]]; rewrite E in *; clear E; cbn in *.
Ltac sgn :=
  repeat match goal with
  | _ : context [xq_sgn_inf ?q ?b] |- _ => sgn1 q b
  | |- context [xq_sgn_inf ?q ?b] => sgn1 q b
  end.

Ltac xcase := unfold good in *; cbn [V nan pinf ofZ add sub mul div vabs macc ltb leb eqb isnan isfin trunc NumQ] in *.
Ltac xred := unfold xq_leb in *; cbn in *.

Lemma frac_q a k : 1 <= k ->
  xq_div (XFin (qc_ofZ a)) (XFin (qc_ofZ k)) = XFin (Q2Qc (a # Z.to_pos k)).
Proof.
  intros Hk. cbn [xq_div].
  assert (E2 : qc_eqb (qc_ofZ k) (Q2Qc 0) = false).
  { apply Bool.not_true_is_false. intros E. apply qc_eqb_eq in E. rewrite <- ofZ_0 in E.
    apply ofZ_inj in E. lia. }
  rewrite E2. f_equal. apply Qc_is_canon. unfold Qcdiv, qc_ofZ.
  rewrite this_mul, this_inv, !this_ofQ.
  destruct k as [|p|p]; try lia. unfold Qeq, inject_Z. cbn. lia.
Qed.

Lemma trunc_frac a k : 0 <= a -> 1 <= k -> qc_trunc (Q2Qc (a # Z.to_pos k)) = a / k.
Proof.
  intros Ha Hk. unfold qc_trunc.
  pose proof (this_ofQ (a # Z.to_pos k)) as E. set (q := this (Q2Qc (a # Z.to_pos k))) in *.
  assert (F : Qfloor q = Qfloor (a # Z.to_pos k)) by (apply Qfloor_comp; exact E).
  unfold Qeq in E. destruct q as [n d]. cbn [Qnum Qden Qfloor] in *.
  rewrite Z2Pos.id in * by lia.
  rewrite Z.quot_div_nonneg by nia. exact F.
Qed.

Theorem NumQ_laws : NumLaws NumQ.
Proof.
  constructor; xcase.
  - intros []; cbn; congruence.
  - reflexivity.
  - intros [] w x; cbn; congruence.
  - intros [| | | q]; cbn; auto. apply qc_ltb_false, Qcle_refl.
  - intros [| | | p] [| | | q] [| | | r]; cbn; try congruence; intros; qfin.
  - intros [| | | p] [| | | q]; cbn; try congruence; intros; qbool; apply Qclt_le_weak; auto.
  - intros [| | | p] H; cbn in *; try congruence; auto. qbool. apply Qcle_refl.
  - intros [| | | p] [| | | q] [| | | r]; intros; qbool; try (cbn in *; congruence).
    eapply Qcle_trans; eauto.
  - intros [| | | p] [| | | q] [| | | r]; intros; qbool; cbn in *; try congruence; qbool; qfin.
  - intros [| | | p] [| | | q] [| | | r]; intros; qbool; cbn in *; try congruence; qbool; qfin.
  - intros [| | | p] [| | | q] H1 H2 H3; cbn in H1, H2, H3; try congruence; try reflexivity; qbool; auto.
  - intros [| | | p] [| | | q] H1 H2; qbool; try (cbn in *; congruence). cbn. qbool.
    apply Qcle_antisym; auto.
  - intros [| | | p] [| | | q] H; cbn in H; try congruence; try reflexivity.
    qbool. subst. apply Qcle_refl.
  - intros [| | | p] [| | | q]; cbn; auto. apply eq_true_iff_eq. rewrite !qc_eqb_eq. split; auto.
  - intros [| | | p] [| | | q] H; cbn in *; split; congruence.
  - intros [| | | a] [| | | w] [| | | x] H; cbn in *; try congruence; try reflexivity; sgn; try congruence; auto.
  - intros [| | | a] [| | | b] w x Hle Hg; try (cbn in Hle; congruence);
      destruct (xq_mul w x) as [| | | m]; cbn in *; try congruence; try reflexivity.
    qbool. qc2q. lra.
  - intros a w x y Hw Hx Hxy Hg.
    destruct w as [| | | w]; cbn in Hw; try congruence.
    + (* w = +inf *)
      destruct y as [| | | y]; cbn in Hxy.
      * destruct x; cbn in *; congruence.
      * destruct x; cbn in *; congruence.
      * destruct a; cbn in Hg; congruence.
      * cbn in Hg. sgn; destruct a; cbn in Hg; try congruence;
        exfalso; destruct x as [| | | x]; try (cbn in Hx, Hxy; congruence);
        qbool; rewrite ?ofZ_0 in *; qc2q; lra.
    + apply xq_leb_fin in Hw. rewrite ofZ_0 in Hw.
      destruct y as [| | | y]; cbn in Hxy.
      * destruct x; cbn in *; congruence.
      * destruct x; cbn in *; congruence.
      * exfalso. cbn in Hg. sgn; destruct a; cbn in Hg; try congruence; qc2q; lra.
      * destruct x as [| | | x]; cbn in Hx, Hxy; try congruence.
        change (xq_leb (XFin (qc_ofZ 0)) (XFin x) = true) in Hx.
        change (xq_leb (XFin x) (XFin y) = true) in Hxy.
        qbool. rewrite ofZ_0 in Hx.
        destruct a as [| | | a]; cbn in *; try congruence; try reflexivity.
        change (xq_leb (XFin (a + w * x)) (XFin (a + w * y)) = true).
        qbool. qc2q. nra.
  - intros a w x Ha Hw Hx Hn.
    destruct a as [| | | a]; cbn in Ha; try congruence;
    destruct w as [| | | w]; cbn in Hw; try congruence;
    destruct x as [| | | x]; cbn in Hx; try congruence; cbn in *; try congruence; auto;
    sgn; try congruence; auto;
    try (change (xq_leb (XFin (qc_ofZ 0)) (XFin w) = true) in Hw);
    try (change (xq_leb (XFin (qc_ofZ 0)) (XFin x) = true) in Hx);
    try (change (xq_leb (XFin (qc_ofZ 0)) (XFin a) = true) in Ha);
    try (change (xq_leb (XFin (qc_ofZ 0)) (XFin (a + w * x)) = true));
    qbool; rewrite ?ofZ_0 in *; try (exfalso; qc2q; lra).
    qc2q. nra.
  - intros a w x Ha Hw Hx.
    destruct a as [| | | a]; cbn in Ha; try congruence.
    destruct w as [| | | w]; cbn in Hw; try congruence.
    destruct x as [| | | x]; cbn in Hx; try congruence. cbn. qbool. subst.
    rewrite ofZ_0. qc2q. lra.
  - intros a w x Hw Hg.
    destruct x as [| | | x]; try reflexivity; exfalso;
    destruct w as [| | | w]; cbn in Hw; try congruence;
    destruct a as [| | | a]; cbn in Hg; try congruence;
    sgn; try congruence;
    change (xq_leb (XFin (qc_ofZ 0)) (XFin w) = true) in Hw;
    qbool; rewrite ofZ_0 in *; qc2q; lra.
  - intros z _. cbn. f_equal. apply qc_trunc_ofZ.
  - intros a b _ _. cbn. apply eq_true_iff_eq. rewrite qc_eqb_eq, ofZ_inj, Z.eqb_eq. tauto.
  - intros a b _ _. apply eq_true_iff_eq. rewrite Z.leb_le.
    change (xq_leb (XFin (qc_ofZ a)) (XFin (qc_ofZ b)) = true <-> a <= b).
    rewrite xq_leb_fin, ofZ_le. tauto.
  - intros a b _ _. cbn. apply eq_true_iff_eq. rewrite qc_ltb_lt, ofZ_lt, Z.ltb_lt. tauto.
  - intros a b _ _ _. cbn. f_equal. apply ofZ_add.
  - reflexivity.
  - intros []; cbn; congruence.
  - intros []; cbn; congruence.
  - reflexivity.
  - intros x k Hk. destruct x; cbn; try reflexivity.
    + destruct (qc_ltb _ _); reflexivity.
    + destruct (qc_ltb _ _); reflexivity.
    + destruct (qc_eqb (qc_ofZ k) (Q2Qc 0)) eqn:E; [|reflexivity].
      apply qc_eqb_eq in E. rewrite <- ofZ_0 in E. apply ofZ_inj in E. lia.
  - intros x y k Hk Hle.
    assert (E1 : qc_ltb (qc_ofZ k) (Q2Qc 0) = false).
    { apply qc_ltb_false. rewrite <- ofZ_0. apply ofZ_le. lia. }
    assert (E2 : qc_eqb (qc_ofZ k) (Q2Qc 0) = false).
    { apply Bool.not_true_is_false. intros E. apply qc_eqb_eq in E. rewrite <- ofZ_0 in E.
      apply ofZ_inj in E. lia. }
    destruct x as [| | | x], y as [| | | y]; cbn in *; try congruence; rewrite ?E1, ?E2; try reflexivity.
    change (xq_leb (XFin x) (XFin y) = true) in Hle.
    change (xq_leb (XFin (x / qc_ofZ k)) (XFin (y / qc_ofZ k)) = true).
    qbool. unfold Qcdiv.
    assert (P : (0 < this (/ qc_ofZ k))%Q).
    { rewrite this_inv. apply Qinv_lt_0_compat. assert (H : (qc_ofZ 0 < qc_ofZ k)%Qc) by (apply ofZ_lt; lia).
      rewrite ofZ_0 in H. unfold Qclt in H. rewrite this_ofQ in H. exact H. }
    revert P. generalize (/ qc_ofZ k)%Qc. intros q P. qc2q. nra.
  - intros x k Hk G. unfold good in *.
    assert (E1 : qc_ltb (qc_ofZ k) (Q2Qc 0) = false).
    { apply qc_ltb_false. rewrite <- ofZ_0. apply ofZ_le. lia. }
    assert (E2 : qc_eqb (qc_ofZ k) (Q2Qc 0) = false).
    { apply Bool.not_true_is_false. intros E. apply qc_eqb_eq in E. rewrite <- ofZ_0 in E.
      apply ofZ_inj in E. lia. }
    destruct x; cbn in *; rewrite ?E1, ?E2; try reflexivity; congruence.
  - intros [| | | x] H; cbn in *; congruence.
  - intros a b _ _ _. cbn. f_equal. unfold qc_ofZ. apply Qc_is_canon.
    rewrite this_add, this_opp, !this_ofQ. unfold Qeq, inject_Z. cbn. lia.
  - intros a k _ Hk. cbn [isfin NumQ div ofZ]. rewrite frac_q by lia. reflexivity.
  - intros a k Ha Hk. cbn [leb NumQ div ofZ]. rewrite frac_q by lia. apply xq_leb_fin.
    unfold Qcle. rewrite ofZ_0, !this_ofQ. unfold Qle. cbn. lia.
  - intros a k Ha Hk. cbn [trunc NumQ div ofZ]. rewrite frac_q by lia. f_equal. apply trunc_frac; lia.
  - intros a k Ha Hk Hne. cbn [eqb NumQ div ofZ]. rewrite frac_q by lia. cbn [xq_eqb].
    apply Bool.not_true_is_false. intros E. apply qc_eqb_eq in E. apply Qc_eq_this in E.
    unfold qc_ofZ in E. rewrite !this_ofQ in E. unfold Qeq in E. cbn [Qnum Qden inject_Z] in E. lia.
  - intros [| | | x] y H; cbn in *; congruence.
  - intros [| | | x] [| | | y] H; cbn in *; congruence.
  - intros [| | | x] H; cbn in *; congruence.
  - reflexivity.
  - intros b k _ Hk. cbn [NumQ div ofZ]. rewrite frac_q by lia. f_equal. unfold qc_ofZ. apply Qc_is_canon.
    rewrite !this_ofQ. unfold Qeq, inject_Z. cbn [Qnum Qden]. rewrite Z2Pos.id by lia. lia.
Qed.
Print Assumptions NumQ_laws.
