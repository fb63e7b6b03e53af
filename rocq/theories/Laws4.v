(** Laws4.v - accumulation and division of integers (proved for each arithmetic). *)
From Coq Require Import ZArith Reals Lia Lra Qcanon QArith ZifyBool.
From Flocq Require Import Core Relative BinarySingleNaN.
From Verif Require Import Base Num NumQ NumQLaws NumF NumFLaws.

Record NumLaws4 (N : Num) : Prop := mkLaws4 {
  law_macc_ofZ : forall a w x,
      (Z.abs a <= 2 ^ 53)%Z -> (Z.abs w <= 2 ^ 53)%Z -> (Z.abs x <= 2 ^ 53)%Z ->
      (Z.abs (w * x) <= 2 ^ 53)%Z -> (Z.abs (a + w * x) <= 2 ^ 53)%Z ->
      macc (@ofZ N a) (ofZ w) (ofZ x) = ofZ (a + w * x)%Z;
  law_frac_lt : forall a k b l,
      (1 <= k <= 2 ^ 53)%Z -> (1 <= l <= 2 ^ 53)%Z -> (Z.abs a * l + Z.abs b * k < 2 ^ 53)%Z ->
      ltb (div (@ofZ N a) (ofZ k)) (div (ofZ b) (ofZ l)) = (a * l <? b * k)%Z
}.

(** ** Exact arithmetic *)
Open Scope Qc_scope.
Lemma qc_ofZ_add a b : qc_ofZ (a + b) = qc_ofZ a + qc_ofZ b.
Proof. unfold qc_ofZ. apply Qc_is_canon. unfold Qcplus. cbn [this Q2Qc]. rewrite !Qred_correct. rewrite inject_Z_plus. reflexivity. Qed.
Lemma qc_ofZ_mul a b : qc_ofZ (a * b) = qc_ofZ a * qc_ofZ b.
Proof. unfold qc_ofZ. apply Qc_is_canon. unfold Qcmult. cbn [this Q2Qc]. rewrite !Qred_correct. rewrite inject_Z_mult. reflexivity. Qed.
Close Scope Qc_scope.

Lemma NumQ_laws4 : NumLaws4 NumQ.
Proof.
  split.
  - intros a w x _ _ _ _ _. cbn. f_equal. rewrite qc_ofZ_add, qc_ofZ_mul. reflexivity.
  - intros a k b l Hk Hl _. cbn.
    assert (Z0 : forall z, (1 <= z)%Z -> qc_eqb (qc_ofZ z) (Q2Qc 0) = false).
    { intros z Hz. unfold qc_eqb, Qccompare, qc_ofZ. cbn [this Q2Qc]. rewrite !Qred_correct.
      unfold Qcompare, inject_Z. cbn [Qnum Qden]. destruct (Z.compare_spec (z * 1) (0 * 1)); lia || reflexivity. }
    rewrite !Z0 by lia. cbn.
    unfold qc_ltb, Qccompare, Qcdiv, Qcmult, Qcinv, qc_ofZ. cbn [this Q2Qc].
    rewrite !Qred_correct.
    assert (E : (inject_Z a * / inject_Z k ?= inject_Z b * / inject_Z l)%Q = (a * l ?= b * k)%Z).
    { destruct k as [|k|k]; try lia. destruct l as [|l|l]; try lia. unfold Qcompare, Qinv, inject_Z, Qmult. cbn [Qnum Qden].
      rewrite !Z.mul_1_r, !Pos.mul_1_l. reflexivity. }
    rewrite E. unfold Z.ltb. destruct (a * l ?= b * k)%Z; reflexivity.
Qed.

(** ** binary64 *)
Open Scope R_scope.
Local Arguments bpow : simpl never.

Lemma mul_ofZ_val w x : (Z.abs w <= 2 ^ 53)%Z -> (Z.abs x <= 2 ^ 53)%Z -> (Z.abs (w * x) <= 2 ^ 53)%Z ->
  is_finite (f_mul (f_ofZ w) (f_ofZ x)) = true /\ B2R (f_mul (f_ofZ w) (f_ofZ x)) = IZR (w * x).
Proof.
  intros Hw Hx Hp. pose proof (Bmult_correct 53 1024 prec53 emax1024 mode_NE (f_ofZ w) (f_ofZ x)) as C.
  rewrite !ofZ_B2R in C by assumption. rewrite <- mult_IZR, rnd_IZR in C by exact Hp.
  rewrite Rlt_bool_true in C by (apply IZR_lt_BB; exact Hp). destruct C as [C1 [C2 _]].
  rewrite !ofZ_fin in C2 by assumption. split; assumption.
Qed.

Lemma macF_ofZ a w x : (Z.abs a <= 2 ^ 53)%Z -> (Z.abs w <= 2 ^ 53)%Z -> (Z.abs x <= 2 ^ 53)%Z ->
  (Z.abs (w * x) <= 2 ^ 53)%Z -> (Z.abs (a + w * x) <= 2 ^ 53)%Z ->
  f_add (f_ofZ a) (f_mul (f_ofZ w) (f_ofZ x)) = f_ofZ (a + w * x).
Proof.
  intros Ha Hw Hx Hp Hs. destruct (mul_ofZ_val w x Hw Hx Hp) as [Fp Ep].
  pose proof (Bplus_correct 53 1024 prec53 emax1024 mode_NE (f_ofZ a) _ (ofZ_fin a Ha) Fp) as C.
  rewrite Ep, ofZ_B2R in C by assumption. rewrite <- plus_IZR, rnd_IZR in C by exact Hs.
  rewrite Rlt_bool_true in C by (apply IZR_lt_BB; exact Hs). destruct C as [C1 [C2 C3]].
  apply B2R_Bsign_inj; [exact C2|apply ofZ_fin; exact Hs| |].
  - unfold f_add. rewrite C1. symmetry. apply ofZ_B2R. exact Hs.
  - unfold f_add. rewrite C3. rewrite !ofZ_sign by assumption.
    destruct (Rcompare_spec (IZR (a + w * x)) 0) as [K|K|K].
    + apply lt_IZR in K. lia.
    + apply eq_IZR in K. rewrite K. destruct (Z.ltb_spec a 0) as [A|A]; [|reflexivity]. cbn [andb].
      destruct (sign_ge _ Fp) as [S _]. change (0 <? 0)%Z with false. destruct (Bsign (f_mul (f_ofZ w) (f_ofZ x))); [|reflexivity]. specialize (S eq_refl). rewrite Ep in S.
      apply le_IZR in S. lia.
    + apply lt_IZR in K. lia.
Qed.

Lemma macFMA_ofZ a w x : (Z.abs a <= 2 ^ 53)%Z -> (Z.abs w <= 2 ^ 53)%Z -> (Z.abs x <= 2 ^ 53)%Z ->
  (Z.abs (a + w * x) <= 2 ^ 53)%Z ->
  Bfma mode_NE (f_ofZ w) (f_ofZ x) (f_ofZ a) = f_ofZ (a + w * x).
Proof.
  intros Ha Hw Hx Hs.
  pose proof (Bfma_correct 53 1024 prec53 emax1024 mode_NE (f_ofZ w) (f_ofZ x) (f_ofZ a) (ofZ_fin w Hw) (ofZ_fin x Hx) (ofZ_fin a Ha)) as C.
  cbv zeta in C. rewrite !ofZ_B2R in C by assumption. rewrite <- mult_IZR, <- plus_IZR in C. rewrite Z.add_comm in C.
  rewrite rnd_IZR in C by exact Hs. rewrite Rlt_bool_true in C by (apply IZR_lt_BB; exact Hs). destruct C as [C1 [C2 C3]].
  apply B2R_Bsign_inj; [exact C2|apply ofZ_fin; exact Hs| |].
  - rewrite C1. symmetry. apply ofZ_B2R. exact Hs.
  - rewrite C3. rewrite !ofZ_sign by assumption.
    destruct (Rcompare_spec (IZR (a + w * x)) 0) as [K|K|K].
    + apply lt_IZR in K. lia.
    + apply eq_IZR in K. rewrite K. change (0 <? 0)%Z with false.
      unfold Bfma_szero. rewrite !ofZ_sign by assumption. clear -K.
      destruct (Z.ltb_spec w 0), (Z.ltb_spec x 0), (Z.ltb_spec a 0); cbn; try reflexivity; exfalso; nia.
    + apply lt_IZR in K. lia.
Qed.

Lemma frac_lt a k b l : (1 <= k <= 2 ^ 53)%Z -> (1 <= l <= 2 ^ 53)%Z -> (Z.abs a * l + Z.abs b * k < 2 ^ 53)%Z ->
  Bltb (f_div (f_ofZ a) (f_ofZ k)) (f_div (f_ofZ b) (f_ofZ l)) = (a * l <? b * k)%Z.
Proof.
  intros Hk Hl H.
  assert (Ha : (Z.abs a <= 2 ^ 53)%Z) by nia. assert (Hb : (Z.abs b <= 2 ^ 53)%Z) by nia.
  destruct (frac_B2R a k Ha Hk) as [Fa Ea], (frac_B2R b l Hb Hl) as [Fb Eb].
  apply bool_iff. rewrite Bltb_iff, !X_fin, Ea, Eb by assumption.
  assert (Pk : 0 < IZR k) by (apply IZR_lt; lia). assert (Pl : 0 < IZR l) by (apply IZR_lt; lia).
  assert (Ord : IZR a / IZR k < IZR b / IZR l <-> (a * l < b * k)%Z).
  { split; intros Q.
    - apply lt_IZR. rewrite !mult_IZR.
      apply (Rmult_lt_compat_r (IZR k * IZR l)) in Q; [|nra]. field_simplify in Q; lra.
    - apply IZR_lt in Q. rewrite !mult_IZR in Q.
      apply (Rmult_lt_reg_r (IZR k * IZR l)); [nra|]. field_simplify; lra. }
  assert (Rel : forall z q, (Z.abs z <= 2 ^ 53)%Z -> (1 <= q <= 2 ^ 53)%Z ->
     Rabs (rnd (IZR z / IZR q) - IZR z / IZR q) <= / IZR (2 ^ 53) * Rabs (IZR z / IZR q)).
  { intros z q Hz Hq. assert (Pq : 0 < IZR q) by (apply IZR_lt; lia). destruct (Z.eq_dec z 0) as [->|Nz].
    - unfold Rdiv. rewrite Rmult_0_l, rnd_0, Rminus_0_r, Rabs_R0, Rmult_0_r. lra.
    - assert (B : bpow radix2 (-1022) <= Rabs (IZR z / IZR q)).
      { apply Rle_trans with (bpow radix2 (-53)); [apply bpow_le; lia|].
        unfold Rdiv. rewrite Rabs_mult, Rabs_inv, (Rabs_pos_eq (IZR q)) by lra.
        apply Rle_trans with (1 * / IZR q).
        - rewrite Rmult_1_l. change (bpow radix2 (-53)) with (/ IZR (2 ^ 53)). apply Rinv_le; [lra|]. apply IZR_le. lia.
        - apply Rmult_le_compat_r; [left; apply Rinv_0_lt_compat; lra|]. rewrite <- abs_IZR. apply IZR_le. lia. }
      pose proof (relative_error_N_FLT radix2 (-1074) 53 ltac:(lia) (fun x => negb (Z.even x)) (IZR z / IZR q) B) as E.
      eapply Rle_trans; [exact E|]. apply Rmult_le_compat_r; [apply Rabs_pos|].
      change (bpow radix2 (- (53) + 1)) with (/ IZR (2 ^ 52)). change (2 ^ 53)%Z with (2 * 2 ^ 52)%Z.
      rewrite mult_IZR, Rinv_mult. apply Rle_refl. }
  split.
  - intros [_ [_ Q]]. destruct (Z.ltb_spec (a * l) (b * k)) as [|G]; [reflexivity|exfalso].
    assert (IZR b / IZR l <= IZR a / IZR k).
    { destruct (Rlt_le_dec (IZR a / IZR k) (IZR b / IZR l)) as [J|J]; [apply Ord in J; lia|exact J]. }
    apply rnd_mono in H0. lra.
  - intros G. split; [apply fin_nan; exact Fa|]. split; [apply fin_nan; exact Fb|]. apply Z.ltb_lt in G.
    pose proof (proj2 Ord G) as Q. destruct (Rlt_le_dec (rnd (IZR a / IZR k)) (rnd (IZR b / IZR l))) as [J|J]; [exact J|exfalso].
    pose proof (rnd_mono _ _ (Rlt_le _ _ Q)) as M.
    pose proof (Rel a k Ha Hk) as Ra. pose proof (Rel b l Hb Hl) as Rb.
    assert (D : IZR b / IZR l - IZR a / IZR k <= / IZR (2 ^ 53) * (Rabs (IZR a / IZR k) + Rabs (IZR b / IZR l))).
    { apply Rabs_le_inv in Ra. apply Rabs_le_inv in Rb. lra. }
    assert (Ab : forall z q, (1 <= q)%Z -> Rabs (IZR z / IZR q) = IZR (Z.abs z) / IZR q).
    { intros z q Hq. unfold Rdiv. rewrite Rabs_mult, Rabs_inv, <- abs_IZR, (Rabs_pos_eq (IZR q)); [reflexivity|]. apply IZR_le. lia. }
    rewrite !Ab in D by lia.
    apply (Rmult_le_compat_r (IZR k * IZR l)) in D; [|nra].
    assert (E1 : (IZR b / IZR l - IZR a / IZR k) * (IZR k * IZR l) = IZR (b * k - a * l)).
    { rewrite minus_IZR, !mult_IZR. field. lra. }
    assert (E2 : / IZR (2 ^ 53) * (IZR (Z.abs a) / IZR k + IZR (Z.abs b) / IZR l) * (IZR k * IZR l)
                 = / IZR (2 ^ 53) * IZR (Z.abs a * l + Z.abs b * k)).
    { rewrite plus_IZR, !mult_IZR. field. repeat split; try lra. }
    rewrite E1, E2 in D.
    assert (1 <= IZR (b * k - a * l)) by (apply IZR_le; lia).
    assert (/ IZR (2 ^ 53) * IZR (Z.abs a * l + Z.abs b * k) < 1).
    { apply (Rmult_lt_reg_l (IZR (2 ^ 53))); [apply IZR_lt; lia|].
      rewrite <- Rmult_assoc, Rinv_r, Rmult_1_l, Rmult_1_r by (apply IZR_neq; lia). apply IZR_lt. exact H. }
    lra.
Qed.

Lemma NumF_laws4 : NumLaws4 NumF.
Proof. split; [exact macF_ofZ|exact frac_lt]. Qed.
Lemma NumFMA_laws4 : NumLaws4 NumFMA.
Proof. split; [|exact frac_lt]. intros a w x Ha Hw Hx _ Hs. exact (macFMA_ofZ a w x Ha Hw Hx Hs). Qed.
