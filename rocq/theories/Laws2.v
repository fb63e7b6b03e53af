(** Laws2.v - further laws of arithmetic, used for warpArea() and the plots; proved
    for the exact, the binary64 and the binary64-with-fma instances. *)
From Coq Require Import ZArith Reals Lia Lra Psatz Qcanon QArith.
From Flocq Require Import Core BinarySingleNaN Relative.
From Verif Require Import Base Num NumQ NumQLaws NumF NumFLaws.
Open Scope Z_scope.

Record NumLaws2 (N : Num) : Prop := mkLaws2 {
  law_abs_ofZ : forall a, Z.abs a <= 2 ^ 53 -> vabs (@ofZ N a) = ofZ (Z.abs a);
  law_mul_ofZ : forall a b, 0 <= a -> 0 <= b -> a * b <= 2 ^ 53 -> a <= 2 ^ 53 -> b <= 2 ^ 53 ->
      mul (@ofZ N a) (ofZ b) = ofZ (a * b);
  law_abs_nonneg : forall x : N, isnan x = false -> leb (ofZ 0) (vabs x) = true;
  law_add_nonneg : forall x y : N, leb (ofZ 0) x = true -> leb (ofZ 0) y = true ->
      leb (ofZ 0) (add x y) = true;
  law_sub_fin : forall x y : N, isnan x = false -> isfin y = true -> isnan (sub x y) = false;
  law_add_fin : forall x y : N, isfin x = true -> isfin y = true -> isnan (add x y) = false;
  law_mul_comm_ofZ : forall (x : N) a, mul (ofZ a) x = mul x (ofZ a);
  law_mul_zero : forall x : N, isfin x = true ->
      isfin (mul x (ofZ 0)) = true /\ trunc (mul x (ofZ 0)) = Some 0;
  law_frac_pos : forall a k, 1 <= a <= 2 ^ 53 -> 1 <= k <= 2 ^ 53 ->
      eqb (div (@ofZ N a) (ofZ k)) (ofZ 0) = false;
  law_trunc_mono : forall (x y : N) a b, leb x y = true -> trunc x = Some a -> trunc y = Some b -> a <= b;
  (* i * (a / k): finite, non-decreasing in i, within one of its exact integer part *)
  law_spread_fin : forall i a k, 0 <= i <= k -> 0 <= a -> 1 <= k -> a * k <= 2 ^ 51 -> k <= 2 ^ 51 ->
      isfin (mul (ofZ i) (div (@ofZ N a) (ofZ k))) = true;
  law_spread_mono : forall i i' a k, 0 <= i -> i <= i' <= k -> 0 <= a -> 1 <= k -> a * k <= 2 ^ 51 -> k <= 2 ^ 51 ->
      leb (mul (ofZ i) (div (@ofZ N a) (ofZ k))) (mul (ofZ i') (div (ofZ a) (ofZ k))) = true;
  law_spread_trunc : forall i a k, 0 <= i <= k -> 0 <= a -> 1 <= k -> a * k <= 2 ^ 51 -> k <= 2 ^ 51 ->
      exists z, trunc (mul (ofZ i) (div (@ofZ N a) (ofZ k))) = Some z /\
        0 <= z /\ i * a / k - 1 <= z <= i * a / k
}.

(** ** Exact arithmetic *)
Lemma NumQ_laws2 : NumLaws2 NumQ.
Proof.
  constructor; cbn [NumQ V nan pinf ofZ add sub mul div vabs macc ltb leb eqb isnan isfin trunc].
  - intros a _. cbn. destruct (qc_ltb (qc_ofZ a) (Q2Qc 0)) eqn:E.
    + apply qc_ltb_lt in E. rewrite <- ofZ_0 in E. apply (proj1 (ofZ_lt _ _)) in E. rewrite ofZ_opp. replace (Z.abs a) with (- a) by lia. reflexivity.
    + apply qc_ltb_false in E. rewrite <- ofZ_0 in E. apply (proj1 (ofZ_le _ _)) in E. replace (Z.abs a) with a by lia. reflexivity.
  - intros a b _ _ _ _ _. cbn. rewrite ofZ_mul. reflexivity.
  - intros x H. destruct x as [| | | q]; cbn in *; try discriminate; try reflexivity.
    destruct (qc_ltb q (Q2Qc 0)) eqn:E; apply xq_leb_fin; rewrite ofZ_0.
    + apply qc_ltb_lt in E. apply Qclt_le_weak in E. apply Qcopp_le_compat in E. exact E.
    + apply qc_ltb_false in E. exact E.
  - intros x y Hx Hy. destruct x as [| | | p], y as [| | | q]; cbn in *; try discriminate; try reflexivity.
    apply xq_leb_fin in Hx. apply xq_leb_fin in Hy. apply xq_leb_fin.
    rewrite ofZ_0 in *. replace (Q2Qc 0) with (Q2Qc 0 + Q2Qc 0)%Qc by (rewrite Qcplus_0_l; reflexivity).
    apply Qcplus_le_compat; assumption.
  - intros x y Hx Hy. destruct x, y; cbn in *; try discriminate; reflexivity.
  - intros x y Hx Hy. destruct x, y; cbn in *; try discriminate; reflexivity.
  - intros x a. destruct x; cbn; try reflexivity. rewrite Qcmult_comm. reflexivity.
  - intros x Hx. destruct x as [| | | q]; try discriminate Hx. cbn [xq_mul].
    replace (q * qc_ofZ 0)%Qc with (qc_ofZ 0) by (rewrite ofZ_0; ring). split; reflexivity.
  - intros a k Ha Hk. rewrite frac_q by lia. cbn [xq_eqb]. apply Bool.not_true_is_false. intros E.
    apply qc_eqb_eq in E. revert E. qc2q. unfold Qeq, inject_Z; cbn. lia.
  - intros x y a b Hle Hx Hy. destruct x as [| | | p], y as [| | | q]; try discriminate.
    apply xq_leb_fin in Hle. injection Hx as <-. injection Hy as <-. unfold qc_trunc.
    unfold Qcle in Hle. destruct (this p) as [n d], (this q) as [n' d']. unfold Qle in Hle. cbn in *.
    destruct (Z.le_gt_cases 0 n) as [Hn|Hn].
    + assert (0 <= n') by nia. rewrite !Z.quot_div_nonneg by lia.
      apply Z.div_le_lower_bound; [lia|]. pose proof (Z.mul_div_le n (Z.pos d) ltac:(lia)). nia.
    + destruct (Z.le_gt_cases 0 n') as [Hn'|Hn'].
      * pose proof (Z.quot_pos n' (Z.pos d') Hn' ltac:(lia)).
        pose proof (Z.quot_pos (- n) (Z.pos d) ltac:(lia) ltac:(lia)) as G. rewrite Z.quot_opp_l in G by lia. lia.
      * pose proof (Z.quot_opp_l n (Z.pos d) ltac:(lia)) as G1. pose proof (Z.quot_opp_l n' (Z.pos d') ltac:(lia)) as G2.
        assert (Z.quot (- n') (Z.pos d') <= Z.quot (- n) (Z.pos d)); [|lia].
        rewrite !Z.quot_div_nonneg by lia.
        apply Z.div_le_lower_bound; [lia|]. pose proof (Z.mul_div_le (- n') (Z.pos d') ltac:(lia)). nia.
  - intros i a k Hi Ha Hk _ _. rewrite frac_q by exact Hk. reflexivity.
  - intros i i' a k Hi Hi' Ha Hk _ _. rewrite frac_q by exact Hk. cbn [xq_mul]. apply xq_leb_fin.
    apply Qcmult_le_compat_r; [apply ofZ_le; lia|]. rewrite <- ofZ_0. qc2q. unfold Qle, inject_Z; cbn. lia.
  - intros i a k Hi Ha Hk _ _. rewrite frac_q by exact Hk. cbn [xq_mul].
    replace (qc_ofZ i * Q2Qc (a # Z.to_pos k))%Qc with (Q2Qc (i * a # Z.to_pos k)).
    + rewrite trunc_frac by nia. exists (i * a / k). split; [reflexivity|].
      assert (0 <= i * a / k) by (apply Z.div_pos; nia). lia.
    + qc2q. unfold Qeq, inject_Z, Qmult; cbn. lia.
Qed.

(** ** binary64 *)
Open Scope R_scope.
Local Arguments bpow : simpl never.
Definition u53 : R := bpow radix2 (-53).
Lemma rel_err r : bpow radix2 (-1022) <= Rabs r -> Rabs (rnd r - r) <= u53 * Rabs r.
Proof.
  intros H. assert (E : u53 = / 2 * bpow radix2 (-53 + 1)).
  { unfold u53. change (/ 2) with (bpow radix2 (-1)). rewrite <- bpow_plus. reflexivity. }
  rewrite E. apply (relative_error_N_FLT radix2 (3 - 1024 - 53) 53 eq_refl). exact H.
Qed.
Lemma rel_err_pos r : bpow radix2 (-1022) <= r -> r - u53 * r <= rnd r <= r + u53 * r.
Proof.
  intros H. assert (0 < r) by (pose proof (bpow_gt_0 radix2 (-1022)); lra).
  pose proof (rel_err r) as G. rewrite Rabs_pos_eq in G by lra. specialize (G H). apply Rabs_le_inv in G. lra.
Qed.
Lemma abs_ofZ a : (Z.abs a <= 2 ^ 53)%Z -> Babs (f_ofZ a) = f_ofZ (Z.abs a).
Proof.
  intros H. assert (H' : (Z.abs (Z.abs a) <= 2 ^ 53)%Z) by lia.
  apply B2R_Bsign_inj.
  - rewrite is_finite_Babs. apply ofZ_fin, H.
  - apply ofZ_fin, H'.
  - rewrite B2R_Babs, !ofZ_B2R by assumption. rewrite abs_IZR. reflexivity.
  - rewrite Bsign_Babs by (apply ofZ_nan; exact H). rewrite ofZ_sign by exact H'. symmetry. apply Z.ltb_ge. lia.
Qed.
Lemma mul_ofZ a b : (0 <= a)%Z -> (0 <= b)%Z -> (a * b <= 2 ^ 53)%Z -> (a <= 2 ^ 53)%Z -> (b <= 2 ^ 53)%Z ->
  f_mul (f_ofZ a) (f_ofZ b) = f_ofZ (a * b).
Proof.
  intros Ha Hb Hab Ha' Hb'.
  pose proof (Bmult_correct 53 1024 prec53 emax1024 mode_NE (f_ofZ a) (f_ofZ b)) as C.
  rewrite !ofZ_B2R in C by lia. rewrite <- mult_IZR, rnd_IZR in C by nia.
  rewrite Rlt_bool_true in C by (apply IZR_lt_BB; nia). destruct C as [C1 [C2 C3]].
  rewrite !ofZ_fin in C2 by lia. cbn in C2. unfold f_mul.
  apply B2R_Bsign_inj; [exact C2|apply ofZ_fin; nia|rewrite C1; symmetry; apply ofZ_B2R; nia|].
  rewrite C3 by (apply fin_nan; exact C2). rewrite !ofZ_sign by nia.
  destruct (Z.ltb_spec a 0), (Z.ltb_spec b 0), (Z.ltb_spec (a * b) 0); try nia; reflexivity.
Qed.
Lemma abs_nonneg (x : f64) : is_nan x = false -> Bleb (f_ofZ 0) (Babs x) = true.
Proof.
  intros H. apply Bleb_iff. split; [reflexivity|]. split; [rewrite is_nan_Babs; exact H|]. rewrite X_0.
  destruct x as [s|s| |s m e E]; cbn in *; try discriminate; try lra.
  - pose proof BB_pos. destruct s; lra.
  - apply F2R_ge_0. cbn. apply Pos2Z.is_nonneg.
Qed.
Lemma add_nonneg (x y : f64) : Bleb (f_ofZ 0) x = true -> Bleb (f_ofZ 0) y = true -> Bleb (f_ofZ 0) (f_add x y) = true.
Proof.
  intros Hx Hy. apply Bleb_iff in Hx as [_ [Nx Px]]. apply Bleb_iff in Hy as [_ [Ny Py]]. rewrite X_0 in *.
  pose proof BB_pos as B.
  assert (Fx : is_finite x = true \/ x = B754_infinity false) by (destruct x as [s|[|]| |s m e E]; cbn in *; try discriminate; auto; exfalso; lra).
  assert (Fy : is_finite y = true \/ y = B754_infinity false) by (destruct y as [s|[|]| |s m e E]; cbn in *; try discriminate; auto; exfalso; lra).
  assert (I : Bleb (f_ofZ 0) (B754_infinity false) = true) by (apply Bleb_iff; split; [reflexivity|split; [reflexivity|rewrite X_0; cbn; lra]]).
  destruct Fx as [Fx|Fx], Fy as [Fy|Fy]; subst.
  - destruct (add_rounded x y Fx Fy) as [Hn [HX _]]. apply Bleb_iff. split; [reflexivity|]. split; [exact Hn|].
    rewrite X_0, HX. rewrite X_fin in * by assumption.
    replace 0 with (clamp (rnd 0)) by (rewrite rnd_0; apply clamp_id; rewrite Rabs_R0; exact B).
    apply clamp_mono, rnd_mono. lra.
  - destruct x as [s|s| |s m e E]; cbn in *; try discriminate; exact I.
  - destruct y as [s|s| |s m e E]; cbn in *; try discriminate; exact I.
  - exact I.
Qed.
Lemma sub_fin (x y : f64) : is_nan x = false -> is_finite y = true -> is_nan (f_sub x y) = false.
Proof.
  intros Hx Hy. unfold f_sub. destruct (is_finite x) eqn:Fx.
  - pose proof (Bminus_correct 53 1024 prec53 emax1024 mode_NE x y Fx Hy) as C.
    destruct (Rlt_bool _ _).
    + apply fin_nan. apply C.
    + destruct C as [C _]. rewrite overflow_NE in C. apply inf_of_SF in C. rewrite C. reflexivity.
  - destruct x as [s|s| |s m e E]; cbn in Hx, Fx; try discriminate.
    destruct y as [t|t| |t m e E]; cbn in Hy; try discriminate; reflexivity.
Qed.
Lemma add_fin (x y : f64) : is_finite x = true -> is_finite y = true -> is_nan (f_add x y) = false.
Proof. intros Hx Hy. apply (add_rounded x y Hx Hy). Qed.
Lemma mul_comm (x y : f64) : f_mul x y = f_mul y x.
Proof.
  unfold f_mul. destruct x as [s|s| |s m e E], y as [t|t| |t n f F]; cbn [Bmult]; try reflexivity;
    try (rewrite xorb_comm; reflexivity).
  apply B2SF_inj. rewrite !B2SF_SF2B. rewrite (xorb_comm s t), (Pos.mul_comm m n), (Z.add_comm e f). reflexivity.
Qed.
Lemma mul_zero (x : f64) : is_finite x = true ->
  is_finite (f_mul x (f_ofZ 0)) = true /\ f_trunc (f_mul x (f_ofZ 0)) = Some 0%Z.
Proof.
  intros H. destruct (mul_rounded x (f_ofZ 0) H (ofZ_fin 0 ltac:(lia))) as [_ [HX HF]].
  rewrite ofZ_B2R, Rmult_0_r, rnd_0 in * by lia. rewrite Rabs_R0 in HF.
  assert (F : is_finite (f_mul x (f_ofZ 0)) = true) by (apply HF, BB_pos). split; [exact F|].
  unfold f_trunc. rewrite F. f_equal. apply eq_IZR. rewrite Btrunc_correct by apply emax1024.
  rewrite round_FIX_IZR. f_equal. rewrite <- X_fin, HX by exact F. rewrite clamp_id by (rewrite Rabs_R0; apply BB_pos).
  apply Ztrunc_IZR.
Qed.
Lemma frac_pos a k : (1 <= a <= 2 ^ 53)%Z -> (1 <= k <= 2 ^ 53)%Z -> Beqb (f_div (f_ofZ a) (f_ofZ k)) (f_ofZ 0) = false.
Proof.
  intros Ha Hk. apply Bool.not_true_is_false. intros E. apply Beqb_iff in E as [_ [_ E]].
  destruct (frac_B2R a k ltac:(lia) Hk) as [F EB]. rewrite X_0, X_fin, EB in E by exact F.
  assert (G : bpow radix2 (-53) <= IZR a / IZR k).
  { assert (0 < IZR k) by (apply IZR_lt; lia). assert (1 <= IZR a) by (apply IZR_le; lia).
    apply Rmult_le_reg_r with (IZR k); [assumption|]. unfold Rdiv. rewrite Rmult_assoc, Rinv_l, Rmult_1_r by lra.
    apply Rle_trans with (bpow radix2 (-53) * IZR (2 ^ 53)); [apply Rmult_le_compat_l; [apply bpow_ge_0|apply IZR_le; lia]|].
    change (IZR (2 ^ 53)) with (bpow radix2 53). rewrite <- bpow_plus. change (bpow radix2 (-53 + 53)) with 1. assumption. }
  apply rnd_mono in G. rewrite round_generic in G.
  - pose proof (bpow_gt_0 radix2 (-53)). lra.
  - apply valid_rnd_round_mode.
  - apply generic_format_bpow. vm_compute. discriminate.
Qed.
Lemma trunc_mono (x y : f64) a b : Bleb x y = true -> f_trunc x = Some a -> f_trunc y = Some b -> (a <= b)%Z.
Proof.
  intros H Hx Hy. apply Bleb_iff in H as [_ [_ H]]. unfold f_trunc in *.
  destruct (is_finite x) eqn:Fx; [|discriminate]. destruct (is_finite y) eqn:Fy; [|discriminate].
  injection Hx as <-. injection Hy as <-. rewrite !X_fin in H by assumption.
  apply le_IZR. rewrite !Btrunc_correct by apply emax1024. rewrite !round_FIX_IZR. apply IZR_le, Ztrunc_le, H.
Qed.

(** i * (a / k) *)
Lemma spread i a k : (0 <= i <= k)%Z -> (0 <= a)%Z -> (1 <= k)%Z -> (a * k <= 2 ^ 51)%Z -> (k <= 2 ^ 51)%Z ->
  let v := f_mul (f_ofZ i) (f_div (f_ofZ a) (f_ofZ k)) in
  is_finite v = true /\ B2R v = rnd (IZR i * rnd (IZR a / IZR k)) /\
  0 <= B2R v /\
  IZR i * IZR a - 3/4 <= IZR k * B2R v <= IZR i * IZR a + 3/4.
Proof.
  intros Hi Ha Hk Hak Hk' v.
  assert (Ha' : (a <= 2 ^ 51)%Z) by nia.
  destruct (frac_B2R a k ltac:(lia) ltac:(lia)) as [Ff Ef].
  destruct (mul_rounded (f_ofZ i) _ (ofZ_fin i ltac:(lia)) Ff) as [Hn [HX Hfin]].
  fold v in Hn, HX, Hfin. rewrite Ef, ofZ_B2R in * by lia.
  assert (K0 : 1 <= IZR k) by (apply IZR_le; lia).
  assert (I0 : 0 <= IZR i <= IZR k) by (split; apply IZR_le; lia).
  assert (A0 : 0 <= IZR a) by (apply IZR_le; lia).
  set (r := IZR a / IZR k) in *.
  assert (Er : r * IZR k = IZR a) by (unfold r, Rdiv; rewrite Rmult_assoc, Rinv_l, Rmult_1_r by lra; reflexivity).
  assert (Pr : 0 <= r) by (unfold r, Rdiv; apply Rmult_le_pos; [lra|apply Rlt_le, Rinv_0_lt_compat; lra]).
  assert (R1 : r - u53 * r <= rnd r <= r + u53 * r).
  { destruct (Z.eq_dec a 0) as [->|Na].
    - replace r with 0 by (unfold r; lra). rewrite rnd_0. lra.
    - apply rel_err_pos. assert (1 <= IZR a) by (apply IZR_le; lia).
      assert (IZR k <= IZR (2 ^ 51)) by (apply IZR_le; lia).
      apply Rle_trans with (bpow radix2 (-51)); [apply bpow_le; lia|].
      apply Rmult_le_reg_r with (IZR k); [lra|]. rewrite Er.
      apply Rle_trans with (bpow radix2 (-51) * IZR (2 ^ 51)); [apply Rmult_le_compat_l; [apply bpow_ge_0|assumption]|].
      change (IZR (2 ^ 51)) with (bpow radix2 51). rewrite <- bpow_plus. change (bpow radix2 (-51 + 51)) with 1. assumption. }
  assert (U0 : 0 < u53) by apply bpow_gt_0.
  assert (U1 : u53 * IZR (2 ^ 51) = / 4).
  { unfold u53. change (IZR (2 ^ 51)) with (bpow radix2 51). rewrite <- bpow_plus. reflexivity. }
  assert (U2 : u53 <= / 16).
  { unfold u53. change (/ 16) with (bpow radix2 (-4)). apply bpow_le. lia. }
  assert (R0 : 0 <= rnd r) by (rewrite <- rnd_0; apply rnd_mono; exact Pr).
  set (s := IZR i * rnd r) in *.
  assert (S0 : 0 <= s) by (unfold s; apply Rmult_le_pos; lra).
  assert (R2 : s - u53 * s <= rnd s <= s + u53 * s).
  { destruct (Z.eq_dec i 0) as [->|Ni].
    - replace s with 0 by (unfold s; lra). rewrite rnd_0. lra.
    - destruct (Z.eq_dec a 0) as [->|Na].
      + replace s with 0; [rewrite rnd_0; lra|]. unfold s, r. unfold Rdiv. rewrite Rmult_0_l, rnd_0. lra.
      + apply rel_err_pos. assert (1 <= IZR i) by (apply IZR_le; lia).
        assert (1 <= IZR a) by (apply IZR_le; lia).
        assert (IZR k <= IZR (2 ^ 51)) by (apply IZR_le; lia).
        assert (Q : bpow radix2 (-51) <= r).
        { apply Rmult_le_reg_r with (IZR k); [lra|]. rewrite Er.
          apply Rle_trans with (bpow radix2 (-51) * IZR (2 ^ 51)); [apply Rmult_le_compat_l; [apply bpow_ge_0|assumption]|].
          change (IZR (2 ^ 51)) with (bpow radix2 51). rewrite <- bpow_plus. change (bpow radix2 (-51 + 51)) with 1. assumption. }
        apply Rle_trans with (bpow radix2 (-52)); [apply bpow_le; lia|].
        assert (E52 : bpow radix2 (-52) = bpow radix2 (-51) * / 2) by (change (/ 2) with (bpow radix2 (-1)); rewrite <- bpow_plus; reflexivity).
        assert (r * / 2 <= rnd r) by nra.
        assert (rnd r <= s) by (unfold s; nra). lra. }
  assert (AK : IZR a * IZR k <= IZR (2 ^ 51)) by (rewrite <- mult_IZR; apply IZR_le; lia).
  assert (IA : IZR i * IZR a <= IZR (2 ^ 51)) by nra.
  assert (UIA : u53 * (IZR i * IZR a) <= / 4) by (rewrite <- U1; apply Rmult_le_compat_l; lra).
  assert (E1 : IZR k * s = IZR i * (rnd r * IZR k)) by (unfold s; ring).
  assert (B1 : IZR a - u53 * IZR a <= rnd r * IZR k <= IZR a + u53 * IZR a).
  { rewrite <- Er. split; nra. }
  set (p := IZR i * IZR a) in *.
  assert (B2 : p - u53 * p <= IZR k * s <= p + u53 * p).
  { rewrite E1. unfold p. split; nra. }
  assert (P0 : 0 <= p) by (unfold p; apply Rmult_le_pos; lra).
  assert (B3 : p - 3/4 <= IZR k * rnd s <= p + 3/4).
  { assert (L1 : IZR k * s - u53 * (IZR k * s) <= IZR k * rnd s <= IZR k * s + u53 * (IZR k * s)).
    { split; [replace (IZR k * s - u53 * (IZR k * s)) with (IZR k * (s - u53 * s)) by ring
             |replace (IZR k * s + u53 * (IZR k * s)) with (IZR k * (s + u53 * s)) by ring]; apply Rmult_le_compat_l; lra. }
    set (q := IZR k * s) in *. assert (Q0 : 0 <= q) by (unfold q; apply Rmult_le_pos; lra).
    assert (u53 * q <= / 2).
    { assert (G1 : u53 * q <= u53 * (p + u53 * p)) by (apply Rmult_le_compat_l; lra).
      assert (G2 : u53 * (u53 * p) <= / 16 * / 4) by (apply Rmult_le_compat; try lra; apply Rmult_le_pos; lra). lra. }
    lra. }
  assert (PS : 0 <= rnd s) by (rewrite <- rnd_0; apply rnd_mono; exact S0).
  assert (Hlt : Rabs (rnd s) < BB).
  { rewrite Rabs_pos_eq by exact PS. apply Rle_lt_trans with (IZR (2 ^ 51) + 3/4); [nra|].
    apply Rlt_le_trans with (bpow radix2 52); [|apply bpow_le; lia].
    change (IZR (2 ^ 51) + 3/4 < IZR (2 ^ 52)). replace (IZR (2 ^ 52)) with (IZR (2 ^ 51) + IZR (2 ^ 51)) by (rewrite <- plus_IZR; reflexivity).
    assert (1 <= IZR (2 ^ 51)) by (apply IZR_le; lia). lra. }
  assert (Fv : is_finite v = true) by (apply Hfin; exact Hlt).
  rewrite X_fin in HX by exact Fv. rewrite clamp_id in HX by exact Hlt.
  rewrite HX. auto.
Qed.
Lemma spread_mono i i' a k : (0 <= i)%Z -> (i <= i' <= k)%Z -> (0 <= a)%Z -> (1 <= k)%Z -> (a * k <= 2 ^ 51)%Z -> (k <= 2 ^ 51)%Z ->
  Bleb (f_mul (f_ofZ i) (f_div (f_ofZ a) (f_ofZ k))) (f_mul (f_ofZ i') (f_div (f_ofZ a) (f_ofZ k))) = true.
Proof.
  intros H0 Hi Ha Hk Hak Hk'.
  destruct (spread i a k ltac:(lia) Ha Hk Hak Hk') as [F1 [E1 _]].
  destruct (spread i' a k ltac:(lia) Ha Hk Hak Hk') as [F2 [E2 _]].
  apply Bleb_iff. split; [apply fin_nan; exact F1|]. split; [apply fin_nan; exact F2|].
  rewrite !X_fin by assumption. rewrite E1, E2. apply rnd_mono. apply Rmult_le_compat_r; [|apply IZR_le; lia].
  rewrite <- rnd_0. apply rnd_mono. unfold Rdiv. apply Rmult_le_pos; [apply IZR_le; lia|].
  apply Rlt_le, Rinv_0_lt_compat, IZR_lt. lia.
Qed.
Lemma spread_trunc i a k : (0 <= i <= k)%Z -> (0 <= a)%Z -> (1 <= k)%Z -> (a * k <= 2 ^ 51)%Z -> (k <= 2 ^ 51)%Z ->
  exists z, f_trunc (f_mul (f_ofZ i) (f_div (f_ofZ a) (f_ofZ k))) = Some z /\
     (0 <= z)%Z /\ (i * a / k - 1 <= z <= i * a / k)%Z.
Proof.
  intros Hi Ha Hk Hak Hk'. destruct (spread i a k Hi Ha Hk Hak Hk') as [F [_ [P B]]].
  set (v := f_mul _ _) in *. unfold f_trunc. rewrite F. exists (Btrunc v). split; [reflexivity|].
  assert (E : Btrunc v = Zfloor (B2R v)).
  { apply eq_IZR. rewrite Btrunc_correct by apply emax1024. rewrite round_FIX_IZR. f_equal.
    unfold Ztrunc. rewrite Rlt_bool_false by exact P. reflexivity. }
  rewrite E. set (q := (i * a / k)%Z).
  pose proof (Z.div_mod (i * a) k ltac:(lia)) as Hq. pose proof (Z.mod_pos_bound (i * a) k ltac:(lia)) as Hr. fold q in Hq.
  assert (K0 : 1 <= IZR k) by (apply IZR_le; lia).
  rewrite <- mult_IZR in B.
  pose proof (Zfloor_lb (B2R v)) as L1. pose proof (Zfloor_ub (B2R v)) as L2.
  set (z := Zfloor (B2R v)) in *. clearbody z q. clear E.
  assert (Z0 : (0 <= z)%Z). { apply le_IZR. assert (IZR (-1) < IZR z) by (rewrite <- Rplus_0_l with (IZR (-1)); change (IZR (-1)) with (-(1)); lra).
    apply lt_IZR in H. apply IZR_le. lia. }
  split; [exact Z0|]. split.
  - (* k (q-1) <= k z : k(z+1) > k v >= ia - 1/2 *)
    assert (G : IZR (i * a - 1) < IZR (k * (z + 1))).
    { rewrite minus_IZR, mult_IZR with (n := k), plus_IZR. nra. }
    apply lt_IZR in G. nia.
  - assert (G : IZR (k * z) < IZR (i * a + 1)).
    { rewrite plus_IZR, mult_IZR with (n := k). nra. }
    apply lt_IZR in G. nia.
Qed.

Lemma NumF_laws2 : NumLaws2 NumF.
Proof.
  constructor; cbn [NumF V nan pinf ofZ add sub mul div vabs macc ltb leb eqb isnan isfin trunc].
  - exact abs_ofZ.
  - exact mul_ofZ.
  - exact abs_nonneg.
  - exact add_nonneg.
  - exact sub_fin.
  - exact add_fin.
  - intros x a. apply mul_comm.
  - exact mul_zero.
  - exact frac_pos.
  - exact trunc_mono.
  - intros i a k Hi Ha Hk Hak Hk'. apply (spread i a k Hi Ha Hk Hak Hk').
  - exact spread_mono.
  - exact spread_trunc.
Qed.
Lemma NumFMA_laws2 : NumLaws2 NumFMA.
Proof.
  constructor; cbn [NumFMA V nan pinf ofZ add sub mul div vabs macc ltb leb eqb isnan isfin trunc].
  - exact abs_ofZ.
  - exact mul_ofZ.
  - exact abs_nonneg.
  - exact add_nonneg.
  - exact sub_fin.
  - exact add_fin.
  - intros x a. apply mul_comm.
  - exact mul_zero.
  - exact frac_pos.
  - exact trunc_mono.
  - intros i a k Hi Ha Hk Hak Hk'. apply (spread i a k Hi Ha Hk Hak Hk').
  - exact spread_mono.
  - exact spread_trunc.
Qed.
