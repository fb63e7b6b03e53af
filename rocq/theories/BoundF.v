(** BoundF.v - moderate costs in binary64 (proofs). *)
From Coq Require Import ZifyBool ZifyNat Reals Lra.
From Flocq Require Import Core BinarySingleNaN.
From Verif Require Import Base Num NumF NumFLaws Tables Bound.
Open Scope R_scope.

(** At most t * 2^960 in absolute value. *)
Definition BM : R := bpow radix2 960.
Definition bndR (t : Z) (x : f64) : Prop := is_finite x = true /\ Rabs (B2R x) <= IZR t * BM.

Lemma BM_pos : 0 < BM. Proof. apply bpow_gt_0. Qed.

Lemma rnd_scaled t : (0 <= t <= 2 ^ 53)%Z -> rnd (IZR t * BM) = IZR t * BM.
Proof.
  intros H. apply round_generic; [apply valid_rnd_round_mode|].
  destruct (Z.eq_dec t (2 ^ 53)) as [->|E].
  - replace (IZR (2 ^ 53) * BM) with (bpow radix2 (53 + 960)).
    + apply generic_format_bpow. vm_compute. discriminate.
    + rewrite bpow_plus. reflexivity.
  - apply generic_format_FLT. exists (Float radix2 t 960).
    + reflexivity.
    + cbn [Fnum]. change (radix2 ^ 53)%Z with (2 ^ 53)%Z. rewrite Z.abs_eq by lia. lia.
    + cbn [Fexp]. vm_compute. discriminate.
Qed.

Lemma rnd_abs_le r t : (0 <= t <= 2 ^ 53)%Z -> Rabs r <= IZR t * BM -> Rabs (rnd r) <= IZR t * BM.
Proof.
  intros Ht H. apply Rabs_le_inv in H. apply Rabs_le. split.
  - rewrite <- (rnd_scaled t Ht), <- round_NE_opp. apply rnd_mono. lra.
  - rewrite <- (rnd_scaled t Ht). apply rnd_mono. lra.
Qed.

Lemma scaled_lt_BB t : (0 <= t <= 2 ^ 53)%Z -> IZR t * BM < BB.
Proof.
  intros H. apply Rle_lt_trans with (IZR (2 ^ 53) * BM).
  - apply Rmult_le_compat_r; [apply Rlt_le, BM_pos|]. apply IZR_le. lia.
  - replace (IZR (2 ^ 53)) with (bpow radix2 53) by reflexivity. unfold BM. rewrite <- bpow_plus. apply bpow_lt. lia.
Qed.

Lemma rounded_bnd (f : f64) r t : (0 <= t <= 2 ^ 53)%Z -> is_rounded f r -> Rabs r <= IZR t * BM -> bndR t f.
Proof.
  intros Ht [_ [H1 H2]] Hr. pose proof (rnd_abs_le r t Ht Hr) as K. pose proof (scaled_lt_BB t Ht).
  assert (F : is_finite f = true) by (apply H2; lra). split; [exact F|].
  rewrite X_fin in H1 by exact F. rewrite H1, clamp_id by lra. exact K.
Qed.

Lemma weight_abs3 (q : Z * Z) : wweight_ok q = true -> (Z.abs (fst q) <= 3 * snd q)%Z ->
  is_finite (@weight NumF q) = true /\ Rabs (B2R (@weight NumF q)) <= 3.
Proof.
  intros Hw Hq. pose proof (weight_fin NumF_laws q Hw) as F. split; [exact F|].
  destruct q as [a k]. unfold wweight_ok in Hw. unfold weight in *. cbn [fst snd] in *.
  change (@ofZ NumF) with f_ofZ in *. change (@div NumF) with f_div in *. change (@isfin NumF) with (@is_finite 53 1024) in F.
  destruct (Z.eqb_spec k 1) as [->|Hk].
  - rewrite ofZ_B2R by lia. rewrite <- abs_IZR. apply IZR_le. lia.
  - destruct (div_int_rounded (f_ofZ a) k ltac:(lia) (ofZ_fin a ltac:(lia))) as [_ [H1 H2]].
    rewrite X_fin in H1 by exact F. rewrite H1. rewrite ofZ_B2R in * by lia.
    assert (Hk0 : 0 < IZR k) by (apply IZR_lt; lia).
    assert (HR : Rabs (rnd (IZR a / IZR k)) <= 3).
    { assert (Q : Rabs (IZR a / IZR k) <= 3).
      { unfold Rdiv. rewrite Rabs_mult, Rabs_inv, (Rabs_pos_eq (IZR k)) by lra.
        apply Rmult_le_reg_r with (IZR k); [exact Hk0|]. rewrite Rmult_assoc, Rinv_l, Rmult_1_r by lra.
        rewrite <- abs_IZR, <- mult_IZR. apply IZR_le. lia. }
      apply Rabs_le_inv in Q. apply Rabs_le.
      pose proof (rnd_IZR 3 ltac:(lia)) as R3. pose proof (rnd_IZR (-3) ltac:(lia)) as R3'. split.
      - apply Rle_trans with (rnd (IZR (-3))); [rewrite R3'; lra|apply rnd_mono; lra].
      - apply Rle_trans with (rnd (IZR 3)); [apply rnd_mono; lra|rewrite R3; lra]. }
    rewrite clamp_id; [exact HR|]. eapply Rle_lt_trans; [exact HR|].
    change 3 with (IZR 3). eapply Rle_lt_trans; [|apply (IZR_lt_BB 3); lia]. apply Rle_abs.
Qed.

Lemma prod_abs w x : Rabs w <= 3 -> Rabs x <= IZR 1 * BM -> Rabs (w * x) <= IZR 3 * BM.
Proof.
  intros Hw Hx. rewrite Rabs_mult. pose proof BM_pos. pose proof (Rabs_pos w). pose proof (Rabs_pos x).
  rewrite Rmult_1_l in Hx. apply Rmult_le_compat; lra.
Qed.
Lemma sum_abs a b t : Rabs a <= IZR t * BM -> Rabs b <= IZR 3 * BM -> Rabs (a + b) <= IZR (t + 3) * BM.
Proof. intros. rewrite plus_IZR. pose proof (Rabs_triang a b). lra. Qed.

Lemma bndR_good t x : (t <= 2 ^ 50)%Z -> bndR t x -> goodf x.
Proof. intros _ [F _]. apply goodf_cases. left. exact F. Qed.

Lemma bndR_mono t t' x : (t <= t')%Z -> bndR t x -> bndR t' x.
Proof.
  intros H [F K]. split; [exact F|]. eapply Rle_trans; [exact K|]. apply Rmult_le_compat_r; [apply Rlt_le, BM_pos|].
  apply IZR_le. exact H.
Qed.
Lemma bndR_zero : bndR 1 (f_ofZ 0).
Proof.
  split; [apply ofZ_fin; lia|]. rewrite ofZ_B2R by lia. rewrite Rabs_R0, Rmult_1_l. apply Rlt_le, BM_pos.
Qed.

Lemma NumF_bound : BoundLaws NumF bndR.
Proof.
  constructor.
  - exact bndR_mono.
  - exact bndR_good.
  - exact bndR_zero.
  - intros t a q x Ht Ht' [Fa Ha] [Fx Hx] Hw Hq.
    destruct (weight_abs3 q Hw Hq) as [Fw Kw].
    change (@macc NumF a (weight q) x) with (f_add a (f_mul (@weight NumF q) x)).
    pose proof (mul_rounded _ _ Fw Fx) as M.
    assert (B3 : bndR 3 (f_mul (@weight NumF q) x)).
    { eapply rounded_bnd; [lia|exact M|]. apply prod_abs; assumption. }
    destruct B3 as [F3 K3]. eapply rounded_bnd; [lia|apply add_rounded; assumption|]. apply sum_abs; assumption.
Qed.

Lemma NumFMA_bound : BoundLaws NumFMA bndR.
Proof.
  constructor.
  - exact bndR_mono.
  - exact bndR_good.
  - exact bndR_zero.
  - intros t a q x Ht Ht' [Fa Ha] [Fx Hx] Hw Hq.
    destruct (weight_abs3 q Hw Hq) as [Fw Kw].
    change (@macc NumFMA a (weight q) x) with (Bfma mode_NE (@weight NumF q) x a : f64).
    eapply rounded_bnd; [lia|apply fma_rounded; assumption|].
    rewrite Rplus_comm. apply sum_abs; [assumption|]. apply prod_abs; assumption.
Qed.

(** The same condition as a comparison the code could make: |x| <= 2^960. *)
Lemma bndR_leb (x : f64) : Bleb (Babs x) (f_ofZ (2 ^ 960)) = true -> bndR 1 x.
Proof.
  assert (E : is_finite (f_ofZ (2 ^ 960)) = true /\ B2R (f_ofZ (2 ^ 960)) = BM).
  { destruct (norm_rounded (2 ^ 960)) as [_ [K1 K2]].
    assert (E0 : IZR (2 ^ 960) = BM) by (exact (IZR_Zpower radix2 960 ltac:(lia))).
    assert (E1 : rnd (IZR (2 ^ 960)) = BM).
    { rewrite E0. pose proof (rnd_scaled 1 ltac:(lia)) as S. rewrite Rmult_1_l in S. exact S. }
    assert (E2 : Rabs BM < BB).
    { rewrite Rabs_pos_eq by (apply Rlt_le, BM_pos). pose proof (scaled_lt_BB 1 ltac:(lia)). lra. }
    assert (F : is_finite (f_ofZ (2 ^ 960)) = true) by (apply K2; rewrite E1; exact E2).
    split; [exact F|]. rewrite X_fin in K1 by exact F. rewrite K1, E1. apply clamp_id. exact E2. }
  destruct E as [F E]. intros H. apply Bleb_iff in H. destruct H as [H1 [_ H3]].
  rewrite (X_fin (f_ofZ (2 ^ 960))) in H3 by exact F. rewrite E in H3.
  assert (Fx : is_finite x = true).
  { destruct x as [s|s| |s mm ee HH]; try reflexivity; try discriminate. exfalso. cbn [Babs X] in H3.
    pose proof (scaled_lt_BB 1 ltac:(lia)). lra. }
  split; [exact Fx|]. rewrite Rmult_1_l.
  rewrite X_fin in H3 by (rewrite is_finite_Babs; exact Fx). rewrite B2R_Babs in H3. exact H3.
Qed.
