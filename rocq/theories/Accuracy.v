(** Accuracy.v - rounding errors of the accumulated cost (proofs). *)
From Coq Require Import ZifyBool ZifyNat Reals Lra Psatz Lia.
From Flocq Require Import Core BinarySingleNaN Relative Plus_error.
From Verif Require Import Base Num NumF NumFLaws StepPattern Window Core Backtrack Dtw Spec Api Tables Laws2 Exact Thm9.
Open Scope R_scope.
Local Arguments bpow : simpl never.

Notation u := u53.
Lemma u_pos : 0 < u. Proof. apply bpow_gt_0. Qed.
Lemma u_small : u <= / 16.
Proof. unfold u53. change (/ 16) with (bpow radix2 (-4)). apply bpow_le. lia. Qed.

Lemma pow_up k : 1 <= (1 + u) ^ k.
Proof. pose proof u_pos. apply pow_R1_Rle. lra. Qed.
Lemma pow_up_mono j k : (j <= k)%nat -> (1 + u) ^ j <= (1 + u) ^ k.
Proof. pose proof u_pos. intros. apply Rle_pow; [lra|exact H0]. Qed.
Lemma pow_lo k : 0 < (1 - u) ^ k <= 1.
Proof.
  pose proof u_pos. pose proof u_small. split; [apply pow_lt; lra|].
  apply Rle_trans with (1 ^ k); [apply pow_incr; lra|rewrite pow1; lra].
Qed.
Lemma pow_lo_mono j k : (j <= k)%nat -> (1 - u) ^ k <= (1 - u) ^ j.
Proof.
  intros H. replace k with (j + (k - j))%nat by lia. rewrite pow_add.
  pose proof (pow_lo j). pose proof (pow_lo (k - j)). nra.
Qed.
(** (1+u)^k + (1-u)^k >= 2 *)
Lemma pow_both k : 1 - (1 - u) ^ k <= (1 + u) ^ k - 1.
Proof.
  pose proof u_pos. pose proof u_small.
  assert (A : 1 + INR k * u <= (1 + u) ^ k).
  { induction k; [simpl; lra|]. rewrite S_INR. cbn [pow]. pose proof (pos_INR k). nra. }
  assert (B : 1 - INR k * u <= (1 - u) ^ k).
  { clear A. induction k; [simpl; lra|]. rewrite S_INR. cbn [pow]. pose proof (pow_lo k) as P. assert (0 <= u * (1 - (1 - u) ^ k)) by (apply Rmult_le_pos; lra). lra. }
  lra.
Qed.

(** [f] carries the exact value [r] >= 0 up to [k] roundings; it may have overflowed. *)
Definition approx (k : nat) (f : f64) (r : R) : Prop :=
  is_nan f = false /\ 0 <= r /\ 0 <= X f /\ X f <= (1 + u) ^ k * r /\
  (is_finite f = true -> (1 - u) ^ k * r <= X f).

Lemma approx_mono j k f r : (j <= k)%nat -> approx j f r -> approx k f r.
Proof.
  intros H [A [B [C [D E]]]]. repeat split; auto.
  - pose proof (pow_up_mono _ _ H). nra.
  - intros F. specialize (E F). pose proof (pow_lo_mono _ _ H). nra.
Qed.
Lemma approx_exact f : is_finite f = true -> 0 <= B2R f -> approx 0 f (B2R f).
Proof.
  intros F H. repeat split; auto; try (apply fin_nan; exact F); rewrite X_fin by exact F; cbn; lra.
Qed.

Notation fmt := (generic_format radix2 (SpecFloat.fexp 53 1024)).

(** A rounded non-negative value that is normal or representable. *)
Lemma rnd_rel s : 0 <= s -> (fmt s \/ bpow radix2 (-1022) <= s) -> s - u * s <= rnd s <= s + u * s.
Proof.
  intros H [G|G]; [|apply rel_err_pos; exact G].
  rewrite round_generic; [|apply valid_rnd_round_mode|exact G]. pose proof u_pos. nra.
Qed.

(** Sums of representable non-negative numbers. *)
Lemma sum_rel a b : 0 <= a -> 0 <= b -> fmt a -> fmt b -> fmt (a + b) \/ bpow radix2 (-1022) <= a + b.
Proof.
  intros Ha Hb Fa Fb. destruct (Rle_or_lt (bpow radix2 (-1022)) (a + b)) as [L|L]; [right; exact L|left].
  apply (FLT_format_plus_small radix2 (-1074) 53); [exact Fa|exact Fb|].
  rewrite Rabs_pos_eq by lra. apply Rlt_le. replace (53 + -1074)%Z with (-1021)%Z by lia.
  eapply Rlt_le_trans; [exact L|apply bpow_le; lia].
Qed.

Lemma nonneg_cases (f : f64) : is_nan f = false -> 0 <= X f -> is_finite f = true \/ f = B754_infinity false.
Proof.
  intros Nf Hf. pose proof BB_pos. destruct f as [s|[|]| |s m e E]; cbn in *; try discriminate; auto. exfalso; lra.
Qed.

(** Rounding once more. *)
Lemma rounded_approx k (f : f64) s r : is_rounded f s -> 0 <= s -> 0 <= r ->
  (fmt s \/ bpow radix2 (-1022) <= s) ->
  s <= (1 + u) ^ k * r -> (is_finite f = true -> (1 - u) ^ k * r <= s) -> approx (S k) f r.
Proof.
  intros [Nf [HX HF]] Hs Hr G U Lo. pose proof (rnd_rel s Hs G) as [R1 R2].
  assert (P : 0 <= rnd s) by (rewrite <- rnd_0; apply rnd_mono; exact Hs).
  pose proof u_pos as U0. pose proof u_small as U1. pose proof BB_pos.
  assert (C : 0 <= clamp (rnd s) <= rnd s).
  { unfold clamp. rewrite Rmax_right; [|apply Rmin_glb; lra]. split; [apply Rmin_glb; lra|apply Rmin_r]. }
  repeat split; auto; rewrite HX.
  - apply C.
  - cbn [pow]. apply Rle_trans with ((1 + u) * s); [lra|]. rewrite Rmult_assoc. apply Rmult_le_compat_l; lra.
  - intros F. rewrite clamp_id by (apply HF; exact F). specialize (Lo F). cbn [pow].
    apply Rle_trans with ((1 - u) * s); [|lra]. rewrite Rmult_assoc. apply Rmult_le_compat_l; lra.
Qed.

(** An exact operation: no rounding. *)
Lemma rounded_exact k (f : f64) s r : is_rounded f s -> 0 <= s -> 0 <= r -> fmt s ->
  s <= (1 + u) ^ k * r -> (is_finite f = true -> (1 - u) ^ k * r <= s) -> approx k f r.
Proof.
  intros [Nf [HX HF]] Hs Hr G U Lo. rewrite round_generic in HX, HF; [|apply valid_rnd_round_mode|exact G|apply valid_rnd_round_mode|exact G].
  pose proof BB_pos.
  assert (C : 0 <= clamp s <= s).
  { unfold clamp. rewrite Rmax_right; [|apply Rmin_glb; lra]. split; [apply Rmin_glb; lra|apply Rmin_r]. }
  repeat split; auto; rewrite HX.
  - apply C.
  - lra.
  - intros F. rewrite clamp_id by (apply HF; exact F). apply Lo. exact F.
Qed.

(** Addition of two approximations. *)
Lemma add_approx k (a p : f64) ra rp : approx k a ra -> approx k p rp -> approx (S k) (f_add a p) (ra + rp).
Proof.
  intros [Na [Ra [Pa [Ua La]]]] [Np [Rp [Pp [Up Lp]]]].
  pose proof (pow_up (S k)) as Q. pose proof BB_pos as HB.
  pose proof (pow_up k) as Qk. pose proof (pow_up_mono k (S k) ltac:(lia)) as QS.
  destruct (nonneg_cases a Na Pa) as [Fa| ->].
  - destruct (nonneg_cases p Np Pp) as [Fp| ->].
    + rewrite X_fin in * by assumption. apply rounded_approx with (s := B2R a + B2R p).
      * apply add_rounded; assumption.
      * lra. * lra.
      * apply sum_rel; try assumption; apply generic_format_B2R.
      * lra.
      * intros _. specialize (La Fa). specialize (Lp Fp). lra.
    + assert (E : f_add a (B754_infinity false) = B754_infinity false) by (destruct a; try discriminate; reflexivity).
      rewrite E. repeat split; try reflexivity; cbn [X] in *; try lra; [|intros; discriminate]. nra.
  - assert (E : f_add (B754_infinity false) p = B754_infinity false).
    { destruct (nonneg_cases p Np Pp) as [Fp| ->]; [|reflexivity]. destruct p; try discriminate; reflexivity. }
    rewrite E. repeat split; try reflexivity; cbn [X] in *; try lra; [|intros; discriminate]. nra.
Qed.

(** ** Weights *)

(** Weights 0, 1, 2: multiplying by them is exact. *)
Definition wexact (q : Z * Z) : bool := ((snd q =? 1) && (0 <=? fst q) && (fst q <=? 2))%Z.
(** Weights that are 0 or between 1/4 and 4. *)
Definition wmid (q : Z * Z) : bool :=
  (wweight_ok q && ((fst q =? 0) || ((snd q <=? 4 * fst q) && (fst q <=? 4 * snd q))))%Z.

Lemma fmt_double x : fmt x -> fmt (2 * x).
Proof.
  intros F. apply (FLT_format_generic radix2 (-1074) 53) in F. destruct F as [f E H1 H2].
  apply (generic_format_FLT radix2 (-1074) 53).
  exists (Float radix2 (Fnum f) (Fexp f + 1)).
  - rewrite E. unfold F2R. cbn [Fnum Fexp]. rewrite bpow_plus. change (bpow radix2 1) with 2. ring.
  - exact H1.
  - cbn [Fexp]. lia.
Qed.

Lemma weight_exact q : wexact q = true ->
  is_finite (@weight NumF q) = true /\ B2R (@weight NumF q) = real_weight q /\ 0 <= real_weight q /\
  forall x, fmt x -> fmt (real_weight q * x).
Proof.
  destruct q as [a b]. unfold wexact, weight, real_weight. cbn [fst snd]. intros H.
  assert (b = 1)%Z as -> by lia. cbn [Z.eqb Pos.eqb].
  split; [apply ofZ_fin; lia|]. assert (E : IZR a / 1 = IZR a) by lra. rewrite E.
  split; [apply ofZ_B2R; lia|]. split; [apply IZR_le; lia|].
  intros x F. assert (C : (a = 0 \/ a = 1 \/ a = 2)%Z) by lia. destruct C as [->|[->| ->]].
  - rewrite Rmult_0_l. apply generic_format_0.
  - rewrite Rmult_1_l. exact F.
  - apply fmt_double. exact F.
Qed.

Lemma weight_mid q : wmid q = true ->
  is_finite (@weight NumF q) = true /\ 0 <= real_weight q /\
  (1 - u) * real_weight q <= B2R (@weight NumF q) <= (1 + u) * real_weight q /\
  (real_weight q = 0 \/ / 4 <= B2R (@weight NumF q)).
Proof.
  destruct q as [a b]. unfold wmid, wweight_ok, weight, real_weight. cbn [fst snd]. intros H.
  assert (Hb : (1 <= b <= 2 ^ 10)%Z) by lia. assert (Ha : (0 <= a)%Z) by lia.
  assert (Ha' : (Z.abs a <= 2 ^ 53)%Z) by lia.
  assert (B0 : 0 < IZR b) by (apply IZR_lt; lia). assert (A0 : 0 <= IZR a) by (apply IZR_le; lia).
  assert (Q0 : 0 <= IZR a / IZR b) by (apply Rmult_le_pos; [exact A0|apply Rlt_le, Rinv_0_lt_compat; exact B0]).
  assert (Eq : IZR a / IZR b * IZR b = IZR a) by (unfold Rdiv; rewrite Rmult_assoc, Rinv_l, Rmult_1_r by lra; reflexivity).
  assert (Q4 : a = 0%Z \/ / 4 <= IZR a / IZR b).
  { destruct (Z.eq_dec a 0) as [Z|Z]; [left; exact Z|right].
    apply Rmult_le_reg_r with (IZR b); [exact B0|]. rewrite Eq.
    assert (IZR b <= 4 * IZR a) by (rewrite <- mult_IZR; apply IZR_le; lia). lra. }
  pose proof u_pos as U0.
  assert (G : fmt (IZR a / IZR b) \/ bpow radix2 (-1022) <= IZR a / IZR b).
  { destruct Q4 as [->|Q4].
    - left. unfold Rdiv. rewrite Rmult_0_l. apply generic_format_0.
    - right. eapply Rle_trans; [|exact Q4]. change (/ 4) with (bpow radix2 (-2)). apply bpow_le. lia. }
  pose proof (rnd_rel _ Q0 G) as RR.
  assert (R4 : IZR a / IZR b = 0 \/ / 4 <= rnd (IZR a / IZR b)).
  { destruct Q4 as [->|Q4]; [left; unfold Rdiv; apply Rmult_0_l|right].
    replace (/ 4) with (rnd (/ 4)); [apply rnd_mono; exact Q4|].
    apply round_generic; [apply valid_rnd_round_mode|]. change (/ 4) with (bpow radix2 (-2)).
    apply generic_format_bpow. vm_compute. discriminate. }
  destruct (Z.eqb_spec b 1) as [->|Hb1].
  - change (@ofZ NumF a) with (f_ofZ a). rewrite ofZ_B2R by exact Ha'.
    replace (IZR a / 1) with (IZR a) in * by lra. rewrite rnd_IZR in * by exact Ha'.
    split; [apply ofZ_fin; exact Ha'|]. split; [exact A0|]. split; [lra|]. exact R4.
  - change (@div NumF (ofZ a) (ofZ b)) with (f_div (f_ofZ a) (f_ofZ b)).
    destruct (frac_B2R a b Ha' ltac:(lia)) as [F E]. rewrite E.
    split; [exact F|]. split; [exact Q0|]. split; [lra|]. exact R4.
Qed.

(** Local costs: 0, or not tiny. *)
Definition not_tiny (x : R) : Prop := x = 0 \/ bpow radix2 (-1020) <= x.

(** ** One charge *)

(** [e]: roundings suffered by a weighted cost before it is added. *)
Definition suits (e : nat) (q : Z * Z) (x : f64) : Prop :=
  is_finite x = true /\ 0 <= B2R x /\
  ((e = 0%nat /\ wexact q = true) \/ (e = 2%nat /\ wmid q = true /\ not_tiny (B2R x))).

Lemma prod_normal w x : 0 <= x -> not_tiny x -> / 4 <= w -> x = 0 \/ bpow radix2 (-1022) <= w * x.
Proof.
  intros Hx [T|T] Hw; [left; exact T|right].
  apply Rle_trans with (/ 4 * bpow radix2 (-1020)).
  - change (/ 4) with (bpow radix2 (-2)). rewrite <- bpow_plus. apply Rle_refl.
  - apply Rmult_le_compat; try lra. apply bpow_ge_0.
Qed.

Lemma mul_approx e q (x : f64) : suits e q x ->
  approx e (f_mul (@weight NumF q) x) (real_weight q * B2R x).
Proof.
  intros [Fx [Px [[-> H]|[-> [H T]]]]].
  - destruct (weight_exact q H) as [Fw [Ew [Pw FF]]].
    pose proof (mul_rounded _ x Fw Fx) as M. rewrite Ew in M.
    apply rounded_exact with (s := real_weight q * B2R x); try assumption.
    + apply Rmult_le_pos; assumption.
    + apply Rmult_le_pos; assumption.
    + apply FF, generic_format_B2R.
    + cbn [pow]; lra.
    + intros _. cbn [pow]. lra.
  - destruct (weight_mid q H) as [Fw [Pw [[E1 E2] E4]]].
    pose proof (mul_rounded _ x Fw Fx) as M. pose proof u_pos as U0. pose proof u_small as U1.
    assert (W0 : 0 <= B2R (@weight NumF q)) by (apply Rle_trans with ((1 - u) * real_weight q); [apply Rmult_le_pos; lra|exact E1]).
    apply rounded_approx with (s := B2R (@weight NumF q) * B2R x); try assumption.
    + apply Rmult_le_pos; assumption.
    + apply Rmult_le_pos; assumption.
    + destruct E4 as [Z|E4].
      * left. assert (B2R (@weight NumF q) = 0) as -> by (rewrite Z in *; lra). rewrite Rmult_0_l. apply generic_format_0.
      * destruct (prod_normal _ _ Px T E4) as [Z|G]; [left; rewrite Z, Rmult_0_r; apply generic_format_0|right; exact G].
    + cbn [pow]. nra.
    + intros _. cbn [pow]. nra.
Qed.


(** After [k] additions the accumulated cost carries at most [k + e] roundings. *)
Definition Mok (M : f64 -> f64 -> f64 -> f64) : Prop := forall k e a ra q x,
  approx (k + e) a ra -> suits e q x ->
  approx (S k + e) (M a (@weight NumF q) x) (ra + real_weight q * B2R x).

Lemma macF_ok : Mok macF.
Proof.
  intros k e a ra q x Ha Hs. unfold macF. cbn [Nat.add]. apply add_approx; [exact Ha|].
  apply approx_mono with e; [lia|]. apply mul_approx. exact Hs.
Qed.

Lemma macFMA_ok : Mok macFMA.
Proof.
  intros k e a ra q x [Na [Ra [Pa [Ua La]]]] Hs. unfold macFMA. cbn [Nat.add].
  pose proof u_pos as U0. pose proof u_small as U1.
  destruct Hs as [Fx [Px Hs]].
  assert (W : is_finite (@weight NumF q) = true /\ 0 <= B2R (@weight NumF q) /\ 0 <= real_weight q /\
     (1 - u) ^ (k + e) * real_weight q <= B2R (@weight NumF q) <= (1 + u) ^ (k + e) * real_weight q /\
     forall b, 0 <= b -> fmt b -> fmt (B2R (@weight NumF q) * B2R x + b) \/ bpow radix2 (-1022) <= B2R (@weight NumF q) * B2R x + b).
  { pose proof (pow_up (k + e)) as Q1. pose proof (pow_lo (k + e)) as Q2.
    destruct Hs as [[-> H]|[-> [H T]]].
    - destruct (weight_exact q H) as [Fw [Ew [Pw FF]]]. rewrite Ew. repeat split; try assumption; try nra.
      intros b Hb Gb. apply sum_rel; try assumption; [apply Rmult_le_pos; assumption|apply FF, generic_format_B2R].
    - destruct (weight_mid q H) as [Fw [Pw [[E1 E2] E4]]].
      assert (W0 : 0 <= B2R (@weight NumF q)) by (apply Rle_trans with ((1 - u) * real_weight q); [apply Rmult_le_pos; lra|exact E1]).
      repeat split; try assumption.
      + pose proof (pow_lo_mono 1 (k + 2) ltac:(lia)). cbn [pow] in *. nra.
      + pose proof (pow_up_mono 1 (k + 2) ltac:(lia)). cbn [pow] in *. nra.
      + intros b Hb Gb. destruct E4 as [Z|E4].
        * left. assert (B2R (@weight NumF q) = 0) as -> by (rewrite Z in *; lra). rewrite Rmult_0_l, Rplus_0_l. exact Gb.
        * destruct (prod_normal _ _ Px T E4) as [Z|G]; [left; rewrite Z, Rmult_0_r, Rplus_0_l; exact Gb|right; lra]. }
  destruct W as [Fw [W0 [Pw [[W1 W2] W3]]]].
  pose proof (pow_up (k + e)) as Q1. pose proof (pow_lo (k + e)) as Q2.
  set (w := @weight NumF q) in *. clearbody w. set (om := real_weight q) in *. clearbody om.
  assert (P0 : 0 <= B2R w * B2R x) by (apply Rmult_le_pos; assumption).
  destruct (nonneg_cases a Na Pa) as [Fa| ->].
  - rewrite X_fin in * by assumption. apply rounded_approx with (s := B2R w * B2R x + B2R a).
    + apply fma_rounded; assumption.
    + lra.
    + assert (0 <= om * B2R x) by (apply Rmult_le_pos; assumption). lra.
    + apply W3; [exact Pa|apply generic_format_B2R].
    + assert (B2R w * B2R x <= (1 + u) ^ (k + e) * om * B2R x) by (apply Rmult_le_compat_r; assumption). lra.
    + intros _. specialize (La Fa).
      assert ((1 - u) ^ (k + e) * om * B2R x <= B2R w * B2R x) by (apply Rmult_le_compat_r; assumption). lra.
  - assert (E : Bfma mode_NE w x (B754_infinity false) = (B754_infinity false : f64)).
    { destruct w as [sw|sw| |sw mw ew Hw], x as [sx|sx| |sx mx ex Hx]; try discriminate; reflexivity. }
    rewrite E. pose proof BB_pos as HB. pose proof (pow_up_mono (k + e) (S (k + e)) ltac:(lia)) as QS.
    assert (0 <= om * B2R x) by (apply Rmult_le_pos; assumption).
    repeat split; try reflexivity; cbn [X] in *; try lra; [|intros; discriminate].
    apply Rle_trans with ((1 + u) ^ (S (k + e)) * ra); [nra|].
    apply Rmult_le_compat_l; [pose proof (pow_up (S (k + e))); lra|lra].
Qed.
