(** Scale.v - binary64 arithmetic commutes with multiplication by a power of two, away from the ends of the range. *)
From Coq Require Import Reals Lra Lia.
From Verif Require Import Base Num StepPattern Window Core Backtrack Dtw Spec Api Tables Vocab Terms NumQ NumF NumFLaws Accuracy Exact.
From Flocq Require Import Core BinarySingleNaN.
Open Scope R_scope.

Notation bp := (bpow radix2).

(** Zero or at least the smallest normal double. *)
Definition normal (r : R) : Prop := r = 0 \/ bp (-1022) <= Rabs r.

Lemma rnd_scale e r : normal r -> normal (bp e * r) -> rnd (bp e * r) = bp e * rnd r.
Proof.
  intros [->|H] H'; [rewrite Rmult_0_r, rnd_0; ring|].
  assert (r <> 0). { intros ->. rewrite Rabs_R0 in H. pose proof (bpow_gt_0 radix2 (-1022)). lra. }
  assert (bp e * r <> 0). { apply Rmult_integral_contrapositive_currified; [apply Rgt_not_eq, bpow_gt_0|assumption]. }
  destruct H' as [H'|H']; [contradiction|].
  unfold rnd, round, F2R, scaled_mantissa, cexp. cbn [Fnum Fexp].
  rewrite (Rmult_comm (bp e) r) in *. rewrite mag_mult_bpow by assumption.
  assert (M1 : (-1021 <= mag radix2 r)%Z) by (apply mag_ge_bpow; exact H).
  assert (M2 : (-1021 <= mag radix2 (r * bp e))%Z) by (apply mag_ge_bpow; exact H').
  rewrite mag_mult_bpow in M2 by assumption.
  assert (E1 : SpecFloat.fexp 53 1024 (mag radix2 r) = (mag radix2 r - 53)%Z) by (unfold SpecFloat.fexp, SpecFloat.emin; lia).
  assert (E2 : SpecFloat.fexp 53 1024 (mag radix2 r + e) = (mag radix2 r - 53 + e)%Z) by (unfold SpecFloat.fexp, SpecFloat.emin; lia).
  rewrite E1, E2.
  replace (r * bp e * bp (- (mag radix2 r - 53 + e))) with (r * bp (- (mag radix2 r - 53))).
  - rewrite bpow_plus. ring.
  - rewrite Rmult_assoc, <- bpow_plus. f_equal. f_equal. lia.
Qed.

(** Integer multiples of 2^-950. *)
Definition grid (r : R) : Prop := exists z : Z, r = IZR z * bp (-950).
Lemma grid_generic r : grid r <-> generic_format radix2 (FIX_exp (-950)) r.
Proof.
  split.
  - intros [z ->]. apply generic_format_FIX. exists (Float radix2 z (-950)); reflexivity.
  - intros H. apply FIX_format_generic in H. destruct H as [[m x] E1 E2]. cbn in E2. subst x. exists m. exact E1.
Qed.
Lemma grid_0 : grid 0.
Proof. exists 0%Z. ring. Qed.
Lemma grid_plus r s : grid r -> grid s -> grid (r + s).
Proof. intros [a ->] [b ->]. exists (a + b)%Z. rewrite plus_IZR. ring. Qed.
Lemma grid_rnd r : grid r -> grid (rnd r).
Proof.
  intros H. apply grid_generic. apply grid_generic in H. unfold rnd.
  apply generic_round_generic; try typeclasses eauto. exact H.
Qed.
Lemma grid_low r : grid r -> r = 0 \/ bp (-950) <= Rabs r.
Proof.
  intros [z ->]. destruct (Z.eq_dec z 0) as [->|Hz]; [left; ring|right].
  rewrite Rabs_mult, (Rabs_pos_eq (bp (-950))) by apply bpow_ge_0. rewrite <- abs_IZR.
  rewrite <- (Rmult_1_l (bp (-950))) at 1. apply Rmult_le_compat_r; [apply bpow_ge_0|]. apply IZR_le. lia.
Qed.
Lemma grid_normal r : grid r -> normal r.
Proof.
  intros H. destruct (grid_low r H) as [->|Q]; [left; reflexivity|right].
  eapply Rle_trans; [|exact Q]. apply bpow_le. lia.
Qed.

(** A double that is zero or at least 2^k is a multiple of 2^(k-52). *)
Lemma fmt_multiple r k : fmt r -> (-1000 <= k)%Z -> r = 0 \/ bp k <= Rabs r -> exists z : Z, r = IZR z * bp (k - 52).
Proof.
  intros F Hk [->|H]; [exists 0%Z; ring|].
  assert (G : generic_format radix2 (FIX_exp (k - 52)) r).
  { apply generic_inclusion_mag with (fexp1 := SpecFloat.fexp 53 1024); [|exact F]. intros _.
    assert (M : (k + 1 <= mag radix2 r)%Z) by (apply mag_ge_bpow; replace (k + 1 - 1)%Z with k by lia; exact H).
    unfold FIX_exp, SpecFloat.fexp, SpecFloat.emin. lia. }
  apply FIX_format_generic in G. destruct G as [[m x] E1 E2]. cbn in E2. subst x. exists m. exact E1.
Qed.

(** Weights: zero, or between 2^-11 and 2^53. *)
Definition wt_ok (w : R) : Prop := w = 0 \/ bp (-11) <= Rabs w <= bp 53.
(** Costs: zero, or between 2^-800 and 2^800. *)
Definition cost_ok (x : R) : Prop := x = 0 \/ bp (-800) <= Rabs x <= bp 800.

Lemma grid_prod w x : fmt w -> fmt x -> wt_ok w -> cost_ok x -> grid (w * x) /\ Rabs (w * x) <= bp 853.
Proof.
  intros Fw Fx Hw Hx. split.
  - destruct (fmt_multiple w (-11) Fw ltac:(lia)) as [a Ea]; [destruct Hw as [Hw|Hw]; [left; exact Hw|right; apply Hw]|].
    destruct (fmt_multiple x (-800) Fx ltac:(lia)) as [b Eb]; [destruct Hx as [Hx|Hx]; [left; exact Hx|right; apply Hx]|].
    exists (a * b * 2 ^ 35)%Z. rewrite Ea, Eb. rewrite !mult_IZR.
    replace (IZR (2 ^ 35)) with (bp 35) by (rewrite <- IZR_Zpower by lia; reflexivity).
    transitivity (IZR a * IZR b * (bp (-11 - 52) * bp (-800 - 52))); [ring|]. rewrite <- bpow_plus.
    transitivity (IZR a * IZR b * (bp 35 * bp (-950))); [|ring]. rewrite <- bpow_plus. reflexivity.
  - rewrite Rabs_mult. change 853%Z with (53 + 800)%Z. rewrite bpow_plus.
    apply Rmult_le_compat; try apply Rabs_pos.
    + destruct Hw as [->|Hw]; [rewrite Rabs_R0; apply bpow_ge_0|apply Hw].
    + destruct Hx as [->|Hx]; [rewrite Rabs_R0; apply bpow_ge_0|apply Hx].
Qed.

(** Bounds that are themselves doubles. *)
Definition lim (n : Z) : R := bp 860 * IZR n.
Lemma lim_rnd n : (0 <= n <= 2 ^ 53)%Z -> rnd (lim n) = lim n.
Proof.
  intros H. unfold lim. rewrite rnd_scale.
  - rewrite rnd_IZR by lia. reflexivity.
  - destruct (Z.eq_dec n 0) as [->|Hn]; [left; reflexivity|right]. apply Rle_trans with 1.
    + change 1 with (bp 0). apply bpow_le. lia.
    + rewrite <- abs_IZR. apply IZR_le. lia.
  - destruct (Z.eq_dec n 0) as [->|Hn]; [left; ring|right]. rewrite Rabs_mult, (Rabs_pos_eq (bp 860)) by apply bpow_ge_0.
    rewrite <- (Rmult_1_r (bp (-1022))). apply Rmult_le_compat; [apply bpow_ge_0|lra|apply bpow_le; lia|].
    rewrite <- abs_IZR. apply IZR_le. lia.
Qed.
Lemma lim_mono a b : (a <= b)%Z -> lim a <= lim b.
Proof. intros H. unfold lim. apply Rmult_le_compat_l; [apply bpow_ge_0|apply IZR_le; exact H]. Qed.
Lemma lim_BB n : (0 <= n <= 2 ^ 53)%Z -> lim n < BB.
Proof.
  intros H. unfold lim. apply Rle_lt_trans with (bp 860 * bp 53).
  - apply Rmult_le_compat_l; [apply bpow_ge_0|]. change (bp 53) with (IZR (2 ^ 53)). apply IZR_le. lia.
  - rewrite <- bpow_plus. apply bpow_lt. lia.
Qed.
Lemma rnd_lim r n : (0 <= n <= 2 ^ 53)%Z -> Rabs r <= lim n -> Rabs (rnd r) <= lim n.
Proof.
  intros Hn H. rewrite <- (lim_rnd n Hn). apply Rabs_le_inv in H. destruct H as [H1 H2].
  apply Rabs_le. split; [|apply rnd_mono; exact H2].
  replace (- rnd (lim n)) with (rnd (- lim n)); [apply rnd_mono; lra|]. unfold rnd. apply round_NE_opp.
Qed.

(** A rounded result below the limit is finite and exact in this sense. *)
Lemma rounded_lim (f : f64) r n : (0 <= n <= 2 ^ 53)%Z -> Rabs r <= lim n -> is_rounded f r ->
  is_finite f = true /\ B2R f = rnd r.
Proof.
  intros Hn H [Nf [EX HF]]. pose proof (rnd_lim r n Hn H) as Q. pose proof (lim_BB n Hn) as QB.
  assert (F : is_finite f = true) by (apply HF; lra). split; [exact F|].
  rewrite X_fin in EX by exact F. rewrite EX. apply clamp_id. lra.
Qed.

(** ** Corresponding values *)
Definition scl (e : Z) (A : R) (v v' : f64) : Prop :=
  (is_nan v = true /\ is_nan v' = true) \/
  (is_finite v = true /\ is_finite v' = true /\ B2R v' = bp e * B2R v /\ grid (B2R v) /\ grid (B2R v') /\
   Rabs (B2R v) <= A /\ Rabs (B2R v') <= A).
Definition cost_scl (e : Z) (x x' : f64) : Prop :=
  (is_nan x = true /\ is_nan x' = true) \/
  (is_finite x = true /\ is_finite x' = true /\ B2R x' = bp e * B2R x /\ cost_ok (B2R x) /\ cost_ok (B2R x')).

Lemma lim_nonneg n : (0 <= n)%Z -> 0 <= lim n.
Proof. intros H. unfold lim. apply Rmult_le_pos; [apply bpow_ge_0|apply IZR_le; exact H]. Qed.

Lemma scl_sum e n (f f' : f64) r r' : (0 <= n <= 2 ^ 53)%Z -> is_rounded f r -> is_rounded f' r' -> r' = bp e * r ->
  grid r -> grid r' -> Rabs r <= lim n -> Rabs r' <= lim n -> scl e (lim n) f f'.
Proof.
  intros Hn H H' E G G' B B'. destruct (rounded_lim f r n Hn B H) as [F1 F2]. destruct (rounded_lim f' r' n Hn B' H') as [F1' F2'].
  right. rewrite F2, F2'. split; [exact F1|]. split; [exact F1'|]. split.
  - rewrite E. apply rnd_scale; [apply grid_normal; exact G|rewrite <- E; apply grid_normal; exact G'].
  - split; [apply grid_rnd; exact G|]. split; [apply grid_rnd; exact G'|]. split; apply rnd_lim; assumption.
Qed.

Lemma mac_scl (fused : bool) e n (a a' w x x' : f64) : (0 <= n < 2 ^ 53)%Z -> is_finite w = true -> wt_ok (B2R w) ->
  scl e (lim n) a a' -> cost_scl e x x' ->
  scl e (lim (n + 1)) (@macc (Exact.double fused) a w x) (@macc (Exact.double fused) a' w x').
Proof.
  intros Hn Fw Hw Ha Hx. destruct Ha as [[Na Na']|[Fa [Fa' [Ea [Ga [Ga' [Ba Ba']]]]]]].
  { left. destruct a; try discriminate. destruct a'; try discriminate. destruct fused; cbn.
    - destruct w, x, x'; split; reflexivity.
    - unfold macF, f_add, f_mul. destruct (Bmult mode_NE w x), (Bmult mode_NE w x'); split; reflexivity. }
  destruct Hx as [[Nx Nx']|[Fx [Fx' [Ex [Cx Cx']]]]].
  { left. destruct x; try discriminate. destruct x'; try discriminate. destruct fused; cbn.
    - destruct w, a, a'; split; try reflexivity; try discriminate.
    - unfold macF, f_add, f_mul. destruct w, a, a'; split; try reflexivity; try discriminate. }
  destruct (grid_prod (B2R w) (B2R x) (generic_format_B2R _ _ w) (generic_format_B2R _ _ x) Hw Cx) as [Gp Bp].
  destruct (grid_prod (B2R w) (B2R x') (generic_format_B2R _ _ w) (generic_format_B2R _ _ x') Hw Cx') as [Gp' Bp'].
  assert (Ep : B2R w * B2R x' = bp e * (B2R w * B2R x)) by (rewrite Ex; ring).
  assert (L1 : bp 853 <= lim 1) by (unfold lim; rewrite Rmult_1_r; apply bpow_le; lia).
  assert (LS : lim n + lim 1 = lim (n + 1)) by (unfold lim; rewrite plus_IZR; ring).
  assert (TR : forall r s, Rabs r <= lim n -> Rabs s <= lim 1 -> Rabs (r + s) <= lim (n + 1)).
  { intros r s H1 H2. rewrite <- LS. eapply Rle_trans; [apply Rabs_triang|]. lra. }
  destruct fused.
  - apply (scl_sum e (n + 1) _ _ (B2R w * B2R x + B2R a) (B2R w * B2R x' + B2R a')).
    + lia.
    + apply fma_rounded; assumption.
    + apply fma_rounded; assumption.
    + rewrite Ep, Ea. ring.
    + apply grid_plus; assumption.
    + apply grid_plus; assumption.
    + rewrite Rplus_comm. apply TR; lra.
    + rewrite Rplus_comm. apply TR; lra.
  - assert (SP : scl e (lim 1) (f_mul w x) (f_mul w x')).
    { apply (scl_sum e 1 _ _ (B2R w * B2R x) (B2R w * B2R x')); auto; try lra; try lia; apply mul_rounded; assumption. }
    destruct SP as [[C _]|[Fp [Fp' [Eq [Gq [Gq' [Bq Bq']]]]]]].
    { exfalso. destruct (mul_rounded w x Fw Fx) as [Q _]. rewrite C in Q. discriminate. }
    change (@macc (Exact.double false) a w x) with (f_add a (f_mul w x)). change (@macc (Exact.double false) a' w x') with (f_add a' (f_mul w x')).
    apply (scl_sum e (n + 1) _ _ (B2R a + B2R (f_mul w x)) (B2R a' + B2R (f_mul w x'))).
    + lia.
    + apply add_rounded; assumption.
    + apply add_rounded; assumption.
    + rewrite Eq, Ea. ring.
    + apply grid_plus; assumption.
    + apply grid_plus; assumption.
    + apply TR; assumption.
    + apply TR; assumption.
Qed.

Lemma scl_weaken e A B v v' : scl e A v v' -> A <= B -> scl e B v v'.
Proof. intros [H|[H1 [H2 [H3 [H4 [H5 [H6 H7]]]]]]] HB; [left; exact H|right]. repeat split; auto; lra. Qed.
Lemma scl_nan e A v v' : scl e A v v' -> is_nan v = is_nan v'.
Proof.
  intros [[-> ->]|[H1 [H2 _]]]; [reflexivity|]. destruct v; try discriminate; destruct v'; try discriminate; reflexivity.
Qed.
Lemma scl_cmp e A v v' u u' : scl e A v v' -> scl e A u u' -> is_nan v = false -> is_nan u = false ->
  Bleb v u = Bleb v' u' /\ Bltb v u = Bltb v' u'.
Proof.
  intros [[C _]|[V1 [V2 [V3 _]]]] [[C' _]|[U1 [U2 [U3 _]]]] Nv Nu; try congruence.
  rewrite !Bleb_correct, !Bltb_correct by assumption. rewrite V3, U3. pose proof (bpow_gt_0 radix2 e) as P. split.
  - destruct (Rle_bool_spec (B2R v) (B2R u)) as [H|H]; symmetry.
    + apply Rle_bool_true. apply Rmult_le_compat_l; lra.
    + apply Rle_bool_false. apply Rmult_lt_compat_l; assumption.
  - destruct (Rlt_bool_spec (B2R v) (B2R u)) as [H|H]; symmetry.
    + apply Rlt_bool_true. apply Rmult_lt_compat_l; assumption.
    + apply Rlt_bool_false. apply Rmult_le_compat_l; lra.
Qed.
Lemma scl_good e A v v' : scl e A v v' -> (Bltb v (B754_infinity false : f64) = true <-> Bltb v' (B754_infinity false : f64) = true).
Proof.
  intros [[H1 H2]|[H1 [H2 _]]].
  - destruct v; try discriminate. destruct v'; try discriminate. reflexivity.
  - destruct v as [s|s| |s m x Hx]; try discriminate; destruct v' as [s'|s'| |s' m' x' Hx']; try discriminate; split; reflexivity.
Qed.
