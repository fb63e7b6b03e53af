(** ZeroSum.v - in the three arithmetics a + w*x of non-negative numbers with w = 1 or 2
    vanishes only if a and x do. *)
From Coq Require Import Reals Lra Lia ZifyBool QArith Qcanon.
From Flocq Require Import Core BinarySingleNaN.
From Verif Require Import Base Num NumQ NumQLaws NumF NumFLaws Accuracy.
Local Arguments bpow : simpl never.
Open Scope R_scope.

Definition zero_sum (N : Num) : Prop :=
  forall (a x : N) k, (k = 1 \/ k = 2)%Z -> leb (ofZ 0) a = true -> leb (ofZ 0) x = true ->
  eqb (macc a (ofZ k) x) (ofZ 0) = true -> eqb a (ofZ 0) = true /\ eqb x (ofZ 0) = true.

Lemma zs_nonneg (x : f64) : Bleb (f_ofZ 0) x = true -> is_nan x = false /\ 0 <= X x.
Proof. intros H. apply Bleb_iff in H as [_ [H1 H2]]. rewrite X_0 in H2. auto. Qed.
Lemma zs_zero (x : f64) : is_finite x = true -> B2R x = 0 -> Beqb x (f_ofZ 0) = true.
Proof. intros F E. apply Beqb_iff. split; [apply fin_nan; exact F|]. split; [apply ofZ_nan; lia|]. rewrite X_0, X_fin by exact F. exact E. Qed.
Lemma zs_rounded (f : f64) s : is_rounded f s -> 0 <= s -> (fmt s \/ bpow radix2 (-1022) <= s) ->
  Beqb f (f_ofZ 0) = true -> s = 0.
Proof.
  intros [Hn [HX Hf]] Hs Hc E. apply zero_eq in E. destruct E as [b ->].
  assert (F : Rabs (rnd s) < BB) by (apply Hf; reflexivity).
  rewrite X_fin in HX by reflexivity. rewrite clamp_id in HX by exact F. cbn [B2R] in HX.
  destruct (rnd_rel s Hs Hc) as [R1 _]. rewrite <- HX in R1. pose proof u_small. pose proof u_pos. nra.
Qed.
Lemma zs_fmt (x : f64) : fmt (B2R x).
Proof. apply generic_format_B2R. Qed.
Lemma zs_mul k (x : f64) : (k = 1 \/ k = 2)%Z -> is_finite x = true -> 0 <= B2R x ->
  fmt (B2R (f_ofZ k) * B2R x) /\ 0 <= B2R (f_ofZ k) * B2R x /\ (B2R (f_ofZ k) * B2R x = 0 -> B2R x = 0).
Proof.
  intros Hk F Hx. rewrite ofZ_B2R by lia. destruct Hk as [-> | ->].
  - rewrite Rmult_1_l. split; [apply zs_fmt|]. auto.
  - split; [apply fmt_double, zs_fmt|]. split; lra.
Qed.

Lemma zero_sum_F : zero_sum NumF.
Proof.
  intros a x k Hk Ha Hx H. cbn [NumF V leb eqb macc ofZ] in *.
  apply zs_nonneg in Ha as [Na Pa]. apply zs_nonneg in Hx as [Nx Px].
  assert (Gr : goodf (f_add a (f_mul (f_ofZ k) x))).
  { apply goodf_cases. left. apply zero_eq in H as [s ->]. reflexivity. }
  destruct (add_good_inv _ _ Gr) as [Ga Gp].
  destruct (nonneg_cases a Na Pa) as [Fa | ->]; [|discriminate Ga].
  destruct (nonneg_cases x Nx Px) as [Fx | ->].
  2:{ exfalso. destruct Hk as [-> | ->]; discriminate Gp. }
  rewrite X_fin in Pa by exact Fa. rewrite X_fin in Px by exact Fx.
  destruct (zs_mul k x Hk Fx Px) as [M1 [M2 M3]].
  assert (Fk : is_finite (f_ofZ k) = true) by (apply ofZ_fin; lia).
  pose proof (mul_rounded (f_ofZ k) x Fk Fx) as Rm.
  apply goodf_cases in Gp as [Fp|Ep].
  2:{ exfalso. destruct Rm as [_ [Rx _]]. rewrite Ep in Rx. cbn in Rx. rewrite round_generic in Rx; [|exact (valid_rnd_round_mode mode_NE)|exact M1].
      pose proof (clamp_mono 0 _ M2) as C. pose proof BB_pos. rewrite clamp_id in C by (rewrite Rabs_R0; apply BB_pos). lra. }
  assert (Ep : B2R (f_mul (f_ofZ k) x) = B2R (f_ofZ k) * B2R x).
  { destruct Rm as [_ [Rx Rf]]. rewrite X_fin in Rx by exact Fp. rewrite clamp_id in Rx by (apply Rf; exact Fp).
    rewrite Rx. apply round_generic; [exact (valid_rnd_round_mode mode_NE)|exact M1]. }
  pose proof (add_rounded a _ Fa Fp) as Ra. rewrite Ep in Ra.
  assert (S0 : B2R a + B2R (f_ofZ k) * B2R x = 0).
  { apply (zs_rounded _ _ Ra); [lra| |exact H]. apply sum_rel; auto. apply zs_fmt. }
  split; apply zs_zero; auto; try lra; apply M3; lra.
Qed.

Lemma zero_sum_FMA : zero_sum NumFMA.
Proof.
  intros a x k Hk Ha Hx H. cbn [NumFMA V leb eqb macc ofZ] in *.
  apply zs_nonneg in Ha as [Na Pa]. apply zs_nonneg in Hx as [Nx Px].
  assert (Gr : goodf (Bfma mode_NE (f_ofZ k) x a)).
  { apply goodf_cases. left. apply zero_eq in H as [s ->]. reflexivity. }
  pose proof (fma_good_inv _ _ _ Gr) as Ga.
  destruct (nonneg_cases a Na Pa) as [Fa | ->]; [|discriminate Ga].
  destruct (nonneg_cases x Nx Px) as [Fx | ->].
  2:{ exfalso. destruct Hk as [-> | ->]; destruct a; discriminate. }
  rewrite X_fin in Pa by exact Fa. rewrite X_fin in Px by exact Fx.
  destruct (zs_mul k x Hk Fx Px) as [M1 [M2 M3]].
  assert (Fk : is_finite (f_ofZ k) = true) by (apply ofZ_fin; lia).
  pose proof (fma_rounded (f_ofZ k) x a Fk Fx Fa) as Ra.
  assert (S0 : B2R (f_ofZ k) * B2R x + B2R a = 0).
  { apply (zs_rounded _ _ Ra); [lra| |exact H]. apply sum_rel; auto. apply zs_fmt. }
  split; apply zs_zero; auto; try lra; apply M3; lra.
Qed.

Lemma zero_sum_Q : zero_sum NumQ.
Proof.
  intros a x k Hk Ha Hx H. cbn [NumQ V leb eqb macc ofZ] in *.
  destruct a as [| | |p]; try discriminate Ha; destruct x as [| | |q]; try discriminate Hx;
    try (destruct Hk as [-> | ->]; discriminate H).
  apply xq_leb_fin in Ha. apply xq_leb_fin in Hx. cbn in H. apply qc_eqb_eq in H. cbn [xq_eqb].
  rewrite !qc_eqb_eq. revert H Ha Hx. rewrite !ofZ_0. unfold Qcle. rewrite !Qc_eq_this.
  rewrite this_add, this_mul, this_ofZ, this_ofQ. intros H Ha Hx.
  destruct Hk as [-> | ->]; unfold inject_Z in *; split; Lqa.lra.
Qed.

(** Adding a non-negative term never decreases the sum, and weight 2 adds at least as much
    as weight 1. *)
Definition growing (N : Num) : Prop :=
  (forall (a x : N) k, (k = 1 \/ k = 2)%Z -> leb (ofZ 0) x = true -> good (macc a (ofZ k) x) ->
     leb a (macc a (ofZ k) x) = true) /\
  (forall (a x : N), leb (ofZ 0) x = true -> good (macc a (ofZ 2) x) ->
     leb (macc a (ofZ 1) x) (macc a (ofZ 2) x) = true).

Lemma gr_zero_mul k : (k = 1 \/ k = 2)%Z -> exists s, f_mul (f_ofZ k) (f_ofZ 0) = B754_zero s.
Proof. intros [-> | ->]; eexists; reflexivity. Qed.
Lemma gr_add_zero (a : f64) s : is_nan a = false -> Bleb a (f_add a (B754_zero s)) = true.
Proof.
  intros Hn. apply Bleb_iff. split; [exact Hn|]. destruct a as [b|b| |b m e H]; cbn in Hn; try discriminate.
  - destruct b, s; split; try reflexivity; cbn; lra.
  - destruct b, s; split; try reflexivity; cbn; lra.
  - split; [reflexivity|]. apply Req_le. reflexivity.
Qed.
Lemma gr_fma_zero (a w : f64) : is_nan a = false -> is_finite w = true -> Bleb a (Bfma mode_NE w (f_ofZ 0) a) = true.
Proof.
  intros Hn Fw. apply Bleb_iff. split; [exact Hn|]. destruct (is_finite a) eqn:Fa.
  - pose proof (fma_rounded w (f_ofZ 0) a Fw (ofZ_fin 0 ltac:(lia)) Fa) as [R1 [R2 _]]. split; [exact R1|].
    rewrite R2, ofZ_B2R by lia. replace (B2R w * 0 + B2R a) with (B2R a) by ring.
    rewrite round_generic; [|exact (valid_rnd_round_mode mode_NE)|apply zs_fmt].
    rewrite X_fin by exact Fa. apply Req_le. symmetry. apply clamp_id. pose proof (X_fin_bound a Fa) as Bd. rewrite X_fin in Bd by exact Fa.
    apply Rabs_def1; lra.
  - destruct a as [b|b| |b m e H]; try discriminate. destruct w as [b'|b'| |b' m' e' H']; try discriminate; split; try reflexivity; apply Req_le; reflexivity.
Qed.

Lemma gr_generic (N : Num) (L : NumLaws N) (a x : N) k : (k = 1 \/ k = 2)%Z -> leb (ofZ 0) x = true ->
  good (macc a (ofZ k) x) -> isnan a = false /\ leb (macc a (ofZ k) (ofZ 0)) (macc a (ofZ k) x) = true.
Proof.
  intros Hk Hx G. split; [apply (law_good_not_nan N L), (law_macc_good N L _ _ _ G)|].
  apply (law_macc_mono_x N L); auto.
  - rewrite (law_le_ofZ N L) by lia. lia.
  - apply (law_le_refl N L). apply (law_fin_not_nan N L), (law_fin_ofZ N L). lia.
Qed.

Lemma growing_F : growing NumF.
Proof.
  split.
  - intros a x k Hk Hx G. destruct (gr_generic NumF NumF_laws a x k Hk Hx G) as [Ga M].
    eapply (law_le_trans _ NumF_laws); [|exact M]. cbn [NumF V leb macc ofZ].
    destruct (gr_zero_mul k Hk) as [s Es]. rewrite Es. apply gr_add_zero. exact Ga.
  - intros a x Hx G. cbn [NumF V leb macc ofZ] in *. apply add_mono_r; [|exact G].
    apply zs_nonneg in Hx as [Nx Px]. destruct (nonneg_cases x Nx Px) as [Fx | ->].
    2:{ reflexivity. }
    rewrite X_fin in Px by exact Fx.
    pose proof (mul_rounded (f_ofZ 1) x (ofZ_fin 1 ltac:(lia)) Fx) as [A1 [A2 _]].
    pose proof (mul_rounded (f_ofZ 2) x (ofZ_fin 2 ltac:(lia)) Fx) as [B1 [B2 _]].
    apply Bleb_iff. split; [exact A1|]. split; [exact B1|]. rewrite A2, B2. apply clamp_mono, rnd_mono.
    rewrite !ofZ_B2R by lia. lra.
Qed.
Lemma growing_FMA : growing NumFMA.
Proof.
  split.
  - intros a x k Hk Hx G. destruct (gr_generic NumFMA NumFMA_laws a x k Hk Hx G) as [Ga M].
    eapply (law_le_trans _ NumFMA_laws); [|exact M]. apply gr_fma_zero; [exact Ga|apply ofZ_fin; lia].
  - intros a x Hx G. pose proof (law_macc_good NumFMA NumFMA_laws a (ofZ 2) x G) as Ga.
    cbn [NumFMA V leb macc ofZ] in *.
    apply zs_nonneg in Hx as [Nx Px]. destruct (nonneg_cases x Nx Px) as [Fx | ->].
    2:{ exfalso. destruct a as [b|[|]| |b m e H]; discriminate. }
    rewrite X_fin in Px by exact Fx. apply goodf_cases in Ga as [Fa | ->].
    + pose proof (fma_rounded (f_ofZ 1) x a (ofZ_fin 1 ltac:(lia)) Fx Fa) as [A1 [A2 _]].
      pose proof (fma_rounded (f_ofZ 2) x a (ofZ_fin 2 ltac:(lia)) Fx Fa) as [B1 [B2 _]].
      apply Bleb_iff. split; [exact A1|]. split; [exact B1|]. rewrite A2, B2. apply clamp_mono, rnd_mono.
      rewrite !ofZ_B2R by lia. lra.
    + destruct x as [b|b| |b m e H]; try discriminate; reflexivity.
Qed.
Lemma growing_Q : growing NumQ.
Proof.
  split.
  - intros a x k Hk Hx G. unfold good in G. cbn [NumQ V leb ltb macc ofZ pinf] in *.
    destruct a as [| | |p]; try reflexivity; destruct x as [| | |q]; try discriminate Hx; try discriminate G;
      try (destruct Hk as [-> | ->]; discriminate G).
    all: cbn [xq_mul xq_add] in *; try reflexivity. apply xq_leb_fin in Hx. apply xq_leb_fin. revert Hx. rewrite !ofZ_0. unfold Qcle.
    rewrite this_add, this_mul, this_ofZ, this_ofQ. intros Hx.
    destruct Hk as [-> | ->]; unfold inject_Z in *; Lqa.lra.
  - intros a x Hx G. unfold good in G. cbn [NumQ V leb ltb macc ofZ pinf] in *.
    destruct a as [| | |p]; try reflexivity; destruct x as [| | |q]; try discriminate Hx; try discriminate G; try reflexivity.
    all: cbn [xq_mul xq_add] in *; try reflexivity. apply xq_leb_fin in Hx. apply xq_leb_fin. revert Hx. rewrite !ofZ_0. unfold Qcle.
    rewrite !this_add, !this_mul, !this_ofZ, this_ofQ. intros Hx. unfold inject_Z in *; Lqa.lra.
Qed.
