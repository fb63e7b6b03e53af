(** NumFLaws.v - the laws of Num.v hold for binary64, with and without fused
    multiply-add. *)
From Coq Require Import Reals Lra Psatz.
From Verif Require Import Base Num NumF.
From Flocq Require Import Core BinarySingleNaN Relative.
Open Scope R_scope.

Notation BB := (bpow radix2 1024).
Notation rnd := (round radix2 (SpecFloat.fexp 53 1024) (round_mode mode_NE)).

Local Arguments bpow : simpl never.
Lemma BB_pos : 0 < BB. Proof. apply bpow_gt_0. Qed.

Global Instance vexp : Valid_exp (SpecFloat.fexp 53 1024).
Proof. apply (fexp_correct 53 1024 prec53). Qed.
Global Instance vmon : Monotone_exp (SpecFloat.fexp 53 1024).
Proof. apply (fexp_monotone 53 1024). Qed.

(** Order embedding of the non-NaN floats into R. *)
Definition X (f : f64) : R :=
  match f with
  | B754_infinity s => if s then - BB else BB
  | _ => B2R f
  end.

Lemma X_fin f : is_finite f = true -> X f = B2R f.
Proof. destruct f; simpl; try discriminate; reflexivity. Qed.

Lemma X_fin_bound f : is_finite f = true -> - BB < X f < BB.
Proof.
  intros H. rewrite (X_fin _ H).
  pose proof (abs_B2R_lt_emax 53 1024 f) as K. apply Rabs_def2 in K. lra.
Qed.

Lemma X_bound f : - BB <= X f <= BB.
Proof.
  pose proof BB_pos. destruct (is_finite f) eqn:F.
  - pose proof (X_fin_bound f F). lra.
  - destruct f as [s|s| |s m e H']; simpl; try (destruct s); try discriminate; lra.
Qed.

Lemma Bcmp f g : is_nan f = false -> is_nan g = false ->
  Bcompare f g = Some (Rcompare (X f) (X g)).
Proof.
  intros Hf Hg.
  destruct (is_finite f) eqn:Ff, (is_finite g) eqn:Fg.
  - rewrite Bcompare_correct by assumption. rewrite !X_fin by assumption. reflexivity.
  - pose proof (X_fin_bound _ Ff).
    destruct g as [s|s| |s m e H']; try discriminate.
    destruct f as [s'|s'| |s' m' e' H'']; try discriminate; destruct s; cbn [X];
      unfold Bcompare; simpl; try destruct s'; f_equal; symmetry;
      first [apply Rcompare_Lt; simpl in *; lra | apply Rcompare_Gt; simpl in *; lra].
  - pose proof (X_fin_bound _ Fg).
    destruct f as [s|s| |s m e H']; try discriminate.
    destruct g as [s'|s'| |s' m' e' H'']; try discriminate; destruct s; cbn [X];
      unfold Bcompare; simpl; try destruct s'; f_equal; symmetry;
      first [apply Rcompare_Lt; simpl in *; lra | apply Rcompare_Gt; simpl in *; lra].
  - pose proof BB_pos.
    destruct f as [s|s| |s m e H']; try discriminate;
    destruct g as [s'|s'| |s' m' e' H'']; try discriminate; destruct s, s'; cbn [X];
      unfold Bcompare; simpl; f_equal; symmetry;
      first [apply Rcompare_Lt; simpl in *; lra | apply Rcompare_Gt; simpl in *; lra
            | apply Rcompare_Eq; simpl in *; lra].
Qed.

Lemma nan_is f : is_nan f = true -> f = (B754_nan : f64).
Proof. destruct f; simpl; try discriminate; reflexivity. Qed.

Lemma Bltb_iff f g : Bltb f g = true <-> is_nan f = false /\ is_nan g = false /\ X f < X g.
Proof.
  destruct (is_nan f) eqn:Ef.
  { rewrite (nan_is _ Ef). split; [discriminate | intros [? _]; discriminate]. }
  destruct (is_nan g) eqn:Eg.
  { rewrite (nan_is _ Eg). split; [destruct f; discriminate | intros [_ [? _]]; discriminate]. }
  pose proof (Bcmp f g Ef Eg) as C. unfold Bltb, SpecFloat.SFltb. unfold Bcompare in C.
  rewrite C. destruct (Rcompare_spec (X f) (X g)); split; intros; try easy; try lra;
    try (destruct H0 as [_ [_ ?]]; lra).
Qed.

Lemma Bleb_iff f g : Bleb f g = true <-> is_nan f = false /\ is_nan g = false /\ X f <= X g.
Proof.
  destruct (is_nan f) eqn:Ef.
  { rewrite (nan_is _ Ef). split; [discriminate | intros [? _]; discriminate]. }
  destruct (is_nan g) eqn:Eg.
  { rewrite (nan_is _ Eg). split; [destruct f; discriminate | intros [_ [? _]]; discriminate]. }
  pose proof (Bcmp f g Ef Eg) as C. unfold Bleb, SpecFloat.SFleb. unfold Bcompare in C.
  rewrite C. destruct (Rcompare_spec (X f) (X g)); split; intros; repeat split; try easy; try lra;
    try (destruct H0 as [_ [_ ?]]; lra).
Qed.

Lemma Beqb_iff f g : Beqb f g = true <-> is_nan f = false /\ is_nan g = false /\ X f = X g.
Proof.
  destruct (is_nan f) eqn:Ef.
  { rewrite (nan_is _ Ef). split; [discriminate | intros [? _]; discriminate]. }
  destruct (is_nan g) eqn:Eg.
  { rewrite (nan_is _ Eg). split; [destruct f; discriminate | intros [_ [? _]]; discriminate]. }
  pose proof (Bcmp f g Ef Eg) as C. unfold Beqb, SpecFloat.SFeqb. unfold Bcompare in C.
  rewrite C. destruct (Rcompare_spec (X f) (X g)); split; intros; repeat split; try easy; try lra;
    try (destruct H0 as [_ [_ ?]]; lra).
Qed.

(** Saturation. *)
Definition clamp (r : R) : R := Rmax (- BB) (Rmin BB r).
Lemma clamp_mono r s : r <= s -> clamp r <= clamp s.
Proof. intros. unfold clamp. apply Rle_max_compat_l. apply Rle_min_compat_l. exact H. Qed.
Lemma clamp_id r : Rabs r < BB -> clamp r = r.
Proof.
  intros. apply Rabs_def2 in H. unfold clamp. rewrite Rmin_right by lra.
  rewrite Rmax_right by lra. reflexivity.
Qed.
Lemma clamp_hi r : BB <= r -> clamp r = BB.
Proof.
  intros. pose proof BB_pos. unfold clamp. rewrite Rmin_left by lra.
  rewrite Rmax_right by lra. reflexivity.
Qed.
Lemma clamp_lo r : r <= - BB -> clamp r = - BB.
Proof.
  intros. pose proof BB_pos. unfold clamp. rewrite Rmin_right by lra.
  rewrite Rmax_left by lra. reflexivity.
Qed.

Lemma rnd_mono r s : r <= s -> rnd r <= rnd s.
Proof. intros. apply round_le; [apply vexp | apply valid_rnd_round_mode | exact H]. Qed.
Lemma rnd_0 : rnd 0 = 0.
Proof. apply round_0. apply valid_rnd_round_mode. Qed.

Lemma inf_of_SF (f : f64) s : B2SF f = SpecFloat.S754_infinity s -> f = B754_infinity s.
Proof. destruct f; simpl; intros H; inversion H; reflexivity. Qed.

Lemma overflow_NE s : binary_overflow 53 1024 mode_NE s = SpecFloat.S754_infinity s.
Proof. reflexivity. Qed.

(** [f] is the binary64 result of an operation with exact value [r]. *)
Definition is_rounded (f : f64) (r : R) : Prop :=
  is_nan f = false /\ X f = clamp (rnd r) /\ (is_finite f = true <-> Rabs (rnd r) < BB).

Lemma mk_rounded (f : f64) r s :
  (if Rlt_bool (Rabs (rnd r)) BB
   then B2R f = rnd r /\ is_finite f = true
   else B2SF f = binary_overflow 53 1024 mode_NE s /\ (s = true <-> rnd r < 0)) ->
  is_rounded f r.
Proof.
  intros H. pose proof BB_pos. destruct (Rlt_bool_spec (Rabs (rnd r)) BB) as [Hl|Hl].
  - destruct H as [H1 H2]. split; [destruct f; try easy|]. split; [|easy].
    rewrite X_fin by assumption. rewrite clamp_id by assumption. exact H1.
  - destruct H as [H1 H2]. rewrite overflow_NE in H1. apply inf_of_SF in H1. subst f.
    split; [reflexivity|]. split.
    + destruct s; cbn [X].
      * rewrite clamp_lo; [reflexivity|]. apply proj1 in H2. specialize (H2 eq_refl).
        rewrite Rabs_left in Hl by assumption. lra.
      * rewrite clamp_hi; [reflexivity|]. destruct (Rlt_or_le (rnd r) 0) as [K|K].
        -- apply H2 in K. discriminate.
        -- rewrite Rabs_right in Hl by lra. exact Hl.
    + simpl. split; [discriminate | intros; exfalso; simpl in *; lra].
Qed.

Lemma rnd_neg r : bpow radix2 1024 <= Rabs (rnd r) -> (r < 0 <-> rnd r < 0).
Proof.
  intros Hl. pose proof BB_pos. split; intros K.
  - pose proof (rnd_mono r 0 (Rlt_le _ _ K)) as Q. rewrite rnd_0 in Q.
    destruct Q as [Q|Q]; [exact Q|]. rewrite Q in Hl. rewrite Rabs_R0 in Hl. lra.
  - destruct (Rlt_or_le r 0) as [Q|Q]; [exact Q|].
    pose proof (rnd_mono 0 r Q) as P. rewrite rnd_0 in P. lra.
Qed.

Lemma sign_ge (f : f64) : is_finite f = true -> (Bsign f = true -> B2R f <= 0) /\ (Bsign f = false -> 0 <= B2R f).
Proof.
  destruct f as [s|s| |s m e H']; simpl; try discriminate; intros _; split; intros; subst; try lra.
  - apply F2R_le_0. simpl. apply Pos2Z.neg_is_nonpos.
  - apply F2R_ge_0. simpl. apply Pos2Z.is_nonneg.
Qed.

Lemma add_rounded (x y : f64) : is_finite x = true -> is_finite y = true ->
  is_rounded (f_add x y) (B2R x + B2R y).
Proof.
  intros Hx Hy. unfold f_add. pose proof (Bplus_correct 53 1024 prec53 emax1024 mode_NE x y Hx Hy) as C.
  apply mk_rounded with (s := Bsign x).
  destruct (Rlt_bool_spec (Rabs (rnd (B2R x + B2R y))) BB) as [Hl|Hl].
  - split; apply C.
  - destruct C as [C1 C2]. split; [exact C1|].
    rewrite <- rnd_neg by exact Hl.
    destruct (sign_ge _ Hx) as [X1 X2], (sign_ge _ Hy) as [Y1 Y2].
    assert (B2R x + B2R y <> 0).
    { intros E. rewrite E, rnd_0, Rabs_R0 in Hl. pose proof BB_pos. lra. }
    destruct (Bsign x); rewrite <- C2 in *.
    + specialize (X1 eq_refl). specialize (Y1 eq_refl). split; [intros; lra | easy].
    + specialize (X2 eq_refl). specialize (Y2 eq_refl). split; [discriminate | intros; lra].
Qed.

Lemma mul_rounded (x y : f64) : is_finite x = true -> is_finite y = true ->
  is_rounded (f_mul x y) (B2R x * B2R y).
Proof.
  intros Hx Hy. unfold f_mul. pose proof (Bmult_correct 53 1024 prec53 emax1024 mode_NE x y) as C.
  apply mk_rounded with (s := xorb (Bsign x) (Bsign y)).
  destruct (Rlt_bool_spec (Rabs (rnd (B2R x * B2R y))) BB) as [Hl|Hl].
  - destruct C as [C1 [C2 _]]. split; [exact C1|]. rewrite C2, Hx, Hy. reflexivity.
  - split; [exact C|].
    rewrite <- rnd_neg by exact Hl.
    destruct (sign_ge _ Hx) as [X1 X2], (sign_ge _ Hy) as [Y1 Y2].
    assert (B2R x * B2R y <> 0).
    { intros E. rewrite E, rnd_0, Rabs_R0 in Hl. pose proof BB_pos. lra. }
    destruct (Bsign x), (Bsign y); simpl;
      try specialize (X1 eq_refl); try specialize (X2 eq_refl);
      try specialize (Y1 eq_refl); try specialize (Y2 eq_refl);
      (split; [try discriminate; intros _; nra | try easy; intros; exfalso; nra]).
Qed.

Lemma fma_rounded (x y z : f64) : is_finite x = true -> is_finite y = true -> is_finite z = true ->
  is_rounded (Bfma mode_NE x y z) (B2R x * B2R y + B2R z).
Proof.
  intros Hx Hy Hz. pose proof (Bfma_correct 53 1024 prec53 emax1024 mode_NE x y z Hx Hy Hz) as C.
  cbv zeta in C.
  apply mk_rounded with (s := Rlt_bool (B2R x * B2R y + B2R z) 0).
  destruct (Rlt_bool_spec (Rabs (rnd (B2R x * B2R y + B2R z))) BB) as [Hl|Hl].
  - split; apply C.
  - split; [exact C|]. rewrite <- rnd_neg by exact Hl.
    destruct (Rlt_bool_spec (B2R x * B2R y + B2R z) 0); split; intros; try easy; lra.
Qed.

Lemma F2R_int z : F2R (Float radix2 z 0) = IZR z :> R.
Proof. unfold F2R, bpow. simpl. lra. Qed.

Lemma norm_rounded z : is_rounded (f_ofZ z) (IZR z).
Proof.
  unfold f_ofZ. pose proof (binary_normalize_correct 53 1024 prec53 emax1024 mode_NE z 0 false) as C.
  cbv zeta in C. rewrite F2R_int in C.
  apply mk_rounded with (s := Rlt_bool (IZR z) 0).
  destruct (Rlt_bool_spec (Rabs (rnd (IZR z))) BB) as [Hl|Hl].
  - split; apply C.
  - split; [exact C|]. rewrite <- rnd_neg by exact Hl.
    destruct (Rlt_bool_spec (IZR z) 0); split; intros; try easy; lra.
Qed.

Lemma rnd_IZR z : (Z.abs z <= 2 ^ 53)%Z -> rnd (IZR z) = IZR z.
Proof.
  intros H. apply round_generic; [apply valid_rnd_round_mode|].
  destruct (Z.eq_dec (Z.abs z) (2 ^ 53)) as [E|E].
  - assert (G : generic_format radix2 (SpecFloat.fexp 53 1024) (bpow radix2 53)).
    { apply generic_format_bpow. vm_compute. discriminate. }
    assert (B : bpow radix2 53 = IZR (2 ^ 53)) by (unfold bpow; simpl; lra).
    destruct (Z.abs_spec z) as [[_ A]|[_ A]]; rewrite A in E.
    + rewrite E, <- B. exact G.
    + assert (z = - 2 ^ 53)%Z by lia. subst z. rewrite opp_IZR, <- B.
      apply generic_format_opp. exact G.
  - apply generic_format_FLT. exists (Float radix2 z 0).
    + symmetry; apply F2R_int.
    + change (Z.abs z < 2 ^ 53)%Z. lia.
    + vm_compute. discriminate.
Qed.

Lemma IZR_lt_BB z : (Z.abs z <= 2 ^ 53)%Z -> Rabs (IZR z) < BB.
Proof.
  intros H. rewrite <- abs_IZR. apply Rle_lt_trans with (IZR (2 ^ 53)).
  - apply IZR_le; exact H.
  - replace (IZR (2^53)) with (bpow radix2 53) by (unfold bpow; simpl; lra). apply bpow_lt. lia.
Qed.

Lemma ofZ_fin z : (Z.abs z <= 2 ^ 53)%Z -> is_finite (f_ofZ z) = true.
Proof.
  intros H. destruct (norm_rounded z) as [_ [_ K]]. apply K. rewrite rnd_IZR by exact H.
  apply IZR_lt_BB. exact H.
Qed.
Lemma ofZ_B2R z : (Z.abs z <= 2 ^ 53)%Z -> B2R (f_ofZ z) = IZR z.
Proof.
  intros H. destruct (norm_rounded z) as [_ [K _]].
  rewrite X_fin in K by (apply ofZ_fin; exact H). rewrite K, rnd_IZR by exact H.
  apply clamp_id. apply IZR_lt_BB. exact H.
Qed.
Lemma ofZ_X z : (Z.abs z <= 2 ^ 53)%Z -> X (f_ofZ z) = IZR z.
Proof. intros H. rewrite X_fin by (apply ofZ_fin; exact H). apply ofZ_B2R; exact H. Qed.
Lemma fin_nan (f : f64) : is_finite f = true -> is_nan f = false.
Proof. destruct f; simpl; try discriminate; reflexivity. Qed.
Lemma ofZ_nan z : (Z.abs z <= 2 ^ 53)%Z -> is_nan (f_ofZ z) = false.
Proof. intros H. apply fin_nan, ofZ_fin, H. Qed.
Lemma X_0 : X (f_ofZ 0) = 0.
Proof. apply ofZ_X. lia. Qed.

Lemma trunc_ofZ z : (Z.abs z <= 2 ^ 53)%Z -> f_trunc (f_ofZ z) = Some z.
Proof.
  intros H. unfold f_trunc. rewrite ofZ_fin by exact H. f_equal.
  apply eq_IZR. rewrite Btrunc_correct by apply emax1024. rewrite ofZ_B2R by exact H.
  apply round_generic; [apply valid_rnd_ZR|].
  apply generic_format_FIX. exists (Float radix2 z 0); [symmetry; apply F2R_int | reflexivity].
Qed.

Lemma add_ofZ a b : (Z.abs a <= 2 ^ 53)%Z -> (Z.abs b <= 2 ^ 53)%Z ->
  (Z.abs (a + b) <= 2 ^ 53)%Z -> f_add (f_ofZ a) (f_ofZ b) = f_ofZ (a + b).
Proof.
  intros Ha Hb Hab.
  pose proof (Bplus_correct 53 1024 prec53 emax1024 mode_NE (f_ofZ a) (f_ofZ b)
                (ofZ_fin a Ha) (ofZ_fin b Hb)) as C.
  rewrite !ofZ_B2R in C by assumption. rewrite <- plus_IZR, rnd_IZR in C by exact Hab.
  rewrite Rlt_bool_true in C by (apply IZR_lt_BB; exact Hab).
  destruct C as [C1 [C2 C3]].
  apply B2R_Bsign_inj; try assumption.
  - apply ofZ_fin; exact Hab.
  - unfold f_add. rewrite C1. symmetry. apply ofZ_B2R. exact Hab.
  - unfold f_add. rewrite C3.
    assert (S : forall z, (Z.abs z <= 2 ^ 53)%Z ->
              Bsign (f_ofZ z) = match Rcompare (IZR z) 0 with Eq => false | Lt => true | Gt => false end).
    { intros z Hz. pose proof (binary_normalize_correct 53 1024 prec53 emax1024 mode_NE z 0 false) as D.
      cbv zeta in D. rewrite F2R_int in D. rewrite rnd_IZR in D by exact Hz.
      rewrite Rlt_bool_true in D by (apply IZR_lt_BB; exact Hz). apply D. }
    rewrite !S by assumption.
    destruct (Rcompare_spec (IZR (a + b)) 0) as [K|K|K]; try reflexivity.
    rewrite plus_IZR in K.
    destruct (Rcompare_spec (IZR a) 0), (Rcompare_spec (IZR b) 0); try reflexivity; lra.
Qed.

(** ** The accumulation step in terms of X *)

Definition goodf (x : f64) : Prop := Bltb x (B754_infinity false : f64) = true.
Lemma goodf_iff x : goodf x <-> is_nan x = false /\ X x < BB.
Proof. unfold goodf. rewrite Bltb_iff. cbn. intuition. Qed.

Lemma goodf_cases x : goodf x <-> is_finite x = true \/ x = B754_infinity true.
Proof.
  rewrite goodf_iff. split.
  - intros [H1 H2]. destruct x as [s|s| |s m e H']; simpl in *; try (left; reflexivity); try discriminate.
    destruct s; [right; reflexivity | lra].
  - intros [H| ->].
    + split; [apply fin_nan; exact H | apply X_fin_bound; exact H].
    + split; [reflexivity|]. pose proof BB_pos. simpl. lra.
Qed.

Lemma add_good_inv x y : goodf (f_add x y) -> goodf x /\ goodf y.
Proof.
  rewrite !goodf_cases. unfold f_add.
  destruct x as [sx|sx| |sx mx ex Hx], y as [sy|sy| |sy my ey Hy];
    try (intros _; split; left; reflexivity);
    try destruct sx; try destruct sy; simpl;
    intros [H|H]; try discriminate; split; auto; discriminate.
Qed.

Lemma add_mono_l a b p : Bleb a b = true -> goodf (f_add b p) ->
  Bleb (f_add a p) (f_add b p) = true.
Proof.
  intros Hab Hg. destruct (add_good_inv _ _ Hg) as [Gb Gp].
  apply Bleb_iff in Hab. destruct Hab as [Na [Nb Hab]].
  apply goodf_cases in Gb. apply goodf_cases in Gp.
  assert (Ga : is_finite a = true \/ a = B754_infinity true).
  { apply goodf_cases. apply goodf_iff. split; [exact Na|].
    assert (goodf b) as Q by (apply goodf_cases; exact Gb). apply goodf_iff in Q. lra. }
  apply goodf_iff in Hg. destruct Hg as [Hn Hg].
  assert (NInf : forall q : f64, is_finite q = true \/ q = B754_infinity true ->
            f_add (B754_infinity true) q = B754_infinity true).
  { intros q [Q| ->]; [destruct q; try discriminate; reflexivity | reflexivity]. }
  assert (NInf' : forall q : f64, is_finite q = true \/ q = B754_infinity true ->
            f_add q (B754_infinity true) = B754_infinity true).
  { intros q [Q| ->]; [destruct q; try discriminate; reflexivity | reflexivity]. }
  destruct Gp as [Fp| ->].
  - destruct Ga as [Fa| ->].
    + destruct Gb as [Fb| ->].
      * destruct (add_rounded a p Fa Fp) as [A1 [A2 _]].
        destruct (add_rounded b p Fb Fp) as [B1 [B2 _]].
        apply Bleb_iff. split; [exact A1|]. split; [exact B1|].
        rewrite A2, B2. apply clamp_mono, rnd_mono.
        rewrite !X_fin in Hab by assumption. lra.
      * simpl in Hab. pose proof (X_fin_bound _ Fa). lra.
    + rewrite NInf by auto. apply Bleb_iff. split; [reflexivity|]. split; [exact Hn|].
      apply X_bound.
  - rewrite !NInf' by auto. apply Bleb_iff. split; [reflexivity|]. split; [reflexivity|]. lra.
Qed.

Lemma add_comm x y : is_nan (f_add x y) = is_nan (f_add y x) /\ X (f_add x y) = X (f_add y x).
Proof.
  destruct (is_finite x) eqn:Fx, (is_finite y) eqn:Fy.
  - destruct (add_rounded x y Fx Fy) as [A1 [A2 _]].
    destruct (add_rounded y x Fy Fx) as [B1 [B2 _]].
    rewrite A1, A2, B1, B2. rewrite Rplus_comm. auto.
  - destruct y as [sy|sy| |sy my ey Hy]; try discriminate;
    destruct x as [sx|sx| |sx mx ex Hx]; try discriminate; auto.
  - destruct y as [sy|sy| |sy my ey Hy]; try discriminate;
    destruct x as [sx|sx| |sx mx ex Hx]; try discriminate; auto.
  - destruct y as [sy|sy| |sy my ey Hy]; try discriminate;
    destruct x as [sx|sx| |sx mx ex Hx]; try discriminate; auto;
    destruct sx, sy; auto.
Qed.

Lemma add_mono_r a p q : Bleb p q = true -> goodf (f_add a q) ->
  Bleb (f_add a p) (f_add a q) = true.
Proof.
  intros H G.
  destruct (add_comm a p) as [P1 P2], (add_comm a q) as [Q1 Q2].
  apply goodf_iff in G. rewrite Q1, Q2 in G. apply goodf_iff in G.
  pose proof (add_mono_l p q a H G) as K. apply Bleb_iff in K. apply Bleb_iff.
  rewrite P1, P2, Q1, Q2. exact K.
Qed.

Lemma add_nan a p : is_nan a = true -> is_nan (f_add a p) = true.
Proof. destruct a; try discriminate. reflexivity. Qed.

Lemma fma_good_inv w x a : goodf (Bfma mode_NE w x a) -> goodf a.
Proof.
  rewrite !goodf_cases.
  destruct a as [sa|sa| |sa ma ea Ha]; try (intros _; left; reflexivity);
  destruct w as [sw|sw| |sw mw ew Hw], x as [sx|sx| |sx mx ex Hx];
    try destruct sa; try destruct sw; try destruct sx; simpl;
    intros [H|H]; try discriminate; auto; discriminate.
Qed.

Lemma eq_neg_inf (x : f64) : is_nan x = false -> X x <= - BB -> x = B754_infinity true.
Proof.
  intros N H. destruct (is_finite x) eqn:F.
  - pose proof (X_fin_bound _ F). lra.
  - destruct x as [s|s| |s m e H']; try discriminate. destruct s; [reflexivity|].
    simpl in H. pose proof BB_pos. lra.
Qed.

(** ** Laws common to both instances, and the fused case *)

Lemma le_inf_fin_mul_nonneg (w x : f64) :
  is_nan w = false -> is_nan x = false -> 0 <= X w -> 0 <= X x ->
  is_nan (f_mul w x) = false -> 0 <= X (f_mul w x).
Proof.
  intros Nw Nx Hw Hx Nm.
  destruct (is_finite w) eqn:Fw, (is_finite x) eqn:Fx.
  - destruct (mul_rounded w x Fw Fx) as [_ [E _]]. rewrite E.
    rewrite !X_fin in * by assumption.
    pose proof BB_pos.
    replace 0 with (clamp (rnd 0)) at 1.
    + apply clamp_mono, rnd_mono. nra.
    + rewrite rnd_0. apply clamp_id. rewrite Rabs_R0. lra.
  - destruct x as [sx|sx| |sx mx ex Hx']; try discriminate.
    pose proof BB_pos. destruct sx; [simpl in Hx; lra|].
    destruct w as [sw|sw| |sw mw ew Hw']; try discriminate.
    destruct sw; [|simpl; lra]. exfalso.
    simpl in Hw. assert (F2R (Float radix2 (Z.neg mw) ew) < 0) by (apply F2R_lt_0; reflexivity). simpl in Hw. lra.
  - destruct w as [sw|sw| |sw mw ew Hw']; try discriminate.
    pose proof BB_pos. destruct sw; [simpl in Hw; lra|].
    destruct x as [sx|sx| |sx mx ex Hx']; try discriminate.
    destruct sx; [|simpl; lra]. exfalso.
    simpl in Hx. assert (F2R (Float radix2 (Z.neg mx) ex) < 0) by (apply F2R_lt_0; reflexivity). simpl in Hx. lra.
  - destruct w as [sw|sw| |sw mw ew Hw']; try discriminate;
    destruct x as [sx|sx| |sx mx ex Hx']; try discriminate.
    pose proof BB_pos. destruct sw, sx; simpl in *; lra.
Qed.

Lemma X_finite_pos_nz (w : f64) : is_finite w = true -> 0 <= B2R w ->
  (exists s, w = B754_zero s) \/ (exists m e H, w = B754_finite false m e H).
Proof.
  destruct w as [s|s| |s m e H]; try discriminate; intros _ K.
  - left; eauto.
  - destruct s; [|right; eauto]. exfalso. simpl in K.
    assert (F2R (Float radix2 (Z.neg m) e) < 0) by (apply F2R_lt_0; reflexivity). simpl in K. lra.
Qed.

Lemma mul_mono_r (w x y : f64) :
  is_nan w = false -> 0 <= X w -> 0 <= X x -> Bleb x y = true -> goodf (f_mul w y) ->
  Bleb (f_mul w x) (f_mul w y) = true.
Proof.
  intros Nw Hw Hx Hxy Hg. apply Bleb_iff in Hxy. destruct Hxy as [Nx [Ny Hxy]].
  pose proof BB_pos as HB.
  assert (Nwy : is_nan (f_mul w y) = false) by (apply goodf_iff in Hg; apply Hg).
  destruct (is_finite w) eqn:Fw.
  - destruct (is_finite y) eqn:Fy.
    + assert (Fx : is_finite x = true).
      { destruct x as [s|s| |s m e H]; try discriminate; try reflexivity.
        destruct s; simpl in *; [lra|]. pose proof (X_fin_bound _ Fy). lra. }
      destruct (mul_rounded w x Fw Fx) as [A1 [A2 _]].
      destruct (mul_rounded w y Fw Fy) as [B1 [B2 _]].
      apply Bleb_iff. split; [exact A1|]. split; [exact B1|]. rewrite A2, B2.
      apply clamp_mono, rnd_mono. rewrite !X_fin in * by assumption. nra.
    + destruct y as [s|s| |s m e H]; try discriminate. destruct s; [simpl in *; lra|].
      exfalso. rewrite X_fin in Hw by assumption.
      destruct (X_finite_pos_nz w Fw Hw) as [[s' ->]|[m' [e' [H' ->]]]]; simpl in *.
      * discriminate.
      * apply goodf_iff in Hg. simpl in Hg. lra.
  - destruct w as [s|s| |s m e H]; try discriminate. destruct s; [simpl in *; lra|].
    exfalso. destruct y as [s'|s'| |s' m' e' H']; try discriminate.
    + destruct s'; simpl in *; [lra|]. apply goodf_iff in Hg. simpl in Hg. lra.
    + assert (0 <= B2R (B754_finite s' m' e' H' : f64)) by (simpl in *; lra).
      destruct (X_finite_pos_nz (B754_finite s' m' e' H') eq_refl H) as [[s'' E]|[m'' [e'' [H'' E]]]];
        [discriminate|]. inversion E; subst. apply goodf_iff in Hg. simpl in Hg. lra.
Qed.

Lemma mul_good_inv (w x : f64) : is_nan w = false -> 0 <= X w -> goodf (f_mul w x) -> goodf x.
Proof.
  intros Nw Hw Hg. pose proof BB_pos. apply goodf_cases.
  destruct x as [s|s| |s m e H']; try (left; reflexivity).
  - destruct s; [right; reflexivity|]. exfalso.
    destruct w as [s'|s'| |s' m' e' H']; try discriminate.
    + destruct s'; simpl in *; [lra|]. apply goodf_iff in Hg. simpl in Hg. lra.
    + assert (0 <= B2R (B754_finite s' m' e' H' : f64)) by (simpl in *; lra).
      destruct (X_finite_pos_nz (B754_finite s' m' e' H') eq_refl H0) as [[s'' E]|[m'' [e'' [H'' E]]]];
        [discriminate|]. inversion E; subst. apply goodf_iff in Hg. simpl in Hg. lra.
  - exfalso. destruct w; discriminate.
Qed.

Lemma zero_eq (x : f64) : Beqb x (f_ofZ 0) = true <-> exists s, x = B754_zero s.
Proof.
  rewrite Beqb_iff, X_0. split.
  - intros [N [_ E]]. pose proof BB_pos. destruct x as [s|s| |s m e H']; try discriminate.
    + eauto.
    + destruct s; simpl in E; lra.
    + exfalso. simpl in E.
      destruct s; [assert (F2R (Float radix2 (Z.neg m) e) < 0) by (apply F2R_lt_0; reflexivity)
                  |assert (0 < F2R (Float radix2 (Z.pos m) e)) by (apply F2R_gt_0; reflexivity)];
      simpl in *; lra.
  - intros [s ->]. split; [reflexivity|]. split; [reflexivity|]. reflexivity.
Qed.

Lemma zero_ok s : Beqb (B754_zero s : f64) (f_ofZ 0) = true.
Proof. apply zero_eq. eauto. Qed.

Ltac order :=
  repeat match goal with
  | H : Bltb _ _ = true |- _ => apply Bltb_iff in H; destruct H as [? [? ?]]
  | H : Bleb _ _ = true |- _ => apply Bleb_iff in H; destruct H as [? [? ?]]
  | H : Beqb _ _ = true |- _ => apply Beqb_iff in H; destruct H as [? [? ?]]
  end.

Lemma bool_iff (a b : bool) : (a = true <-> b = true) -> a = b.
Proof. destruct a, b; intuition congruence. Qed.

(** Division by a positive integer. *)
Lemma div_int_rounded (x : f64) k : (1 <= k <= 2 ^ 53)%Z -> is_finite x = true ->
  is_rounded (f_div x (f_ofZ k)) (B2R x / IZR k).
Proof.
  intros Hk Fx. assert (K1 : (Z.abs k <= 2 ^ 53)%Z) by lia.
  assert (K2 : 0 < IZR k) by (apply IZR_lt; lia).
  pose proof (Bdiv_correct 53 1024 prec53 emax1024 mode_NE x (f_ofZ k)) as C.
  rewrite ofZ_B2R in C by exact K1. specialize (C ltac:(lra)).
  apply mk_rounded with (s := xorb (Bsign x) (Bsign (f_ofZ k))).
  destruct (Rlt_bool_spec (Rabs (rnd (B2R x / IZR k))) BB) as [Hl|Hl].
  - destruct C as [C1 [C2 _]]. split; [exact C1|]. unfold f_div. rewrite C2. exact Fx.
  - exfalso.
    assert (Rabs (B2R x / IZR k) <= Rabs (B2R x)).
    { unfold Rdiv. rewrite Rabs_mult. rewrite (Rabs_right (/ IZR k)).
      2:{ apply Rle_ge, Rlt_le, Rinv_0_lt_compat. exact K2. }
      rewrite <- (Rmult_1_r (Rabs (B2R x))) at 2. apply Rmult_le_compat_l; [apply Rabs_pos|].
      rewrite <- Rinv_1. apply Rinv_le_contravar; [lra|]. apply IZR_le. lia. }
    assert (Rabs (rnd (B2R x / IZR k)) <= Rabs (B2R x)).
    { apply abs_round_le_generic; try apply vexp; try apply valid_rnd_round_mode.
      - apply generic_format_abs. apply generic_format_B2R.
      - exact H. }
    pose proof (abs_B2R_lt_emax 53 1024 x). lra.
Qed.

Lemma ofZ_pos_form k : (1 <= k <= 2 ^ 53)%Z -> exists m e H, f_ofZ k = B754_finite false m e H.
Proof.
  intros Hk. assert (K1 : (Z.abs k <= 2 ^ 53)%Z) by lia.
  pose proof (ofZ_fin k K1) as F. pose proof (ofZ_B2R k K1) as E.
  assert (K2 : 0 < IZR k) by (apply IZR_lt; lia).
  destruct (X_finite_pos_nz (f_ofZ k) F) as [[s Z]|Q]; [lra| |exact Q].
  rewrite Z in E. simpl in E. lra.
Qed.

Lemma div_int_nan (x : f64) k : (1 <= k <= 2 ^ 53)%Z -> is_nan (f_div x (f_ofZ k)) = is_nan x.
Proof.
  intros Hk. destruct (is_finite x) eqn:Fx.
  - rewrite (fin_nan _ Fx). apply (div_int_rounded x k Hk Fx).
  - destruct (ofZ_pos_form k Hk) as [m [e [H ->]]].
    destruct x; try discriminate; reflexivity.
Qed.

Lemma div_int_mono (x y : f64) k : (1 <= k <= 2 ^ 53)%Z -> Bleb x y = true ->
  Bleb (f_div x (f_ofZ k)) (f_div y (f_ofZ k)) = true.
Proof.
  intros Hk H. assert (K2 : 0 < IZR k) by (apply IZR_lt; lia).
  apply Bleb_iff in H. destruct H as [Nx [Ny H]].
  apply Bleb_iff. rewrite !div_int_nan by exact Hk. split; [exact Nx|]. split; [exact Ny|].
  assert (Inf : forall s, f_div (B754_infinity s) (f_ofZ k) = B754_infinity s).
  { intros s. destruct (ofZ_pos_form k Hk) as [m [e [H' ->]]]. destruct s; reflexivity. }
  destruct (is_finite x) eqn:Fx.
  - destruct (is_finite y) eqn:Fy.
    + destruct (div_int_rounded x k Hk Fx) as [_ [A _]].
      destruct (div_int_rounded y k Hk Fy) as [_ [B _]].
      rewrite A, B. apply clamp_mono, rnd_mono. rewrite !X_fin in H by assumption.
      unfold Rdiv. apply Rmult_le_compat_r; [|exact H]. apply Rlt_le, Rinv_0_lt_compat. exact K2.
    + destruct y as [s|s| |s m e H']; try discriminate. rewrite Inf. destruct s.
      * pose proof (X_fin_bound _ Fx). simpl in H. lra.
      * apply X_bound.
  - destruct x as [s|s| |s m e H']; try discriminate. rewrite Inf. destruct s; [apply X_bound|].
    destruct (is_finite y) eqn:Fy.
    + pose proof (X_fin_bound _ Fy). simpl in H. lra.
    + destruct y as [s|s| |s m e H']; try discriminate. rewrite Inf. exact H.
Qed.

Lemma div_int_fin (x : f64) k : (1 <= k <= 2 ^ 53)%Z -> is_finite x = true -> is_finite (f_div x (f_ofZ k)) = true.
Proof.
  intros Hk Fx. destruct (div_int_rounded x k Hk Fx) as [_ [_ H]]. apply H.
  assert (K2 : 0 < IZR k) by (apply IZR_lt; lia).
  assert (Rabs (B2R x / IZR k) <= Rabs (B2R x)).
  { unfold Rdiv. rewrite Rabs_mult. rewrite (Rabs_right (/ IZR k)).
    2:{ apply Rle_ge, Rlt_le, Rinv_0_lt_compat. exact K2. }
    rewrite <- (Rmult_1_r (Rabs (B2R x))) at 2. apply Rmult_le_compat_l; [apply Rabs_pos|].
    rewrite <- Rinv_1. apply Rinv_le_contravar; [lra|]. apply IZR_le. lia. }
  assert (Rabs (rnd (B2R x / IZR k)) <= Rabs (B2R x)).
  { apply abs_round_le_generic; try apply vexp; try apply valid_rnd_round_mode.
    - apply generic_format_abs. apply generic_format_B2R.
    - exact H0. }
  pose proof (abs_B2R_lt_emax 53 1024 x). lra.
Qed.

Lemma div_int_good (x : f64) k : (1 <= k <= 2 ^ 53)%Z -> goodf x -> goodf (f_div x (f_ofZ k)).
Proof.
  intros Hk G. apply goodf_cases in G. apply goodf_cases. destruct G as [F| ->].
  - left. apply div_int_fin; assumption.
  - right. destruct (ofZ_pos_form k Hk) as [m [e [H ->]]]. reflexivity.
Qed.

Lemma sub_ofZ a b : (Z.abs a <= 2 ^ 53)%Z -> (Z.abs b <= 2 ^ 53)%Z ->
  (Z.abs (a - b) <= 2 ^ 53)%Z -> f_sub (f_ofZ a) (f_ofZ b) = f_ofZ (a - b).
Proof.
  intros Ha Hb Hab.
  pose proof (Bminus_correct 53 1024 prec53 emax1024 mode_NE (f_ofZ a) (f_ofZ b)
                (ofZ_fin a Ha) (ofZ_fin b Hb)) as C.
  rewrite !ofZ_B2R in C by assumption. rewrite <- minus_IZR, rnd_IZR in C by exact Hab.
  rewrite Rlt_bool_true in C by (apply IZR_lt_BB; exact Hab).
  destruct C as [C1 [C2 C3]].
  apply B2R_Bsign_inj; try assumption.
  - apply ofZ_fin; exact Hab.
  - unfold f_sub. rewrite C1. symmetry. apply ofZ_B2R. exact Hab.
  - unfold f_sub. rewrite C3.
    assert (S : forall z, (Z.abs z <= 2 ^ 53)%Z ->
              Bsign (f_ofZ z) = match Rcompare (IZR z) 0 with Eq => false | Lt => true | Gt => false end).
    { intros z Hz. pose proof (binary_normalize_correct 53 1024 prec53 emax1024 mode_NE z 0 false) as D.
      cbv zeta in D. rewrite F2R_int in D. rewrite rnd_IZR in D by exact Hz.
      rewrite Rlt_bool_true in D by (apply IZR_lt_BB; exact Hz). apply D. }
    rewrite !S by assumption.
    destruct (Rcompare_spec (IZR (a - b)) 0) as [K|K|K]; try reflexivity.
    rewrite minus_IZR in K.
    destruct (Rcompare_spec (IZR a) 0), (Rcompare_spec (IZR b) 0); try reflexivity; lra.
Qed.

(** Fractions of integers. *)
Lemma frac_B2R a k : (Z.abs a <= 2 ^ 53)%Z -> (1 <= k <= 2 ^ 53)%Z ->
  is_finite (f_div (f_ofZ a) (f_ofZ k)) = true /\
  B2R (f_div (f_ofZ a) (f_ofZ k)) = rnd (IZR a / IZR k).
Proof.
  intros Ha Hk. pose proof (div_int_fin _ k Hk (ofZ_fin a Ha)) as F. split; [exact F|].
  destruct (div_int_rounded _ k Hk (ofZ_fin a Ha)) as [_ [E G]].
  rewrite ofZ_B2R in E, G by exact Ha. rewrite X_fin in E by exact F. rewrite E. apply clamp_id. apply G. exact F.
Qed.

Lemma ofZ_sign z : (Z.abs z <= 2 ^ 53)%Z -> Bsign (f_ofZ z) = (z <? 0)%Z.
Proof.
  intros Hz. pose proof (binary_normalize_correct 53 1024 prec53 emax1024 mode_NE z 0 false) as D.
  cbv zeta in D. rewrite F2R_int in D. rewrite rnd_IZR in D by exact Hz.
  rewrite Rlt_bool_true in D by (apply IZR_lt_BB; exact Hz). destruct D as [_ [_ D]].
  unfold f_ofZ. rewrite D.
  destruct (Rcompare_spec (IZR z) 0) as [K|K|K].
  - apply lt_IZR in K. symmetry. apply Z.ltb_lt. exact K.
  - apply eq_IZR in K. subst. reflexivity.
  - apply lt_IZR in K. symmetry. apply Z.ltb_ge. lia.
Qed.

Lemma div_exact b k : (Z.abs (b * k) <= 2 ^ 53)%Z -> (1 <= k <= 2 ^ 53)%Z ->
  f_div (f_ofZ (b * k)) (f_ofZ k) = f_ofZ b.
Proof.
  intros Hb Hk. destruct (frac_B2R (b * k) k Hb Hk) as [F E].
  assert (Hb1 : (Z.abs b <= 2 ^ 53)%Z) by (rewrite Z.abs_mul in Hb; nia).
  assert (K0 : 0 < IZR k) by (apply IZR_lt; lia).
  assert (E2 : IZR (b * k) / IZR k = IZR b) by (rewrite mult_IZR; field; lra).
  rewrite E2, rnd_IZR in E by exact Hb1.
  apply B2R_Bsign_inj; [exact F|apply ofZ_fin; exact Hb1|rewrite E; symmetry; apply ofZ_B2R; exact Hb1|].
  assert (Nz : B2R (f_ofZ k) <> 0) by (rewrite ofZ_B2R by lia; lra).
  pose proof (Bdiv_correct 53 1024 prec53 emax1024 mode_NE (f_ofZ (b * k)) (f_ofZ k) Nz) as C.
  rewrite !ofZ_B2R in C by (lia || exact Hb). rewrite E2, rnd_IZR in C by exact Hb1.
  rewrite Rlt_bool_true in C by (apply IZR_lt_BB; exact Hb1). destruct C as [_ [_ C]].
  unfold f_div in *. rewrite C by (apply fin_nan; exact F). rewrite !ofZ_sign by (lia || assumption).
  destruct (Z.ltb_spec k 0); [lia|]. rewrite xorb_false_r.
  destruct (Z.ltb_spec (b * k) 0), (Z.ltb_spec b 0); try reflexivity; nia.
Qed.

Lemma frac_nonneg a k : (0 <= a <= 2 ^ 53)%Z -> (1 <= k <= 2 ^ 53)%Z ->
  Bleb (f_ofZ 0) (f_div (f_ofZ a) (f_ofZ k)) = true.
Proof.
  intros Ha Hk. destruct (frac_B2R a k ltac:(lia) Hk) as [F E].
  apply Bleb_iff. split; [reflexivity|]. split; [apply fin_nan; exact F|].
  rewrite X_0, X_fin by exact F. rewrite E. rewrite <- rnd_0. apply rnd_mono.
  apply Rmult_le_pos; [apply IZR_le; lia|]. apply Rlt_le, Rinv_0_lt_compat, IZR_lt. lia.
Qed.

Lemma frac_trunc a k : (0 <= a < 2 ^ 53)%Z -> (1 <= k <= 2 ^ 53)%Z ->
  f_trunc (f_div (f_ofZ a) (f_ofZ k)) = Some (a / k)%Z.
Proof.
  intros Ha Hk. destruct (frac_B2R a k ltac:(lia) Hk) as [F E].
  unfold f_trunc. rewrite F. f_equal. apply eq_IZR. rewrite Btrunc_correct by apply emax1024.
  rewrite E, round_FIX_IZR. f_equal.
  assert (K0 : 0 < IZR k) by (apply IZR_lt; lia).
  pose proof (Z.div_mod a k ltac:(lia)) as Hq. pose proof (Z.mod_pos_bound a k ltac:(lia)) as Hr.
  set (q := (a / k)%Z) in *.
  assert (Hq0 : (0 <= q <= a)%Z) by (unfold q; split; [apply Z.div_pos; lia | apply Z.div_le_upper_bound; nia]).
  assert (L1 : IZR q <= IZR a / IZR k).
  { apply Rmult_le_reg_r with (IZR k); [exact K0|]. unfold Rdiv. rewrite Rmult_assoc, Rinv_l, Rmult_1_r by lra.
    rewrite <- mult_IZR. apply IZR_le. nia. }
  assert (L2 : IZR q <= rnd (IZR a / IZR k)).
  { rewrite <- (rnd_IZR q) by lia. apply rnd_mono. exact L1. }
  assert (U : rnd (IZR a / IZR k) < IZR q + 1).
  { destruct (Z.eq_dec a 0) as [->|Na].
    - unfold Rdiv. rewrite Rmult_0_l, rnd_0.
      assert (0 <= IZR q) by (apply IZR_le; lia). lra.
    - assert (P : 1 <= IZR a) by (apply IZR_le; lia).
      assert (Pa : IZR a < IZR (2 ^ 53)) by (apply IZR_lt; lia).
      assert (Kle : IZR k <= IZR (2 ^ 53)) by (apply IZR_le; lia).
      set (r := IZR a / IZR k) in *.
      assert (Er : r * IZR k = IZR a) by (unfold r, Rdiv; rewrite Rmult_assoc, Rinv_l, Rmult_1_r by lra; reflexivity).
      assert (Pr : 0 < r). { unfold r, Rdiv. apply Rmult_lt_0_compat; [lra|]. apply Rinv_0_lt_compat. exact K0. }
      assert (RE : Rabs (rnd r - r) <= / 2 * bpow radix2 (-53 + 1) * Rabs r).
      { apply (relative_error_N_FLT radix2 (3 - 1024 - 53) 53 eq_refl).
        rewrite Rabs_right by lra.
        apply Rle_trans with (bpow radix2 (-53)); [apply bpow_le; lia|].
        apply Rmult_le_reg_r with (IZR k); [exact K0|]. rewrite Er.
        apply Rle_trans with (bpow radix2 (-53) * IZR (2 ^ 53)).
        - apply Rmult_le_compat_l; [apply bpow_ge_0|exact Kle].
        - change (IZR (2 ^ 53)) with (bpow radix2 53). rewrite <- bpow_plus. change (bpow radix2 (-53 + 53)) with 1. exact P. }
      rewrite (Rabs_right r) in RE by lra.
      assert (B53 : / 2 * bpow radix2 (-53 + 1) * IZR (2 ^ 53) = 1).
      { change (IZR (2 ^ 53)) with (bpow radix2 53).
        replace (/ 2) with (bpow radix2 (-1)) by reflexivity.
        rewrite <- !bpow_plus. reflexivity. }
      set (u := / 2 * bpow radix2 (-53 + 1)) in *.
      assert (Pu : 0 < u). { unfold u. apply Rmult_lt_0_compat; [lra|apply bpow_gt_0]. }
      apply Rabs_le_inv in RE.
      apply Rmult_lt_reg_r with (IZR k); [exact K0|].
      assert (H1 : rnd r * IZR k <= (r + u * r) * IZR k) by (apply Rmult_le_compat_r; lra).
      assert (H2 : (r + u * r) * IZR k = IZR a + u * IZR a) by (rewrite <- Er; ring).
      assert (H3 : u * IZR a < 1) by (rewrite <- B53; apply Rmult_lt_compat_l; assumption).
      assert (H4 : IZR a + 1 <= (IZR q + 1) * IZR k).
      { rewrite <- !plus_IZR, <- mult_IZR. apply IZR_le. nia. }
      lra. }
  unfold Ztrunc. rewrite Rlt_bool_false by (apply Rle_trans with (IZR q); [apply IZR_le; lia|exact L2]).
  apply Zfloor_imp. rewrite plus_IZR. split; assumption.
Qed.

Lemma rnd_dyadic z : (Z.abs z < 2 ^ 53)%Z -> rnd (IZR z * bpow radix2 (-10)) = IZR z * bpow radix2 (-10).
Proof.
  intros H. apply round_generic; [apply valid_rnd_round_mode|].
  apply generic_format_FLT. exists (Float radix2 z (-10)).
  - reflexivity.
  - change (Z.abs z < 2 ^ 53)%Z. lia.
  - vm_compute. discriminate.
Qed.

Lemma frac_neg1 a k : (Z.abs a <= 2 ^ 53)%Z -> (1 <= k <= 2 ^ 10)%Z -> a <> (- k)%Z ->
  Beqb (f_div (f_ofZ a) (f_ofZ k)) (f_ofZ (-1)) = false.
Proof.
  intros Ha Hk Hne. destruct (frac_B2R a k Ha ltac:(lia)) as [F E].
  apply Bool.not_true_is_false. intros Q. apply Beqb_iff in Q. destruct Q as [_ [_ Q]].
  rewrite ofZ_X in Q by lia. rewrite X_fin, E in Q by exact F.
  assert (K0 : 0 < IZR k) by (apply IZR_lt; lia).
  assert (Hb : bpow radix2 (-10) = / 1024) by reflexivity.
  assert (Er : IZR a / IZR k * IZR k = IZR a) by (unfold Rdiv; rewrite Rmult_assoc, Rinv_l, Rmult_1_r by lra; reflexivity).
  assert (Hk' : IZR k <= 1024) by (apply IZR_le; lia).
  destruct (Z_lt_le_dec a (- k)) as [H|H].
  - assert (C : rnd (IZR a / IZR k) <= IZR (-1025) * bpow radix2 (-10)).
    { rewrite <- (rnd_dyadic (-1025)) by lia. apply rnd_mono.
      apply Rmult_le_reg_r with (IZR k); [exact K0|]. rewrite Er, Hb.
      assert (IZR a <= - IZR k - 1). { rewrite <- opp_IZR, <- minus_IZR. apply IZR_le. lia. }
      lra. }
    rewrite Q, Hb in C. lra.
  - assert (C : IZR (-1023) * bpow radix2 (-10) <= rnd (IZR a / IZR k)).
    { rewrite <- (rnd_dyadic (-1023)) by lia. apply rnd_mono.
      apply Rmult_le_reg_r with (IZR k); [exact K0|]. rewrite Er, Hb.
      assert (- IZR k + 1 <= IZR a). { rewrite <- opp_IZR, <- plus_IZR. apply IZR_le. lia. }
      lra. }
    rewrite Q, Hb in C. lra.
Qed.

Section Common.
Variable M : f64 -> f64 -> f64 -> f64.
Definition NumG : Num := mkNum f64
  B754_nan (B754_infinity false) f_ofZ f_add f_sub f_mul f_div Babs
  M Bltb Bleb Beqb is_nan is_finite f_trunc.
Hypothesis Mnan : forall a w x, is_nan a = true -> is_nan (M a w x) = true.
Hypothesis Mgood : forall a w x, goodf (M a w x) -> goodf a.
Hypothesis Mmono : forall a b w x, Bleb a b = true -> goodf (M b w x) -> Bleb (M a w x) (M b w x) = true.
Hypothesis Mmonox : forall a w x y, is_nan w = false -> 0 <= X w -> 0 <= X x -> Bleb x y = true ->
  goodf (M a w y) -> Bleb (M a w x) (M a w y) = true.
Hypothesis Mnonneg : forall a w x,
  is_nan a = false -> is_nan w = false -> is_nan x = false ->
  0 <= X a -> 0 <= X w -> 0 <= X x -> is_nan (M a w x) = false -> 0 <= X (M a w x).
Hypothesis Mzero : forall s w s', is_finite w = true ->
  Beqb (M (B754_zero s) w (B754_zero s')) (f_ofZ 0) = true.
Hypothesis Mobst : forall a w x, is_nan w = false -> 0 <= X w -> goodf (M a w x) -> goodf x.

Lemma NumG_laws : NumLaws NumG.
Proof.
  constructor; unfold good, NumG; cbn [V nan pinf ofZ add sub mul div vabs macc ltb leb eqb isnan isfin trunc].
  - intros x H. apply goodf_iff in H. apply H.
  - reflexivity.
  - exact Mnan.
  - intros x. apply Bool.not_true_is_false. intros H. order. lra.
  - intros x y z H1 H2. order. apply Bltb_iff. intuition lra.
  - intros x y H. order. apply Bleb_iff. intuition lra.
  - intros x H. apply Bleb_iff. intuition lra.
  - intros x y z H1 H2. order. apply Bleb_iff. intuition lra.
  - intros x y z H1 H2. order. apply Bltb_iff. intuition lra.
  - intros x y z H1 H2. order. apply Bltb_iff. intuition lra.
  - intros x y Nx Ny H. apply Bleb_iff. repeat split; auto.
    destruct (Rlt_or_le (X x) (X y)) as [K|K]; [|exact K].
    assert (Bltb x y = true) by (apply Bltb_iff; auto). congruence.
  - intros x y H1 H2. order. apply Beqb_iff. intuition lra.
  - intros x y H. order. apply Bleb_iff. intuition lra.
  - intros x y. apply bool_iff. rewrite !Beqb_iff. intuition.
  - intros x y H. order. auto.
  - intros a w x H. eapply Mgood. exact H.
  - intros a b w x H1 H2. apply Mmono; assumption.
  - intros a w x y Hw Hx Hxy Hg. fold (goodf (M a w y)) in Hg. order. rewrite X_0 in *.
    apply Mmonox; auto. apply Bleb_iff; auto.
  - intros a w x Ha Hw Hx Hn. order. rewrite X_0 in *.
    apply Bleb_iff. split; [reflexivity|]. split; [exact Hn|]. rewrite X_0. apply Mnonneg; auto.
  - intros a w x Ha Hw Hx. apply zero_eq in Ha. apply zero_eq in Hx.
    destruct Ha as [s ->], Hx as [s' ->]. apply Mzero. exact Hw.
  - intros a w x Hw Hg. fold (goodf (M a w x)) in Hg. order. rewrite X_0 in *. eapply Mobst; eauto.
  - exact trunc_ofZ.
  - intros a b Ha Hb. apply bool_iff. rewrite Beqb_iff, !ofZ_X, !ofZ_nan by assumption.
    rewrite Z.eqb_eq. split; [intros [_ [_ E]]; apply eq_IZR; exact E | intros ->; auto].
  - intros a b Ha Hb. apply bool_iff. rewrite Bleb_iff, !ofZ_X, !ofZ_nan by assumption.
    rewrite Z.leb_le. split; [intros [_ [_ E]]; apply le_IZR; exact E | intros; repeat split; auto; apply IZR_le; auto].
  - intros a b Ha Hb. apply bool_iff. rewrite Bltb_iff, !ofZ_X, !ofZ_nan by assumption.
    rewrite Z.ltb_lt. split; [intros [_ [_ E]]; apply lt_IZR; exact E | intros; repeat split; auto; apply IZR_lt; auto].
  - exact add_ofZ.
  - exact ofZ_fin.
  - exact fin_nan.
  - intros x H. apply goodf_cases. left. exact H.
  - reflexivity.
  - exact div_int_nan.
  - exact div_int_mono.
  - exact div_int_good.
  - intros x H. apply Bleb_iff. split; [exact H|]. split; [reflexivity|]. apply X_bound.
  - exact sub_ofZ.
  - intros a k Ha Hk. apply frac_B2R; assumption.
  - exact frac_nonneg.
  - exact frac_trunc.
  - exact frac_neg1.
  - intros a b. apply add_nan.
  - intros a b H. destruct b; try discriminate. destruct a; reflexivity.
  - intros x H. destruct x; try discriminate. reflexivity.
  - reflexivity.
  - exact div_exact.
Qed.
End Common.

Theorem NumF_laws : NumLaws NumF.
Proof.
  apply (NumG_laws (fun a w x => f_add a (f_mul w x))).
  - intros a w x H. apply add_nan. exact H.
  - intros a w x H. apply add_good_inv in H. apply H.
  - intros a b w x H G. apply add_mono_l; assumption.
  - intros a w x y Nw Hw Hx Hxy G. apply add_mono_r; [|exact G].
    apply mul_mono_r; auto. apply add_good_inv in G. apply G.
  - intros a w x Na Nw Nx Ha Hw Hx Hn.
    assert (Nm : is_nan (f_mul w x) = false).
    { destruct (f_mul w x); try reflexivity. destruct a; discriminate. }
    pose proof (le_inf_fin_mul_nonneg w x Nw Nx Hw Hx Nm) as Hm.
    revert Nm Hm Hn. generalize (f_mul w x). intros p Nm Hm Hn. pose proof BB_pos.
    destruct (is_finite a) eqn:Fa, (is_finite p) eqn:Fp.
    + destruct (add_rounded a p Fa Fp) as [_ [E _]]. rewrite E.
      replace 0 with (clamp (rnd 0)) at 1.
      * apply clamp_mono, rnd_mono. rewrite !X_fin in * by assumption. lra.
      * rewrite rnd_0. apply clamp_id. rewrite Rabs_R0. lra.
    + destruct p as [s|s| |s m e H']; try discriminate. destruct s; [simpl in *; lra|].
      destruct a; try discriminate; simpl; lra.
    + destruct a as [s|s| |s m e H']; try discriminate. destruct s; [simpl in *; lra|].
      destruct p; try discriminate; simpl; lra.
    + destruct a as [s|s| |s m e H']; try discriminate. destruct s; [simpl in *; lra|].
      destruct p as [s|s| |s m e H']; try discriminate. destruct s; [simpl in *; lra|]. simpl. lra.
  - intros s w s' Fw.
    destruct w as [sw|sw| |sw mw ew Hw]; try discriminate; simpl;
      unfold f_add, f_mul; simpl; destruct (Bool.eqb _ _); apply zero_ok.
  - intros a w x Nw Hw G. apply add_good_inv in G. eapply mul_good_inv; try apply G; assumption.
Qed.

Theorem NumFMA_laws : NumLaws NumFMA.
Proof.
  apply (NumG_laws (fun a w x => Bfma mode_NE w x a)).
  - intros a w x H. destruct a; try discriminate.
    destruct w, x; reflexivity.
  - intros a w x H. eapply fma_good_inv. exact H.
  - (* monotone in the accumulator *)
    intros a b w x Hab G. pose proof G as G'. apply fma_good_inv in G'.
    apply Bleb_iff in Hab. destruct Hab as [Na [Nb Hab]].
    apply goodf_iff in G. destruct G as [Gn Gl].
    pose proof G' as Gb. apply goodf_iff in Gb. destruct Gb as [_ Gb].
    apply goodf_cases in G'.
    assert (Ga : is_finite a = true \/ a = B754_infinity true).
    { apply goodf_cases. apply goodf_iff. split; [exact Na|]. lra. }
    apply Bleb_iff.
    destruct (is_finite w) eqn:Fw; [destruct (is_finite x) eqn:Fx|].
    + (* finite product *)
      destruct Ga as [Fa| ->].
      * destruct G' as [Fb| ->].
        -- destruct (fma_rounded w x a Fw Fx Fa) as [A1 [A2 _]].
           destruct (fma_rounded w x b Fw Fx Fb) as [B1 [B2 _]].
           split; [exact A1|]. split; [exact B1|]. rewrite A2, B2.
           apply clamp_mono, rnd_mono. rewrite !X_fin in Hab by assumption. lra.
        -- simpl in Hab. pose proof (X_fin_bound _ Fa). lra.
      * assert (E : Bfma mode_NE w x (B754_infinity true) = (B754_infinity true : f64)).
        { destruct w, x; try discriminate; reflexivity. }
        rewrite E. split; [reflexivity|]. split; [exact Gn|]. apply X_bound.
    + pose proof BB_pos.
      destruct x as [sx|sx| |sx mx ex Hx]; try discriminate;
      destruct w as [sw|sw| |sw mw ew Hw]; try discriminate;
      destruct b as [sb|sb| |sb mb eb Hb]; try discriminate;
      destruct sx, sw; cbn [xorb] in *; try destruct sb; try discriminate;
      (destruct Ga as [Fa| ->];
       [destruct a as [sa|sa| |sa ma ea Ha]; try discriminate; try destruct sa|]);
      cbn in *; try discriminate; repeat split; try lra.
    + pose proof BB_pos.
      destruct w as [sw|sw| |sw mw ew Hw]; try discriminate;
      destruct x as [sx|sx| |sx mx ex Hx]; try discriminate;
      destruct b as [sb|sb| |sb mb eb Hb]; try discriminate;
      destruct sx, sw; cbn [xorb] in *; try destruct sb; try discriminate;
      (destruct Ga as [Fa| ->];
       [destruct a as [sa|sa| |sa ma ea Ha]; try discriminate; try destruct sa|]);
      cbn in *; try discriminate; repeat split; try lra.
  - (* monotone in the local cost *)
    intros a w x y Nw Hw Hx Hxy G. apply Bleb_iff in Hxy. destruct Hxy as [Nx [Ny Hxy]].
    pose proof BB_pos as HB. pose proof G as G'. apply fma_good_inv in G'. apply goodf_cases in G'.
    apply goodf_iff in G. destruct G as [Gn Gl]. apply Bleb_iff.
    destruct (is_finite w) eqn:Fw.
    + destruct (is_finite y) eqn:Fy.
      * assert (Fx : is_finite x = true).
        { destruct x as [s|s| |s m e H]; try discriminate; try reflexivity.
          destruct s; simpl in *; [lra|]. pose proof (X_fin_bound _ Fy). lra. }
        destruct G' as [Fa| ->].
        -- destruct (fma_rounded w x a Fw Fx Fa) as [A1 [A2 _]].
           destruct (fma_rounded w y a Fw Fy Fa) as [B1 [B2 _]].
           split; [exact A1|]. split; [exact B1|]. rewrite A2, B2.
           apply clamp_mono, rnd_mono. rewrite !X_fin in * by assumption. nra.
        -- assert (E : forall q : f64, is_finite q = true -> Bfma mode_NE w q (B754_infinity true) = (B754_infinity true : f64)).
           { intros q Fq. destruct w, q; try discriminate; reflexivity. }
           rewrite !E by assumption. repeat split; lra.
      * exfalso. destruct y as [s|s| |s m e H]; try discriminate. destruct s; [simpl in *; lra|].
        rewrite X_fin in Hw by assumption.
        destruct (X_finite_pos_nz w Fw Hw) as [[s' ->]|[m' [e' [H' ->]]]].
        -- destruct a; discriminate.
        -- destruct a as [sa|sa| |sa ma ea Ha]; try destruct sa; cbn in *; try discriminate; lra.
    + exfalso. destruct w as [s|s| |s m e H]; try discriminate. destruct s; [simpl in *; lra|].
      destruct y as [s'|s'| |s' m' e' H']; try discriminate.
      * destruct s'; simpl in *; [lra|].
        destruct a as [sa|sa| |sa ma ea Ha]; try destruct sa; cbn in *; try discriminate; lra.
      * assert (0 <= B2R (B754_finite s' m' e' H' : f64)) by (simpl in *; lra).
        destruct (X_finite_pos_nz (B754_finite s' m' e' H') eq_refl H) as [[s'' E]|[m'' [e'' [H'' E]]]];
          [discriminate|]. inversion E; subst.
        destruct a as [sa|sa| |sa ma ea Ha]; try destruct sa; cbn in *; try discriminate; lra.
  - (* non-negative *)
    intros a w x Na Nw Nx Ha Hw Hx Hn. pose proof BB_pos.
    destruct (is_finite w) eqn:Fw; [destruct (is_finite x) eqn:Fx; [destruct (is_finite a) eqn:Fa|]|].
    + destruct (fma_rounded w x a Fw Fx Fa) as [_ [E _]]. rewrite E.
      replace 0 with (clamp (rnd 0)) at 1.
      * apply clamp_mono, rnd_mono. rewrite !X_fin in * by assumption. nra.
      * rewrite rnd_0. apply clamp_id. rewrite Rabs_R0. lra.
    + destruct a as [s|s| |s m e H']; try discriminate. destruct s; [simpl in *; lra|].
      destruct w, x; try discriminate; simpl; lra.
    + destruct x as [sx|sx| |sx mx ex Hx']; try discriminate. destruct sx; [simpl in *; lra|].
      rewrite X_fin in Hw by assumption.
      destruct (X_finite_pos_nz w Fw Hw) as [[s' ->]|[m' [e' [H' ->]]]]; [destruct a; discriminate|].
      destruct a as [sa|sa| |sa ma ea Ha']; try destruct sa; cbn in *; try discriminate; lra.
    + destruct w as [sw|sw| |sw mw ew Hw']; try discriminate. destruct sw; [simpl in *; lra|].
      destruct x as [sx|sx| |sx mx ex Hx']; try discriminate; try (destruct a; discriminate).
      * destruct sx; [simpl in *; lra|].
        destruct a as [sa|sa| |sa ma ea Ha']; try destruct sa; cbn in *; try discriminate; lra.
      * assert (0 <= B2R (B754_finite sx mx ex Hx' : f64)) by (simpl in *; lra).
        destruct (X_finite_pos_nz (B754_finite sx mx ex Hx') eq_refl H0) as [[s'' E]|[m'' [e'' [H'' E]]]];
          [discriminate|]. inversion E; subst.
        destruct a as [sa|sa| |sa ma ea Ha']; try destruct sa; cbn in *; try discriminate; lra.
  - intros s w s' Fw.
    destruct w as [sw|sw| |sw mw ew Hw]; try discriminate; apply zero_ok.
  - intros a w x Nw Hw G. pose proof BB_pos. apply goodf_cases.
    destruct x as [s|s| |s m e H']; try (left; reflexivity).
    + destruct s; [right; reflexivity|]. exfalso.
      destruct w as [s'|s'| |s' m' e' H']; try discriminate; try (destruct a; discriminate).
      * destruct s'; simpl in *; [lra|]. apply goodf_iff in G.
        destruct a as [sa|sa| |sa ma ea Ha']; try destruct sa; cbn in *; destruct G; try discriminate; lra.
      * assert (0 <= B2R (B754_finite s' m' e' H' : f64)) by (simpl in *; lra).
        destruct (X_finite_pos_nz (B754_finite s' m' e' H') eq_refl H0) as [[s'' E]|[m'' [e'' [H'' E]]]];
          [discriminate|]. inversion E; subst. apply goodf_iff in G.
        destruct a as [sa|sa| |sa ma ea Ha']; try destruct sa; cbn in *; destruct G; try discriminate; lra.
    + exfalso. destruct w; destruct a; discriminate.
Qed.

Print Assumptions NumF_laws.
Print Assumptions NumFMA_laws.
