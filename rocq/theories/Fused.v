(** Fused.v - multiply-add with weights 0, 1, 2 is the same fused or not (on non-negative doubles). *)
From Verif Require Import Base Num StepPattern Window Core Backtrack Dtw Spec Api Tables Vocab Terms NumQ NumF NumFLaws Accuracy Exact.
From Flocq Require Import Core BinarySingleNaN.
From Coq Require Import Reals Lra.
Open Scope R_scope.

(** NaN, or at least 0 (possibly infinite). *)
Definition nnf (v : f64) : Prop := is_nan v = true \/ (is_nan v = false /\ 0 <= X v).

Lemma rnd_BB (r : R) : fmt r -> rnd r = r.
Proof. intros F. apply round_generic; [apply valid_rnd_round_mode|exact F]. Qed.

Lemma mac_same_fin (a w x : f64) : is_finite a = true -> is_finite w = true -> is_finite x = true ->
  0 <= B2R a -> 0 <= B2R w -> 0 <= B2R x -> fmt (B2R w * B2R x) -> macF a w x = macFMA a w x.
Proof.
  intros Fa Fw Fx Pa Pw Px FF. unfold macF, macFMA. pose proof BB_pos as HB.
  pose proof (Bmult_correct 53 1024 prec53 emax1024 mode_NE w x) as C.
  pose proof (Bfma_correct 53 1024 prec53 emax1024 mode_NE w x a Fw Fx Fa) as D. cbv zeta in D.
  fold (rnd (B2R w * B2R x)) in C. rewrite (rnd_BB _ FF) in C.
  assert (P0 : 0 <= B2R w * B2R x) by (apply Rmult_le_pos; assumption).
  set (p := B2R w * B2R x) in *.
  destruct (Rlt_bool_spec (Rabs p) BB) as [Hl|Hl].
  - destruct C as [C1 [C2 C3]]. rewrite Fw, Fx in C2. cbn in C2.
    assert (Np : is_nan (Bmult mode_NE w x) = false) by (destruct (Bmult mode_NE w x); try discriminate; reflexivity).
    specialize (C3 Np).
    pose proof (Bplus_correct 53 1024 prec53 emax1024 mode_NE a (Bmult mode_NE w x) Fa C2) as E.
    rewrite C1 in E. rewrite (Rplus_comm (B2R a) p) in E.
    fold (rnd (p + B2R a)) in D, E. unfold f_add, f_mul.
    destruct (Rlt_bool_spec (Rabs (rnd (p + B2R a))) BB) as [Hs|Hs].
    + destruct D as [D1 [D2 D3]]. destruct E as [E1 [E2 E3]].
      apply B2R_Bsign_inj; try assumption.
      * rewrite E1, D1. reflexivity.
      * rewrite E3, D3, C3. destruct (Rcompare (p + B2R a) 0); try reflexivity. unfold Bfma_szero. destruct (Bsign a), (xorb (Bsign w) (Bsign x)); reflexivity.
    + destruct E as [E1 _]. rewrite overflow_NE in E1. apply inf_of_SF in E1. rewrite overflow_NE in D. apply inf_of_SF in D.
      rewrite E1, D. f_equal.
      rewrite Rlt_bool_false by lra.
      destruct (Bsign a) eqn:Sa; [|reflexivity]. exfalso.
      destruct (sign_ge a Fa) as [Q _]. specialize (Q Sa). assert (Z : B2R a = 0) by lra.
      rewrite Z, Rplus_0_r, (rnd_BB _ FF) in Hs. lra.
  - rewrite overflow_NE in C. apply inf_of_SF in C.
    assert (Hp : bpow radix2 1024 <= p) by (rewrite Rabs_pos_eq in Hl by exact P0; exact Hl).
    assert (Hs : bpow radix2 1024 <= rnd (p + B2R a)).
    { apply Rle_trans with (rnd p); [rewrite (rnd_BB _ FF); exact Hp|apply rnd_mono; lra]. }
    fold (rnd (p + B2R a)) in D.
    rewrite Rlt_bool_false in D by (rewrite Rabs_pos_eq by (pose proof (bpow_gt_0 radix2 1024); lra); exact Hs).
    rewrite overflow_NE in D. apply inf_of_SF in D. rewrite D. unfold f_add, f_mul. rewrite C.
    rewrite Rlt_bool_false by lra.
    assert (Sg : xorb (Bsign w) (Bsign x) = false).
    { destruct (sign_ge w Fw) as [W1 _], (sign_ge x Fx) as [X1 _]. destruct (Bsign w) eqn:Sw.
      - specialize (W1 eq_refl). exfalso. assert (B2R w = 0) by lra. unfold p in Hp. rewrite H, Rmult_0_l in Hp. pose proof (bpow_gt_0 radix2 1024). lra.
      - destruct (Bsign x) eqn:Sx; [|reflexivity]. specialize (X1 eq_refl). exfalso. assert (B2R x = 0) by lra. unfold p in Hp. rewrite H, Rmult_0_r in Hp. pose proof (bpow_gt_0 radix2 1024). lra. }
    rewrite Sg. destruct a; try discriminate; reflexivity.
Qed.

Lemma mac_same (a x : f64) q : wexact q = true -> nnf a -> nnf x ->
  macF a (@weight NumF q) x = macFMA a (@weight NumF q) x.
Proof.
  intros Hq Ha Hx. destruct (weight_exact q Hq) as [Fw [Ew [Pw FF]]].
  rewrite <- Ew in Pw, FF. set (w := @weight NumF q : f64) in *. clearbody w. unfold macF, macFMA, f_add, f_mul.
  destruct Hx as [Hx|[Nx Hx]].
  - destruct x; try discriminate. destruct w, a; reflexivity.
  - destruct (nonneg_cases x Nx Hx) as [Fx| ->].
    + destruct Ha as [Ha|[Na Ha]].
      * destruct a; try discriminate. destruct w; try discriminate; destruct x; try discriminate; try reflexivity.
      * destruct (nonneg_cases a Na Ha) as [Fa| ->].
        -- apply (mac_same_fin a w x); auto; [rewrite X_fin in Ha by exact Fa; exact Ha|rewrite X_fin in Hx by exact Fx; exact Hx|apply FF, generic_format_B2R].
        -- rewrite X_fin in Hx by exact Fx.
           assert (Nm : exists y, Bmult mode_NE w x = y /\ (is_finite y = true \/ y = B754_infinity false)).
           { eexists. split; [reflexivity|].
             destruct (mul_rounded w x Fw Fx) as [M1 [M2 _]]. unfold f_mul in *.
             apply nonneg_cases; [exact M1|]. rewrite M2. pose proof BB_pos.
             rewrite (rnd_BB _ (FF _ (generic_format_B2R _ _ x))). assert (0 <= B2R w * B2R x) by (apply Rmult_le_pos; assumption).
             unfold clamp. rewrite Rmax_right; apply Rmin_glb; lra. }
           destruct Nm as [y [Ey [Hy| ->]]]; rewrite Ey.
           ++ destruct w; try discriminate; destruct x; try discriminate; destruct y; try discriminate; reflexivity.
           ++ destruct w; try discriminate; destruct x; try discriminate; reflexivity.
    + destruct Ha as [Ha|[Na Ha]].
      * destruct a; try discriminate. destruct w; try discriminate; reflexivity.
      * assert (Sw : Bsign w = false \/ B2R w = 0).
        { destruct (sign_ge w Fw) as [W1 _]. destruct (Bsign w); [right; specialize (W1 eq_refl); lra|left; reflexivity]. }
        destruct w as [s|s| |s m e H]; try discriminate; [destruct a; reflexivity|].
        assert (s = false) as ->.
        { destruct Sw as [S|S]; [exact S|]. exfalso. cbn in S. apply eq_0_F2R in S. cbn in S. destruct s; discriminate. }
        destruct (nonneg_cases a Na Ha) as [Fa| ->]; [|reflexivity].
        destruct a; try discriminate; reflexivity.
Qed.
