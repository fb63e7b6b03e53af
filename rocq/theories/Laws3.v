(** Laws3.v - negation, used for the vertical offset of the two-way plot. *)
From Coq Require Import ZArith Reals Lia Lra Qcanon QArith.
From Flocq Require Import Core BinarySingleNaN.
From Verif Require Import Base Num NumQ NumQLaws NumF NumFLaws Plot.

Record NumLaws3 (N : Num) : Prop := mkLaws3 {
  law_sub_neg : forall v o : N, sub v (neg o) = add v o;
  law_neg_neg : forall v o : N, add (neg (neg o)) v = add v o
}.

Lemma neg_q q : @Plot.neg NumQ (XFin q) = XFin (- q)%Qc.
Proof. cbn. f_equal. Qed.
Lemma neg_inf b : @Plot.neg NumQ (if b : bool then XPInf else XNInf) = if b then XNInf else XPInf.
Proof. destruct b; reflexivity. Qed.

Lemma NumQ_laws3 : NumLaws3 NumQ.
Proof.
  split.
  - intros v [| | |o].
    + destruct v; reflexivity.
    + rewrite (neg_inf false). destruct v; reflexivity.
    + rewrite (neg_inf true). destruct v; reflexivity.
    + rewrite neg_q. destruct v as [| | |q]; try reflexivity. cbn. f_equal. ring.
  - intros v [| | |o].
    + destruct v; reflexivity.
    + rewrite (neg_inf false), (neg_inf true). destruct v; reflexivity.
    + rewrite (neg_inf true), (neg_inf false). destruct v; reflexivity.
    + rewrite !neg_q. destruct v as [| | |q]; try reflexivity. cbn. f_equal. ring.
Qed.

Open Scope R_scope.
Local Arguments bpow : simpl never.
Lemma mul_neg1 (x : f64) : f_mul (f_ofZ (-1)) x = Bopp x.
Proof.
  assert (E1 : exists m e H, f_ofZ (-1) = B754_finite true m e H).
  { pose proof (ofZ_B2R (-1) ltac:(lia)) as B. pose proof (ofZ_sign (-1) ltac:(lia)) as S. pose proof (ofZ_fin (-1) ltac:(lia)) as F.
    destruct (f_ofZ (-1)) as [s|s| |s m e H]; try discriminate F; cbn in S; subst.
    - cbn in B. lra.
    - eauto. }
  destruct (is_finite x) eqn:F.
  - pose proof (Bmult_correct 53 1024 prec53 emax1024 mode_NE (f_ofZ (-1)) x) as C.
    rewrite ofZ_B2R in C by lia.
    replace (-1 * B2R x) with (B2R (Bopp x)) in C by (rewrite B2R_Bopp; ring).
    rewrite round_generic in C; [|apply valid_rnd_N|apply generic_format_B2R].
    rewrite Rlt_bool_true in C.
    + destruct C as [C1 [C2 C3]]. rewrite F, ofZ_fin in C2 by lia. cbn in C2.
      apply B2R_Bsign_inj; [exact C2|rewrite is_finite_Bopp; exact F|exact C1|].
      unfold f_mul. rewrite C3 by (apply fin_nan; exact C2). rewrite ofZ_sign by lia. rewrite Bsign_Bopp by (apply fin_nan; exact F). reflexivity.
    + rewrite B2R_Bopp, Rabs_Ropp. apply abs_B2R_lt_emax.
  - destruct E1 as [m [e [H ->]]]. destruct x as [s|s| |s m' e' H']; try discriminate F; [|reflexivity]. destruct s; reflexivity.
Qed.

Lemma add_comm_eq (x y : f64) : f_add x y = f_add y x.
Proof.
  destruct (is_finite x) eqn:Fx; [destruct (is_finite y) eqn:Fy|].
  - pose proof (Bplus_correct 53 1024 prec53 emax1024 mode_NE x y Fx Fy) as C.
    pose proof (Bplus_correct 53 1024 prec53 emax1024 mode_NE y x Fy Fx) as D.
    rewrite (Rplus_comm (B2R y)) in D. unfold f_add.
    destruct (Rlt_bool _ _).
    + destruct C as [C1 [C2 C3]], D as [D1 [D2 D3]]. apply B2R_Bsign_inj; try assumption; [congruence|].
      rewrite C3, D3. destruct (Rcompare _ _); try reflexivity. apply Bool.andb_comm.
    + destruct C as [C1 C2], D as [D1 D2]. apply B2SF_inj. rewrite C1, D1, C2. reflexivity.
  - destruct x, y; try discriminate; reflexivity.
  - destruct x as [s|s| |], y as [s'|s'| |]; try discriminate; try reflexivity; try (destruct s, s'; reflexivity).
Qed.

Lemma NumF_laws3 : NumLaws3 NumF.
Proof.
  split; intros v o; unfold neg; cbn [NumF mul ofZ sub add].
  - rewrite mul_neg1. unfold f_sub, f_add.
    destruct v as [s|s| |s m e E], o as [t|t| |t n f F]; cbn [Bminus Bplus Bopp]; rewrite ?Bool.negb_involutive; reflexivity.
  - rewrite !mul_neg1, Bopp_involutive. apply add_comm_eq.
Qed.
Lemma NumFMA_laws3 : NumLaws3 NumFMA.
Proof. exact (mkLaws3 NumFMA (law_sub_neg NumF NumF_laws3) (law_neg_neg NumF NumF_laws3)). Qed.
