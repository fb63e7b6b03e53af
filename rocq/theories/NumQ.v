(** NumQ.v - exact arithmetic: canonical rationals extended with NaN and the two
    infinities, with the IEEE conventions for the special values (signed zeros are
    not distinguished; x/0 is computed as x/(+0)). *)
From Coq Require Import QArith Qcanon Qround Lqa.
From Verif Require Import Base Num.
Open Scope Z_scope.

Inductive xq : Type := XNan | XNInf | XPInf | XFin (q : Qc).

Definition qc_ltb (a b : Qc) : bool :=
  match Qccompare a b with Lt => true | _ => false end.
Definition qc_leb (a b : Qc) : bool :=
  match Qccompare a b with Gt => false | _ => true end.
Definition qc_eqb (a b : Qc) : bool :=
  match Qccompare a b with Eq => true | _ => false end.

Definition qc_ofZ (z : Z) : Qc := Q2Qc (inject_Z z).

(** truncation toward zero *)
Definition qc_trunc (q : Qc) : Z := Z.quot (Qnum (this q)) (Zpos (Qden (this q))).

Definition xq_opp (a : xq) : xq :=
  match a with XNan => XNan | XNInf => XPInf | XPInf => XNInf | XFin q => XFin (- q)%Qc end.

Definition xq_add (a b : xq) : xq :=
  match a, b with
  | XNan, _ | _, XNan => XNan
  | XPInf, XNInf | XNInf, XPInf => XNan
  | XPInf, _ | _, XPInf => XPInf
  | XNInf, _ | _, XNInf => XNInf
  | XFin p, XFin q => XFin (p + q)%Qc
  end.

(** sign of a rational times an infinity *)
Definition xq_sgn_inf (q : Qc) (pos : bool) : xq :=
  match Qccompare q (Q2Qc 0) with
  | Eq => XNan
  | Gt => if pos then XPInf else XNInf
  | Lt => if pos then XNInf else XPInf
  end.

Definition xq_mul (a b : xq) : xq :=
  match a, b with
  | XNan, _ | _, XNan => XNan
  | XPInf, XPInf | XNInf, XNInf => XPInf
  | XPInf, XNInf | XNInf, XPInf => XNInf
  | XPInf, XFin q | XFin q, XPInf => xq_sgn_inf q true
  | XNInf, XFin q | XFin q, XNInf => xq_sgn_inf q false
  | XFin p, XFin q => XFin (p * q)%Qc
  end.

Definition xq_div (a b : xq) : xq :=
  match a, b with
  | XNan, _ | _, XNan => XNan
  | XPInf, XFin q => if qc_ltb q (Q2Qc 0) then XNInf else XPInf
  | XNInf, XFin q => if qc_ltb q (Q2Qc 0) then XPInf else XNInf
  | XFin _, (XPInf | XNInf) => XFin (Q2Qc 0)
  | (XPInf | XNInf), (XPInf | XNInf) => XNan
  | XFin p, XFin q =>
      if qc_eqb q (Q2Qc 0) then xq_sgn_inf p true else XFin (p / q)%Qc
  end.

Definition xq_abs (a : xq) : xq :=
  match a with
  | XNan => XNan
  | XNInf | XPInf => XPInf
  | XFin q => if qc_ltb q (Q2Qc 0) then XFin (- q)%Qc else XFin q
  end.

Definition xq_ltb (a b : xq) : bool :=
  match a, b with
  | XNan, _ | _, XNan => false
  | XPInf, _ => false
  | _, XPInf => true
  | _, XNInf => false
  | XNInf, _ => true
  | XFin p, XFin q => qc_ltb p q
  end.

Definition xq_eqb (a b : xq) : bool :=
  match a, b with
  | XPInf, XPInf | XNInf, XNInf => true
  | XFin p, XFin q => qc_eqb p q
  | _, _ => false
  end.

Definition xq_leb (a b : xq) : bool := xq_ltb a b || xq_eqb a b.

Definition NumQ : Num := mkNum xq XNan XPInf
  (fun z => XFin (qc_ofZ z))
  xq_add (fun a b => xq_add a (xq_opp b)) xq_mul xq_div xq_abs
  (fun a w x => xq_add a (xq_mul w x))
  xq_ltb xq_leb xq_eqb
  (fun a => match a with XNan => true | _ => false end)
  (fun a => match a with XFin _ => true | _ => false end)
  (fun a => match a with XFin q => Some (qc_trunc q) | _ => None end).

(** ** Reflection of the comparisons *)

Lemma qc_ltb_lt a b : qc_ltb a b = true <-> (a < b)%Qc.
Proof. unfold qc_ltb. rewrite Qclt_alt. destruct (a ?= b)%Qc; split; congruence. Qed.

Lemma qc_leb_le a b : qc_leb a b = true <-> (a <= b)%Qc.
Proof. unfold qc_leb. rewrite Qcle_alt. destruct (a ?= b)%Qc; split; congruence. Qed.

Lemma qc_eqb_eq a b : qc_eqb a b = true <-> a = b.
Proof.
  unfold qc_eqb. split.
  - destruct (a ?= b)%Qc eqn:E; try congruence. intros _. apply Qceq_alt; exact E.
  - intros ->. assert (H : (b ?= b)%Qc = Eq) by (apply Qceq_alt; reflexivity).
    rewrite H. reflexivity.
Qed.

Lemma qc_ltb_false a b : qc_ltb a b = false <-> (b <= a)%Qc.
Proof.
  rewrite <- Bool.not_true_iff_false, qc_ltb_lt. split.
  - intros H. apply Qcnot_lt_le; exact H.
  - intros H1 H2. apply (Qclt_not_le _ _ H2 H1).
Qed.

(** Tactic: reduce (in)equalities over Qc to Q and call lra/nra. *)
Lemma Qc_eq_this (a b : Qc) : a = b <-> (this a == this b)%Q.
Proof. split; [intros ->; reflexivity | apply Qc_is_canon]. Qed.

Lemma this_add a b : (this (a + b)%Qc == this a + this b)%Q.
Proof. unfold Qcplus, Q2Qc, this. apply Qred_correct. Qed.
Lemma this_mul a b : (this (a * b)%Qc == this a * this b)%Q.
Proof. unfold Qcmult, Q2Qc, this. apply Qred_correct. Qed.
Lemma this_opp a : (this (- a)%Qc == - this a)%Q.
Proof. unfold Qcopp, Q2Qc, this. apply Qred_correct. Qed.
Lemma this_sub a b : (this (a - b)%Qc == this a - this b)%Q.
Proof. unfold Qcminus. rewrite this_add, this_opp. reflexivity. Qed.
Lemma this_ofQ q : (this (Q2Qc q) == q)%Q.
Proof. unfold Q2Qc, this. apply Qred_correct. Qed.
Lemma this_inv a : (this (/ a)%Qc == / this a)%Q.
Proof. unfold Qcinv, Q2Qc, this. apply Qred_correct. Qed.

Ltac qc2q :=
  unfold Qclt, Qcle, qc_ofZ in *;
  repeat rewrite Qc_eq_this in *;
  repeat rewrite ?this_add, ?this_mul, ?this_sub, ?this_opp, ?this_ofQ in *.
