(** Bound.v - costs that cannot overflow, for each arithmetic (proofs). *)
From Coq Require Import ZifyBool ZifyNat QArith Qcanon.
From Verif Require Import Base Num NumQ NumQLaws Tables.
Open Scope Z_scope.

(** [bnd t x]: x is a finite number at most t times as large as a moderate one. *)
Record BoundLaws (N : Num) (bnd : Z -> N -> Prop) : Prop := mkBL {
  bl_mono : forall t t' x, t <= t' -> bnd t x -> bnd t' x;
  bl_good : forall t x, t <= 2 ^ 50 -> bnd t x -> good x;
  bl_zero : bnd 1 (ofZ 0);
  bl_macc : forall t a q x, 0 <= t -> t + 3 <= 2 ^ 50 -> bnd t a -> bnd 1 x ->
      wweight_ok q = true -> Z.abs (fst q) <= 3 * snd q -> bnd (t + 3) (macc a (weight q) x)
}.

Definition bndQ (t : Z) (x : NumQ) : Prop := isfin x = true.

Lemma NumQ_bound : BoundLaws NumQ bndQ.
Proof.
  constructor; unfold bndQ.
  - auto.
  - intros t [] _ H; try discriminate. reflexivity.
  - reflexivity.
  - intros t a q x _ _ Ha Hx Hw Hq. destruct a, x; try discriminate.
    pose proof (weight_fin NumQ_laws q Hw) as Fw.
    destruct (@weight NumQ q); try discriminate. reflexivity.
Qed.
