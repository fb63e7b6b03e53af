(** WarpSpec.v - what warp() should return, in terms of the alignment (vocabulary of
    the theorem statements on warp() and warpArea()). *)
From Coq Require Import QArith Qcanon.
From Verif Require Import Base Num NumQ.
Open Scope list_scope.
Open Scope Z_scope.

(** Sum of integers. *)
Definition zsum (l : list Z) : Z := fold_right Z.add 0 l.

(** The source indices matched to target index [k]. *)
Definition matched (src tgt : list Z) (k : Z) : list Z :=
  List.map fst (List.filter (fun p => snd p =? k) (combine src tgt)).

(** Their mean, rounded down. *)
Definition mean (l : list Z) : Z := zsum l / Z.of_nat (List.length l).

(** Every target index from 0 to the last is matched. *)
Definition no_gaps (tgt : list Z) : Prop :=
  forall k t, In t tgt -> 0 <= k <= t -> In k tgt.

(** The largest target index. *)
Definition is_max (m : Z) (l : list Z) : Prop := In m l /\ forall x, In x l -> x <= m.

(** The series [index_reference] selects, and the one it is warped to. *)
Definition source_of (index_reference : bool) (i1 i2 : list Z) : list Z :=
  if index_reference then i2 else i1.
(** The alignment component of the target series of warp(index_reference). *)
Definition target_of (index_reference : bool) (i1 i2 : list Z) : list Z :=
  if index_reference then i1 else i2.

(** The warping curve at query index [i], as a value of type [N]: the last reference
    index matched to [i] or, if [i] is not matched, the point on the segment between
    the two matches around it. *)
Definition matched_last (i1 i2 : list Z) (i j : Z) : Prop :=
  exists t, nth_error i1 t = Some i /\ nth_error i2 t = Some j /\
    forall t', (t < t')%nat -> nth_error i1 t' <> Some i.
(** Query index [i] lies strictly between two consecutive matches (a, ja) and (b, jb). *)
Definition between (i1 i2 : list Z) (i a ja b jb : Z) : Prop :=
  exists t, nth_error i1 t = Some a /\ nth_error i2 t = Some ja /\
    nth_error i1 (S t) = Some b /\ nth_error i2 (S t) = Some jb /\ a < i < b.
(** The value of the curve in the arithmetic [N]. *)
Definition curve_value {N : Num} (i1 i2 : list Z) (i : Z) (v : N) : Prop :=
  (exists j, matched_last i1 i2 i j /\ v = ofZ j) \/
  (exists a ja b jb, between i1 i2 i a ja b jb /\
     v = add (mul (div (ofZ (jb - ja)) (ofZ (b - a))) (ofZ (i - a))) (ofZ ja)).
(** The straight diagonal from (0, 0) to (N - 1, M - 1), at query index [i]. *)
Definition diagonal_value {N : Num} (n m i : Z) : N :=
  if i =? n - 1 then (if i =? 0 then ofZ 0 else ofZ (m - 1))
  else if m =? 1 then mul (div (ofZ i) (ofZ (n - 1))) (ofZ 0)
  else mul (ofZ i) (div (ofZ (m - 1)) (ofZ (n - 1))).

(** warpArea() is the sum, over the query indices, of the distances between the
    curve and the diagonal. *)
Definition area_terms {N : Num} (i1 i2 : list Z) (n m : nat) (ts : list N) : Prop :=
  List.length ts = n /\
  forall i, (i < n)%nat -> exists v : N, curve_value i1 i2 (Z.of_nat i) v /\ isnan v = false /\
    nth_error ts i = Some (vabs (sub v (diagonal_value (Z.of_nat n) (Z.of_nat m) (Z.of_nat i)))).

Open Scope Qc_scope.

(** The warping curve and the diagonal as rational numbers. *)
Definition curve_point (i1 i2 : list Z) (i : Z) (q : Qc) : Prop :=
  (exists j, matched_last i1 i2 i j /\ q = qc_ofZ j) \/
  (exists a ja b jb, between i1 i2 i a ja b jb /\
     q = qc_ofZ ja + (qc_ofZ i - qc_ofZ a) * ((qc_ofZ jb - qc_ofZ ja) / (qc_ofZ b - qc_ofZ a))).

(** The diagonal as a rational number. *)
Definition diagonal_point (n m : nat) (i : nat) : Qc :=
  qc_ofZ (Z.of_nat i) * (qc_ofZ (Z.of_nat m - 1) / qc_ofZ (Z.of_nat n - 1)).

(** Sum of rationals. *)
Definition qc_sum (l : list Qc) : Qc := fold_right Qcplus 0 l.
