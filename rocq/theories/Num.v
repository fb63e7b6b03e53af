(** Num.v - the floating-point operations used by the code, as a record.

    Every function of the model is written over an arbitrary [Num].  Instances:
    NumQ.v (exact rationals with NaN and infinities), NumF.v (IEEE binary64 with
    separate multiplication and addition, and with fused multiply-add). *)
From Verif Require Import Base.

Record Num := mkNum {
  V :> Type;
  nan : V;                    (* numpy.nan, NAN *)
  pinf : V;                   (* INFINITY *)
  ofZ : Z -> V;               (* conversion of an integer to double *)
  add : V -> V -> V;
  sub : V -> V -> V;
  mul : V -> V -> V;
  div : V -> V -> V;
  vabs : V -> V;
  macc : V -> V -> V -> V;    (* macc a w x  is the value of a after  a += w*x *)
  ltb : V -> V -> bool;       (* a < b, false if either is NaN *)
  leb : V -> V -> bool;
  eqb : V -> V -> bool;
  isnan : V -> bool;
  isfin : V -> bool;          (* numpy.isfinite *)
  trunc : V -> option Z       (* (int)x ; None for NaN and infinities *)
}.

Arguments nan {n}.
Arguments pinf {n}.
Arguments ofZ {n} z.
Arguments add {n}.
Arguments sub {n}.
Arguments mul {n}.
Arguments div {n}.
Arguments vabs {n}.
Arguments macc {n}.
Arguments ltb {n}.
Arguments leb {n}.
Arguments eqb {n}.
Arguments isnan {n}.
Arguments isfin {n}.
Arguments trunc {n}.

(** Conversion double -> C int: undefined when not representable. *)
Definition c_int {N : Num} (v : N) : out Z :=
  match trunc v with Some z => i32 z | None => UB end.

(** numpy .astype(int64) on x86-64: NaN, infinities and out-of-range values give
    the minimum int64. *)
Definition np_int64 {N : Num} (v : N) : Z :=
  match trunc v with
  | Some z => if (INT64_MIN <=? z) && (z <=? 9223372036854775807) then z else INT64_MIN
  | None => INT64_MIN
  end.

(** numpy cast to int32 (values outside the range are not meaningful; modelled
    as the minimum int32). *)
Definition np_int32 {N : Num} (v : N) : Z :=
  match trunc v with
  | Some z => if in_i32 z then z else INT_MIN
  | None => INT_MIN
  end.

(** numpy.max of a 1-D array: NaN if any element is NaN, ValueError if empty. *)
Fixpoint np_max_from {N : Num} (acc : N) (l : list N) : N :=
  match l with
  | nil => acc
  | x :: xs =>
      np_max_from (if isnan acc then acc else if isnan x then x
                   else if ltb acc x then x else acc) xs
  end.
Definition np_max {N : Num} (l : list N) : out N :=
  match l with
  | nil => Raise (ValueError "zero-size array to reduction operation maximum")
  | x :: xs => Ok (np_max_from x xs)
  end.

(** numpy.minimum / numpy.maximum of two scalars. *)
Definition np_minimum {N : Num} (a b : N) : N :=
  if isnan a then a else if isnan b then b else if ltb b a then b else a.
Definition np_maximum {N : Num} (a b : N) : N :=
  if isnan a then a else if isnan b then b else if ltb a b then b else a.

(** numpy.sum of a 1-D array of doubles: numpy/core/src/umath/loops_utils.h.src
    (DOUBLE_pairwise_sum), called by add.reduce with the initial value 0.  Fewer than 8
    elements are added one after the other; up to 128 elements in 8 lanes, which are
    combined in a tree before the remaining elements are added; longer arrays are
    split in two halves (the first a multiple of 8 long).  Simplified: numpy starts
    the short sum from 0 or, in recent versions, from -0; the initial value makes
    the result the same. *)
Fixpoint sum_lanes {N : Num} (fuel : nat) (r l : list N) : list N * list N :=
  match fuel with
  | O => (r, l)
  | S f =>
      if Nat.ltb (List.length l) 8 then (r, l)
      else sum_lanes f (List.map (fun p => add (fst p) (snd p)) (combine r (firstn 8 l))) (skipn 8 l)
  end.
Definition lane_tree {N : Num} (r : list N) : N :=
  match r with
  | [a; b; c; d; e; f; g; h] => add (add (add a b) (add c d)) (add (add e f) (add g h))
  | _ => nan
  end.
Fixpoint pairwise_sum {N : Num} (fuel : nat) (l : list N) : N :=
  if Nat.ltb (List.length l) 8 then fold_left add l (ofZ 0)
  else if Nat.leb (List.length l) 128 then
    let '(r, rest) := sum_lanes (List.length l) (firstn 8 l) (skipn 8 l) in
    fold_left add rest (lane_tree r)
  else
    match fuel with
    | O => nan
    | S f =>
        let n2 := (List.length l / 2 - (List.length l / 2) mod 8)%nat in
        add (pairwise_sum f (firstn n2 l)) (pairwise_sum f (skipn n2 l))
    end.
Definition np_sum {N : Num} (l : list N) : N := add (ofZ 0) (pairwise_sum (List.length l) l).

(** ** Laws

    [good x]: x is not NaN and below +infinity (what [list[i] < INFINITY]
    accepts in argmin). *)
Definition good {N : Num} (x : N) : Prop := ltb x pinf = true.

(** The laws used for the ordering/optimality results.  They are proved, not
    assumed, for each instance. *)
Record NumLaws (N : Num) : Prop := mkLaws {
  law_good_not_nan : forall x : N, good x -> isnan x = false;
  law_nan : isnan (@nan N) = true;
  law_nan_macc : forall a w x : N, isnan a = true -> isnan (macc a w x) = true;
  law_lt_irrefl : forall x : N, ltb x x = false;
  law_lt_trans : forall x y z : N, ltb x y = true -> ltb y z = true -> ltb x z = true;
  law_lt_le : forall x y : N, ltb x y = true -> leb x y = true;
  law_le_refl : forall x : N, isnan x = false -> leb x x = true;
  law_le_trans : forall x y z : N, leb x y = true -> leb y z = true -> leb x z = true;
  law_le_lt_trans : forall x y z : N, leb x y = true -> ltb y z = true -> ltb x z = true;
  law_lt_le_trans : forall x y z : N, ltb x y = true -> leb y z = true -> ltb x z = true;
  law_not_lt_le : forall x y : N,
      isnan x = false -> isnan y = false -> ltb x y = false -> leb y x = true;
  law_le_antisym : forall x y : N, leb x y = true -> leb y x = true -> eqb x y = true;
  law_eq_le : forall x y : N, eqb x y = true -> leb x y = true;
  law_eq_sym : forall x y : N, eqb x y = eqb y x;
  law_le_nan : forall x y : N, leb x y = true -> isnan x = false /\ isnan y = false;
  (* accumulation *)
  law_macc_good : forall a w x : N, good (macc a w x) -> good a;
  law_macc_mono : forall a b w x : N,
      leb a b = true -> good (macc b w x) -> leb (macc a w x) (macc b w x) = true;
  law_macc_mono_x : forall a w x y : N,
      leb (ofZ 0) w = true -> leb (ofZ 0) x = true -> leb x y = true ->
      good (macc a w y) -> leb (macc a w x) (macc a w y) = true;
  law_macc_nonneg : forall a w x : N,
      leb (ofZ 0) a = true -> leb (ofZ 0) w = true -> leb (ofZ 0) x = true ->
      isnan (macc a w x) = false -> leb (ofZ 0) (macc a w x) = true;
  law_macc_zero : forall a w x : N,
      eqb a (ofZ 0) = true -> isfin w = true -> eqb x (ofZ 0) = true ->
      eqb (macc a w x) (ofZ 0) = true;
  law_macc_obstacle : forall a w x : N,
      leb (ofZ 0) w = true -> good (macc a w x) -> good x;
  (* integers: exact on the range of C ints and well beyond *)
  law_trunc_ofZ : forall z, Z.abs z <= 2 ^ 53 -> trunc (@ofZ N z) = Some z;
  law_eq_ofZ : forall a b, Z.abs a <= 2 ^ 53 -> Z.abs b <= 2 ^ 53 ->
      eqb (@ofZ N a) (ofZ b) = (a =? b);
  law_le_ofZ : forall a b, Z.abs a <= 2 ^ 53 -> Z.abs b <= 2 ^ 53 ->
      leb (@ofZ N a) (ofZ b) = (a <=? b);
  law_lt_ofZ : forall a b, Z.abs a <= 2 ^ 53 -> Z.abs b <= 2 ^ 53 ->
      ltb (@ofZ N a) (ofZ b) = (a <? b);
  law_add_ofZ : forall a b, Z.abs a <= 2 ^ 53 -> Z.abs b <= 2 ^ 53 ->
      Z.abs (a + b) <= 2 ^ 53 -> add (@ofZ N a) (ofZ b) = ofZ (a + b);
  law_fin_ofZ : forall a, Z.abs a <= 2 ^ 53 -> isfin (@ofZ N a) = true;
  law_fin_not_nan : forall x : N, isfin x = true -> isnan x = false;
  law_fin_good : forall x : N, isfin x = true -> good x;
  law_pinf_nan : isnan (@pinf N) = false;
  (* division by a positive integer *)
  law_div_nan : forall (x : N) k, 1 <= k <= 2 ^ 53 -> isnan (div x (ofZ k)) = isnan x;
  law_div_mono : forall (x y : N) k, 1 <= k <= 2 ^ 53 -> leb x y = true ->
      leb (div x (ofZ k)) (div y (ofZ k)) = true;
  law_div_good : forall (x : N) k, 1 <= k <= 2 ^ 53 -> good x -> good (div x (ofZ k));
  law_pinf_max : forall x : N, isnan x = false -> leb x pinf = true;
  law_sub_ofZ : forall a b, Z.abs a <= 2 ^ 53 -> Z.abs b <= 2 ^ 53 ->
      Z.abs (a - b) <= 2 ^ 53 -> sub (@ofZ N a) (ofZ b) = ofZ (a - b);
  (* fractions *)
  law_frac_fin : forall a k, Z.abs a <= 2 ^ 53 -> 1 <= k <= 2 ^ 53 ->
      isfin (div (@ofZ N a) (ofZ k)) = true;
  law_frac_nonneg : forall a k, 0 <= a <= 2 ^ 53 -> 1 <= k <= 2 ^ 53 ->
      leb (ofZ 0) (div (@ofZ N a) (ofZ k)) = true;
  law_frac_trunc : forall a k, 0 <= a < 2 ^ 53 -> 1 <= k <= 2 ^ 53 ->
      trunc (div (@ofZ N a) (ofZ k)) = Some (a / k);
  law_frac_neg1 : forall a k, Z.abs a <= 2 ^ 53 -> 1 <= k <= 2 ^ 10 -> a <> - k ->
      eqb (div (@ofZ N a) (ofZ k)) (ofZ (-1)) = false;
  (* NaN *)
  law_add_nan_l : forall a b : N, isnan a = true -> isnan (add a b) = true;
  law_add_nan_r : forall a b : N, isnan b = true -> isnan (add a b) = true;
  law_trunc_nan : forall x : N, isnan x = true -> trunc x = None;
  law_zero_div : isnan (div (@ofZ N 0) (ofZ 0)) = true;
  law_div_exact : forall b k, Z.abs (b * k) <= 2 ^ 53 -> 1 <= k <= 2 ^ 53 ->
      div (@ofZ N (b * k)) (ofZ k) = ofZ b
}.
