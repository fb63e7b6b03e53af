(** ScaleSpec.v - a change of unit by a power of two (specification). *)
From Coq Require Import Reals.
From Verif Require Import Base Num NumF NumFLaws StepPattern Window Core Backtrack Dtw Spec Api Tables Vocab Terms IntSpec Exact FloatSpec.
From Flocq Require Import BinarySingleNaN.
Open Scope R_scope.

(** Both NaN, or both finite with the second 2^e times the first. *)
Definition times_pow2 (e : Z) (x x' : f64) : Prop :=
  (is_nan x = true /\ is_nan x' = true) \/
  (is_finite x = true /\ is_finite x' = true /\ B2R x' = powerRZ 2 e * B2R x).
(** Zero, or of magnitude between 2^-800 and 2^800. *)
Definition moderate (x : f64) : Prop :=
  is_finite x = true -> B2R x = 0 \/ powerRZ 2 (-800) <= Rabs (B2R x) <= powerRZ 2 800.
(** The local costs [g'] are the costs [g] in another unit. *)
Definition unit_changed (e : Z) (g g' : mat f64) : Prop :=
  nr g' = nr g /\ nc g' = nc g /\
  Forall2 (fun x x' => times_pow2 e x x' /\ moderate x /\ moderate x') (dat g) (dat g').

(** Results that differ by the unit only. *)
Definition unit_changed_result {fused : bool} (e : Z) (d d' : DTW (Exact.double fused)) : Prop :=
  r_N d = r_N d' /\ r_M d = r_M d' /\ r_jmin d = r_jmin d' /\ r_map d = r_map d' /\
  r_directionMatrix d = r_directionMatrix d' /\
  is_finite (r_distance d : f64) = true /\
  times_pow2 e (r_distance d) (r_distance d') /\ times_pow2 e (r_normalizedDistance d) (r_normalizedDistance d') /\
  match r_costMatrix d, r_costMatrix d' with
  | Some m, Some m' => nr m = nr m' /\ nc m = nc m' /\ Forall2 (times_pow2 e) (dat m) (dat m')
  | None, None => True
  | _, _ => False
  end.
