(** NumF.v - the binary64 instances of [Num].

    IEEE-754 double precision, round to nearest even, from Flocq's
    BinarySingleNaN (all NaNs identified; the code never looks at payloads).
    [NumF]   : acc += w*x is a rounded product followed by a rounded sum;
    [NumFMA] : the same contracted into one fused multiply-add, which a C compiler
               is allowed to do for dtw/dtw_core.c:180. *)
From Verif Require Import Base Num.
From Flocq Require Import Core BinarySingleNaN.
Open Scope Z_scope.

Definition f64 : Type := binary_float 53 1024.
Global Instance prec53 : Prec_gt_0 53 := eq_refl.
Global Instance emax1024 : Prec_lt_emax 53 1024 := eq_refl.

Definition f_ofZ (z : Z) : f64 := binary_normalize 53 1024 prec53 emax1024 mode_NE z 0 false.
Definition f_add (x y : f64) : f64 := Bplus mode_NE x y.
Definition f_sub (x y : f64) : f64 := Bminus mode_NE x y.
Definition f_mul (x y : f64) : f64 := Bmult mode_NE x y.
Definition f_div (x y : f64) : f64 := Bdiv mode_NE x y.
Definition f_trunc (x : f64) : option Z := if is_finite x then Some (Btrunc x) else None.

Definition NumF : Num := mkNum f64
  B754_nan (B754_infinity false) f_ofZ f_add f_sub f_mul f_div Babs
  (fun a w x => f_add a (f_mul w x))
  Bltb Bleb Beqb is_nan is_finite f_trunc.

Definition NumFMA : Num := mkNum f64
  B754_nan (B754_infinity false) f_ofZ f_add f_sub f_mul f_div Babs
  (fun a w x => Bfma mode_NE w x a)
  Bltb Bleb Beqb is_nan is_finite f_trunc.
