(** Format.v - model of the number formatting used by dtw/__main__.py:21-23 ("{:.4g}"), dtw/stepPattern.py:318 ("{:2.2g}") and
    dtw/stepPattern.py:350 ("{:.2g}"): Python's format of a double with presentation type g (the documented meaning; CPython
    rounds the exact binary value, ties to even), and of the text returned by dtw/__main__.py:10-27 main2.
    The text of the two-row array is numpy's and an argument. *)
From Coq Require Import Ascii String ZArith List.
From Flocq Require Import Core BinarySingleNaN.
From Verif Require Import Base Num NumF Print.
Import ListNotations.
Open Scope string_scope.
Open Scope list_scope.
Open Scope Z_scope.

(** num/den >= 10^e, for num, den > 0 *)
Definition at_least_pow10 (num den e : Z) : bool :=
  if 0 <=? e then den * 10 ^ e <=? num else den <=? num * 10 ^ (- e).
(** The exponent of the leading digit: the first e, counting down, with 10^e <= num/den. *)
Fixpoint leading_exp (fuel : nat) (e num den : Z) : Z :=
  match fuel with
  | O => e
  | S f => if at_least_pow10 num den e then e else leading_exp f (e - 1) num den
  end.
(** Nearest integer to a/b, ties to even. *)
Definition nearest_even (a b : Z) : Z :=
  let q := a / b in
  let r := a mod b in
  if 2 * r <? b then q else if b <? 2 * r then q + 1 else if Z.even q then q else q + 1.
(** The [p] significant digits of num/den, as an integer, and the exponent of the leading one. *)
Definition significant (p : nat) (num den : Z) : Z * Z :=
  let e := leading_exp 700 309 num den in
  let k := Z.of_nat p - 1 - e in
  let m := if 0 <=? k then nearest_even (num * 10 ^ k) den else nearest_even num (den * 10 ^ (- k)) in
  if m =? 10 ^ Z.of_nat p then (10 ^ (Z.of_nat p - 1), e + 1) else (m, e).

(** The last [p] decimal digits of [m] *)
Fixpoint digits (p : nat) (m : Z) : list Z :=
  match p with
  | O => []
  | S p' => digits p' (m / 10) ++ [m mod 10]
  end.
Definition digit_char (d : Z) : ascii := ascii_of_nat (48 + Z.to_nat d).
Fixpoint digit_text (ds : list Z) : string :=
  match ds with
  | [] => ""
  | d :: ds' => String (digit_char d) (digit_text ds')
  end.
(** Trailing zeros removed. *)
Fixpoint strip_zeros (ds : list Z) : list Z :=
  match ds with
  | [] => []
  | d :: ds' => match strip_zeros ds' with [] => if d =? 0 then [] else [d] | l => d :: l end
  end.

(** Positional notation of digits whose first one stands for 10^e *)
Definition fixed_text (ds : list Z) (e : Z) : string :=
  if e <? 0 then append "0." (digit_text (repeat 0 (Z.to_nat (- e - 1)) ++ ds))
  else
    let k := Z.to_nat (e + 1) in
    if Nat.leb (List.length ds) k then digit_text (ds ++ repeat 0 (k - List.length ds))
    else append (digit_text (firstn k ds)) (append "." (digit_text (skipn k ds))).
(** Scientific notation; the exponent has at least two digits. *)
Definition exp_text (e : Z) : string :=
  append (if e <? 0 then "-" else "+") (digit_text (if Z.abs e <? 100 then digits 2 (Z.abs e) else digits 3 (Z.abs e))).
Definition scientific_text (ds : list Z) (e : Z) : string :=
  append (digit_text (firstn 1 ds))
    (append (if Nat.leb (List.length ds) 1 then "" else append "." (digit_text (skipn 1 ds)))
      (append "e" (exp_text e))).
(** The text of a number with digits [m] and leading exponent [e] *)
Definition g_text (p : nat) (me : Z * Z) : string :=
  let '(m, e) := me in
  let ds := strip_zeros (digits p m) in
  if (-4 <=? e) && (e <? Z.of_nat p) then fixed_text ds e else scientific_text ds e.

(** format(x, ".<p>g"), p >= 1 *)
Definition format_g (p : nat) (x : f64) : string :=
  match x with
  | B754_nan => "nan"
  | B754_infinity s => if s then "-inf" else "inf"
  | B754_zero s => if s then "-0" else "0"
  | B754_finite s m e _ =>
      append (if s then "-" else "")
        (g_text p (if 0 <=? e then significant p (Zpos m * 2 ^ e) 1 else significant p (Zpos m) (2 ^ (- e))))
  end.
(** format(x, "2.<p>g"): right aligned to width two *)
Definition format_2g (p : nat) (x : f64) : string :=
  let s := format_g p x in
  match String.length s with
  | O => append "  " s
  | S O => append " " s
  | _ => s
  end.

(** dtw/__main__.py:17-27: the text made from the fields of the alignment; [show_path] is str of the array
    numpy.vstack([index1, index2]).  (A result always has normalizedDistance, so the test with hasattr is always true.) *)
Definition main_text (show_path : list Z -> list Z -> string) (v : f64 * f64 * list Z * list Z) : string :=
  let '(normalizedDistance, distance, index1, index2) := v in
  append (append "Normalized distance: " (append (format_g 4 normalizedDistance) (append nl nl)))
    (append (append "Distance: " (append (format_g 4 distance) (append nl nl)))
            (append "Warping path: " (append (show_path index1 index2) (append nl nl)))).
