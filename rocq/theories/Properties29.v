(** Properties29.v - C85: printed numbers.

    Only theorem statements, each closed by a lemma proved elsewhere, and concrete cases
    that meet their hypotheses.  See Properties1.v for the arithmetic [N] and [NumLaws]. *)
From Coq Require Import Reals.
From Flocq Require Import Core BinarySingleNaN.
From Verif Require Import Base Num StepPattern Window Core Backtrack Dtw Spec Api Tables Vocab Terms.
From Verif Require Import NumQ NumQLaws NumF NumFLaws.
From Verif Require Import SeriesSpec PatSpec Print Plot Format FormatSpec FormatThm Format2 FormSpec FormThm Examples Examples3 Examples5 Examples7 Examples28 Examples30.
Open Scope string_scope.
Open Scope list_scope.
Open Scope nat_scope.

Open Scope Z_scope.
(** C85: the text is that of the nearest number with p significant digits, ties to even. *)
Theorem C85_value : forall p (x : f64),
  (1 <= p)%nat -> is_finite x = true -> reads (format_g p x) (to_digits p (B2R x)).
Proof. exact printed_value. Qed.
Print Assumptions C85_value.

(** C85: NaN and infinities. *)
Theorem C85_special : forall p (x : f64),
  is_finite x = false ->
  read_number (format_g p x) = None /\
  ((is_nan x = true /\ format_g p x = "nan") \/ (x = B754_infinity false /\ format_g p x = "inf") \/ (x = B754_infinity true /\ format_g p x = "-inf")).
Proof. exact printed_special. Qed.
Print Assumptions C85_special.

(** C85: relative error of at most half a unit of the last digit. *)
Theorem C85_close : forall p (x : f64),
  (1 <= p)%nat -> is_finite x = true ->
  exists v, reads (format_g p x) v /\ (Rabs (v - B2R x) <= / 2 * bpow radix10 (1 - Z.of_nat p) * Rabs (B2R x))%R.
Proof. exact printed_close. Qed.
Print Assumptions C85_close.

(** C85: printing never reverses an order. *)
Theorem C85_order : forall p (x y : f64) v v',
  (1 <= p)%nat -> is_finite x = true -> is_finite y = true -> (B2R x <= B2R y)%R ->
  reads (format_g p x) v -> reads (format_g p y) v' -> (v <= v')%R.
Proof. exact printed_order. Qed.
Print Assumptions C85_order.

(** C85: numbers with at most p significant digits are printed exactly. *)
Theorem C85_exact : forall p (x : f64) k j,
  (1 <= p)%nat -> is_finite x = true -> Z.abs k < 10 ^ Z.of_nat p ->
  B2R x = (IZR k * bpow radix10 j)%R -> reads (format_g p x) (B2R x).
Proof. exact printed_exact. Qed.
Print Assumptions C85_exact.

(** C85: only zero is printed as zero. *)
Theorem C85_zero : forall p (x : f64),
  (1 <= p)%nat -> is_finite x = true -> reads (format_g p x) 0 -> B2R x = 0%R.
Proof. exact printed_zero. Qed.
Print Assumptions C85_zero.

(** C85: the output of the command line tool. *)
Theorem C85_command_line : forall euclidean (q r : ndarray NumF) sp v show,
  main2 euclidean q r sp = Ok v ->
  exists (d : DTW NumF) mp sn sd, dtw euclidean q (Some r) (mkOpts (SPName sp) WTNone [] false false false false) = Ok d /\ r_map d = Some mp /\
    main_text show v = ("Normalized distance: " ++ sn ++ nl ++ nl ++ "Distance: " ++ sd ++ nl ++ nl ++
                        "Warping path: " ++ show (index1 mp) (index2 mp) ++ nl ++ nl)%string /\
    (is_finite (r_distance d : f64) = true -> exists u, reads sd u /\ (Rabs (u - B2R (r_distance d : f64)) <= / 2000 * Rabs (B2R (r_distance d : f64)))%R) /\
    (is_finite (r_normalizedDistance d : f64) = true ->
       exists u, reads sn u /\ (Rabs (u - B2R (r_normalizedDistance d : f64)) <= / 2000 * Rabs (B2R (r_normalizedDistance d : f64)))%R) /\
    (is_nan (r_normalizedDistance d : f64) = true -> sn = "nan").
Proof. exact cli_text. Qed.
Print Assumptions C85_command_line.

(** C85: step patterns that print alike. *)
Theorem C85_patterns : forall (s s' : steppat NumF) rules rules',
  pattern_rules s rules -> pattern_rules s' rules' ->
  str_pattern (N := NumF) (format_2g 2) s = str_pattern (N := NumF) (format_2g 2) s' ->
  Forall2 (fun r r' : rule NumF => r_di r = r_di r' /\ r_dj r = r_dj r' /\
     Forall2 (fun a a' : nat * nat * NumF => fst a = fst a' /\
       (is_finite (snd a : f64) = true -> is_finite (snd a' : f64) = true -> to_digits 2 (B2R (snd a : f64)) = to_digits 2 (B2R (snd a' : f64)))) (r_add r) (r_add r')) rules rules' /\
  hint s = hint s'.
Proof. exact pattern_text_digits. Qed.
Print Assumptions C85_patterns.

(** C85: how the digits are laid out: positional notation between 0.0001 and 10^p, otherwise an exponent of at least two digits; no superfluous zeros. *)
Theorem C85_layout : forall p (x : f64),
  (1 <= p)%nat -> is_finite x = true -> B2R x <> 0%R ->
  exists ds n e t, significand ds n /\ len ds <= Z.of_nat p /\ layout (Z.of_nat p) ds e t /\
    Rabs (to_digits p (B2R x)) = (IZR n * bpow radix10 (e + 1 - len ds))%R /\
    format_g p x = append (if Rlt_bool (B2R x) 0 then "-" else "") t.
Proof. exact printed_layout. Qed.
Print Assumptions C85_layout.

(** C85: zeros. *)
Theorem C85_zero_text : forall p (x : f64),
  is_finite x = true -> B2R x = 0%R -> format_g p x = if Bsign x then "-0" else "0".
Proof. exact printed_zero_text. Qed.
Print Assumptions C85_zero_text.

(** C85: two numbers have the same text exactly if they round to the same number (and are zeros of the same sign). *)
Theorem C85_same : forall p (x y : f64),
  (1 <= p)%nat -> is_finite x = true -> is_finite y = true ->
  format_g p x = format_g p y <-> to_digits p (B2R x) = to_digits p (B2R y) /\ Bsign x = Bsign y.
Proof. exact printed_same. Qed.
Print Assumptions C85_same.

(** C85: the width in printed step patterns. *)
Theorem C85_width : forall p (x : f64),
  exists sp, format_2g p x = append sp (format_g p x) /\ is_spaces sp /\ len (format_2g p x) = Z.max 2 (len (format_g p x)).
Proof. exact printed_width. Qed.
Print Assumptions C85_width.

Example C85_case_layouts : layout 4 "12" (-3) "0.0012" /\ layout 4 "12" 3 "1200" /\ layout 4 "6667" 0 "6.667" /\ layout 4 "1" 5 "1e+05" /\ layout 4 "12" (-5) "1.2e-05" /\
  significand "12" 12 /\ ~ significand "012" 12 /\ ~ significand "120" 120 /\ exponent (-5) "-05" /\ exponent 123 "+123" /\ ~ exponent 5 "+5" /\ ~ exponent 5 "+005".
Proof. exact layouts30. Qed.

Example C85_case_width : (String.eqb (format_2g 2 (ratio 1 1)) " 1" && String.eqb (format_2g 2 (ratio 3 2)) "1.5" && String.eqb (format_2g 2 (ratio (-1) 1)) "-1" &&
  String.eqb (format_2g 2 (ratio 0 1)) " 0")%bool = true /\
  format_g 4 (ratio 2 3) = format_g 4 (ratio 66670001 100000000) /\ format_g 4 (ratio 2 3) <> format_g 4 (ratio 6668 10000).
Proof. exact width30. Qed.

Example C85_case_numbers : forallb (fun t => let '(a, b, s) := t in prints 4 a b s)
  [(2, 3, "0.6667"); (6, 9, "0.6667"); (-5, 2, "-2.5"); (99995, 10, "1e+04"); (9999, 1, "9999"); (10000, 1, "1e+04"); (12345678, 1, "1.235e+07");
   (24690, 2, "1.234e+04"); (24710, 2, "1.236e+04"); (1, 10000, "0.0001"); (1, 100000, "1e-05"); (1, 8, "0.125"); (0, 1, "0"); (1, 0, "inf"); (-1, 0, "-inf"); (0, 0, "nan")] = true /\
  forallb (fun t => let '(a, b, s) := t in prints 2 a b s) [(1, 3, "0.33"); (1, 8, "0.12"); (3, 8, "0.38"); (3, 2, "1.5")] = true /\
  is_finite (ratio 2 3) = true.
Proof. exact numbers28. Qed.

Example C85_case_reading : read_number (format_g 4 (ratio 2 3)) = Some (6667, -4) /\ read_number (format_g 4 (ratio 12345678 1)) = Some (1235, 4) /\
  read_number (format_g 4 (ratio (-5) 2)) = Some (-25, -1) /\ read_number "nan" = None /\ read_number "." = None /\ read_number "1e" = None.
Proof. exact reading28. Qed.

Example C85_case_command_line : match main2 city qs rs "symmetric2" with
  | Ok v => String.eqb (main_text show28 v)
"Normalized distance: 0.6667

Distance: 6

Warping path: 0 1 2 2 3 3/0 1 1 2 3 4

"
  | _ => false end = true.
Proof. exact cli28. Qed.

Example C85_case_pattern : out_is (str_pattern (N := NumF) (format_2g 2) (@asymmetricP05 NumF))
"Step pattern recursion:
 g[i,j] = min(
     g[i-1,j-3] +0.33 * d[i  ,j-2] +0.33 * d[i  ,j-1] +0.33 * d[i  ,j  ] ,
     g[i-1,j-2] +0.5 * d[i  ,j-1] +0.5 * d[i  ,j  ] ,
     g[i-1,j-1] +     d[i  ,j  ] ,
     g[i-2,j-1] +     d[i-1,j  ] +     d[i  ,j  ] ,
     g[i-3,j-1] +     d[i-2,j  ] +     d[i-1,j  ] +     d[i  ,j  ] ,
 ) 

Normalization hint: N
" = true.
Proof. exact pattern28. Qed.
