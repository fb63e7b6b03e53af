(** Examples28.v - concrete cases for C85 (printed numbers). *)
From Coq Require Import Reals.
From Flocq Require Import Core BinarySingleNaN.
From Verif Require Import Base Num NumF NumFLaws StepPattern Window Core Backtrack Dtw Spec Api Tables Plot Print Examples Examples3 Examples5 Examples7 Format FormatSpec.
Import ListNotations.
Open Scope string_scope.
Open Scope list_scope.
Open Scope Z_scope.

Definition ratio (a b : Z) : f64 := f_div (f_ofZ a) (f_ofZ b).
Definition prints (p : nat) (a b : Z) (s : string) : bool := String.eqb (format_g p (ratio a b)) s.
(** Rounding, ties to even, rounding up to the next power of ten, the two notations, trailing zeros. *)
Lemma numbers28 : forallb (fun t => let '(a, b, s) := t in prints 4 a b s)
  [(2, 3, "0.6667"); (6, 9, "0.6667"); (-5, 2, "-2.5"); (99995, 10, "1e+04"); (9999, 1, "9999"); (10000, 1, "1e+04"); (12345678, 1, "1.235e+07");
   (24690, 2, "1.234e+04"); (24710, 2, "1.236e+04"); (1, 10000, "0.0001"); (1, 100000, "1e-05"); (1, 8, "0.125"); (0, 1, "0"); (1, 0, "inf"); (-1, 0, "-inf"); (0, 0, "nan")] = true /\
  forallb (fun t => let '(a, b, s) := t in prints 2 a b s) [(1, 3, "0.33"); (1, 8, "0.12"); (3, 8, "0.38"); (3, 2, "1.5")] = true /\
  is_finite (ratio 2 3) = true.
Proof. vm_compute. auto. Qed.
(** The text is read back. *)
Lemma reading28 : read_number (format_g 4 (ratio 2 3)) = Some (6667, -4) /\ read_number (format_g 4 (ratio 12345678 1)) = Some (1235, 4) /\
  read_number (format_g 4 (ratio (-5) 2)) = Some (-25, -1) /\ read_number "nan" = None /\ read_number "." = None /\ read_number "1e" = None.
Proof. vm_compute. auto 10. Qed.
(** The output of the command line tool for the series of C49's case. *)
Definition show28 (i1 i2 : list Z) : string := String.concat " " (List.map show_int i1) ++ "/" ++ String.concat " " (List.map show_int i2).
Lemma cli28 : match main2 city qs rs "symmetric2" with
  | Ok v => String.eqb (main_text show28 v)
"Normalized distance: 0.6667

Distance: 6

Warping path: 0 1 2 2 3 3/0 1 1 2 3 4

"
  | _ => false end = true.
Proof. vm_compute. reflexivity. Qed.
(** Weights that are not integers. *)
Lemma pattern28 : out_is (str_pattern (N := NumF) (format_2g 2) (@asymmetricP05 NumF))
"Step pattern recursion:
 g[i,j] = min(
     g[i-1,j-3] +0.33 * d[i  ,j-2] +0.33 * d[i  ,j-1] +0.33 * d[i  ,j  ] ,
     g[i-1,j-2] +0.5 * d[i  ,j-1] +0.5 * d[i  ,j  ] ,
     g[i-1,j-1] +     d[i  ,j  ] ,
     g[i-2,j-1] +     d[i-1,j  ] +     d[i  ,j  ] ,
     g[i-3,j-1] +     d[i-2,j  ] +     d[i-1,j  ] +     d[i  ,j  ] ,
 ) 

Normalization hint: N
" = true.
Proof. vm_compute. reflexivity. Qed.
