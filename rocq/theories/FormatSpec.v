(** FormatSpec.v - specification vocabulary for C85 (no proofs): how a decimal number is read. *)
From Coq Require Import Ascii String ZArith Bool Reals.
From Flocq Require Import Core.
Open Scope bool_scope.
Open Scope string_scope.
Open Scope Z_scope.

Definition radix10 : radix := Build_radix 10 eq_refl.

Definition char_digit (c : ascii) : option Z :=
  let n := Z.of_nat (nat_of_ascii c) in if (48 <=? n) && (n <=? 57) then Some (n - 48) else None.
(** A non-empty sequence of digits, read onto [acc]. *)
Fixpoint read_more (s : string) (acc : Z) : option Z :=
  match s with
  | EmptyString => Some acc
  | String c s' => match char_digit c with Some d => read_more s' (10 * acc + d) | None => None end
  end.
Definition read_integer (s : string) : option Z := match s with EmptyString => None | _ => read_more s 0 end.
Definition read_exponent (s : string) : option Z :=
  match s with
  | String "+" s' => read_integer s'
  | String "-" s' => option_map Z.opp (read_integer s')
  | _ => None
  end.
(** Digits, one decimal point at most, and an exponent after "e": [(m, k)] for m * 10^k.
    [seen]: a digit has been read; [point]: the decimal point has been read. *)
Fixpoint read_body (s : string) (seen point : bool) (m k : Z) : option (Z * Z) :=
  match s with
  | EmptyString => if seen then Some (m, k) else None
  | String "." s' => if point then None else read_body s' seen true m k
  | String "e" s' => if seen then option_map (fun e => (m, k + e)) (read_exponent s') else None
  | String c s' => match char_digit c with
                   | Some d => read_body s' true point (10 * m + d) (if point then k - 1 else k)
                   | None => None
                   end
  end.
Definition read_number (s : string) : option (Z * Z) :=
  match s with
  | String "-" s' => option_map (fun mk => (- fst mk, snd mk)) (read_body s' false false 0 0)
  | _ => read_body s false false 0 0
  end.
(** [s] is a text for the real number [v]. *)
Definition reads (s : string) (v : R) : Prop :=
  exists m k, read_number s = Some (m, k) /\ (v = IZR m * bpow radix10 k)%R.
(** The number with [p] significant decimal digits nearest to [v], ties to the even digit. *)
Definition to_digits (p : nat) (v : R) : R := round radix10 (FLX_exp (Z.of_nat p)) ZnearestE v.
