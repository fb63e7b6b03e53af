(** FormSpec.v - specification vocabulary for C85 (no proofs): how a decimal number is laid out. *)
From Coq Require Import Ascii String ZArith Bool.
From Verif Require Import FormatSpec.
Open Scope string_scope.
Open Scope Z_scope.

Fixpoint zeros (k : nat) : string := match k with O => "" | S k' => String "0" (zeros k') end.
Fixpoint last_char (s : string) : option ascii :=
  match s with "" => None | String c "" => Some c | String _ s' => last_char s' end.
Definition first_char (s : string) : option ascii := match s with "" => None | String c _ => Some c end.
Definition len (s : string) : Z := Z.of_nat (String.length s).

(** The digits of [n], with no zero in front and none behind. *)
Definition significand (ds : string) (n : Z) : Prop :=
  read_integer ds = Some n /\ first_char ds <> Some "0"%char /\ last_char ds <> Some "0"%char.
(** An exponent: a sign and two digits, or three if needed. *)
Definition exponent (e : Z) (t : string) : Prop :=
  exists s : string, t = String (if e <? 0 then "-"%char else "+"%char) s /\ read_integer s = Some (Z.abs e) /\
            (len s = 2 \/ (len s = 3 /\ 100 <= Z.abs e)).
(** The digits [ds], the first of which stands for 10^e, are written as [t] with precision [p]:
    0.0012, 1200, 1.2, 1e+05, 1.2e-05 *)
Inductive layout (p : Z) : string -> Z -> string -> Prop :=
| lay_small ds e : -4 <= e < 0 -> layout p ds e ("0." ++ zeros (Z.to_nat (- e - 1)) ++ ds)
| lay_whole ds e : 0 <= e < p -> len ds <= e + 1 -> layout p ds e (ds ++ zeros (Z.to_nat (e + 1 - len ds)))
| lay_point a b e : 0 <= e < p -> len a = e + 1 -> b <> "" -> layout p (a ++ b) e (a ++ "." ++ b)
| lay_exp a e t : e < -4 \/ p <= e -> len a = 1 -> exponent e t -> layout p a e (a ++ "e" ++ t)
| lay_point_exp a b e t : e < -4 \/ p <= e -> len a = 1 -> b <> "" -> exponent e t -> layout p (a ++ b) e (a ++ "." ++ b ++ "e" ++ t).
Definition is_spaces (s : string) : Prop := forall k c, String.get k s = Some c -> c = " "%char.
