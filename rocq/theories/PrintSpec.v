(** PrintSpec.v - the text and the drawing that describe a list of productions
    (vocabulary of the statements on print(step_pattern) and step_pattern.plot()). *)
From Coq Require Import Ascii DecimalString.
From Verif Require Import Base Num StepPattern Window Core Backtrack Dtw Spec Print.
Open Scope string_scope.
Open Scope list_scope.
Open Scope nat_scope.

Section PrintSpec.
Context {N : Num}.
Variable fmt : N -> string.                      (* how a weight is written *)

(** "i-2,j  " : query index minus two, same reference index *)
Definition decimal (k : nat) : string := NilZero.string_of_uint (N.to_uint (N.of_nat k)).
Definition minus_text (k : nat) : string := match k with O => "  " | S _ => "-" ++ decimal k end.
Definition cell_text (oi oj : nat) : string := "i" ++ minus_text oi ++ ",j" ++ minus_text oj.

(** " +2 * d[i  ,j  ]": weight (left out if one) times local cost *)
Definition weight_text (w : N) : string := if eqb w (ofZ 1) then "    " else fmt w ++ " *".
Definition charge_text (a : nat * nat * N) : string :=
  " +" ++ weight_text (snd a) ++ " d[" ++ cell_text (fst (fst a)) (snd (fst a)) ++ "]".
Definition rule_text (r : rule N) : string :=
  "     g[" ++ cell_text (r_di r) (r_dj r) ++ "]" ++
  String.concat "" (map charge_text (r_add r)) ++ " ," ++ nl.
Definition pattern_text (rules : list (rule N)) (h : string) : string :=
  "Step pattern recursion:" ++ nl ++ " g[i,j] = min(" ++ nl ++
  String.concat "" (map rule_text rules) ++
  " ) " ++ nl ++ nl ++ "Normalization hint: " ++ h ++ nl.

(** Two productions with the same steps and charged points, and with weights that are
    written the same way. *)
Definition same_weight_text (w w' : N) : Prop :=
  (eqb w (ofZ 1) = true /\ eqb w' (ofZ 1) = true) \/
  (eqb w (ofZ 1) = false /\ eqb w' (ofZ 1) = false /\ fmt w = fmt w').
Definition written_alike (r r' : rule N) : Prop :=
  r_di r = r_di r' /\ r_dj r = r_dj r' /\
  Forall2 (fun a a' => fst a = fst a' /\ same_weight_text (snd a) (snd a')) (r_add r) (r_add r').

(** The points of a production, from its start to (0,0), relative to its end: the curve
    plot() draws. *)
Definition shape (r : rule N) : list (nat * nat) := (r_di r, r_dj r) :: map fst (r_add r).
Definition drawn_at (p : nat * nat) : N * N := (neg (ofN (fst p)), neg (ofN (snd p))).

End PrintSpec.

(** A string in which the character [c] does not occur. *)
Fixpoint lacks (c : ascii) (s : string) : bool :=
  match s with
  | EmptyString => true
  | String a s' => negb (Ascii.eqb a c) && lacks c s'
  end.
