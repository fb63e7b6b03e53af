(** RJSpec.v - the Rabiner-Juang construction (no proofs). *)
From Verif Require Import Base Num StepPattern Window Spec Tables.
Open Scope string_scope.
Open Scope list_scope.
Open Scope nat_scope.

(** Total displacement of a chain of elementary steps. *)
Definition total (steps : list (nat * nat)) : nat * nat :=
  (list_sum (map fst steps), list_sum (map snd steps)).

(** Steps as the integers the API takes. *)
Definition zs (steps : list (nat * nat)) : list (Z * Z) := map (fun d => (Z.of_nat (fst d), Z.of_nat (snd d))) steps.

(** Where the chain still has to go after each of its steps. *)
Fixpoint to_go (steps : list (nat * nat)) : list (nat * nat) :=
  match steps with [] => [] | _ :: rest => total rest :: to_go rest end.

(** Slope weighting (a)-(d) of an elementary step. *)
Definition weighting (s : string) : option (nat * nat -> nat) :=
  if String.eqb s "a" then Some (fun d => Nat.min (fst d) (snd d)) else
  if String.eqb s "b" then Some (fun d => Nat.max (fst d) (snd d)) else
  if String.eqb s "c" then Some (fun d => fst d) else
  if String.eqb s "d" then Some (fun d => fst d + snd d) else None.

(** A fraction; integers get denominator 1. *)
Definition fraction (a b : nat) : Z * Z :=
  if a mod b =? 0 then (Z.of_nat (a / b), 1%Z) else (Z.of_nat a, Z.of_nat b).

(** Weights along the chain: one per step, or all equal to their mean. *)
Definition weights (wt : nat * nat -> nat) (smoothed : bool) (steps : list (nat * nat)) : list (Z * Z) :=
  if smoothed then map (fun _ => fraction (list_sum (map wt steps)) (List.length steps)) steps
  else map (fun d => (Z.of_nat (wt d), 1%Z)) steps.

(** The production of a chain. *)
Definition chain (wt : nat * nat -> nat) (smoothed : bool) (steps : list (nat * nat)) : wrule :=
  W (fst (total steps)) (snd (total steps)) (combine (to_go steps) (weights wt smoothed steps)).

(** The seven families (Rabiner & Juang 1993, table 4.5; dtw/stepPattern.py:472-531). *)
Definition family (t : Z) : list (list (nat * nat)) :=
  match t with
  | 1%Z => [ [(1,0)]; [(1,1)]; [(0,1)] ]
  | 2%Z => [ [(1,1);(1,0)]; [(1,1)]; [(1,1);(0,1)] ]
  | 3%Z => [ [(2,1)]; [(1,1)]; [(1,2)] ]
  | 4%Z => [ [(1,1);(1,0)]; [(1,2);(1,0)]; [(1,1)]; [(1,2)] ]
  | 5%Z => [ [(1,1);(1,0);(1,0)]; [(1,1);(1,0)]; [(1,1)]; [(1,1);(0,1)]; [(1,1);(0,1);(0,1)] ]
  | 6%Z => [ [(1,1);(1,1);(1,0)]; [(1,1)]; [(1,1);(1,1);(0,1)] ]
  | 7%Z => [ [(1,1);(1,0);(1,0)]; [(1,2);(1,0);(1,0)]; [(1,3);(1,0);(1,0)];
           [(1,1);(1,0)]; [(1,2);(1,0)]; [(1,3);(1,0)];
           [(1,1)]; [(1,2)]; [(1,3)] ]
  | _ => []
  end.

(** Normalization hint by slope weighting. *)
Definition rj_hint (s : string) : string :=
  if String.eqb s "c" then "N" else if String.eqb s "d" then "N+M" else "NA".

(** The productions of the systematic construction. *)
Definition rj_rules (t : Z) (wt : nat * nat -> nat) (smoothed : bool) : list wrule :=
  map (chain wt smoothed) (family t).

(** Predefined patterns that are a Rabiner-Juang pattern: local continuity type, slope weighting, smoothing. *)
Definition rj_names : list (string * (Z * string * bool)) :=
  [ ("symmetric1", (1%Z, "b", false));   ("symmetric2", (1%Z, "d", false));
    ("symmetricP0", (1%Z, "d", false));  ("asymmetricP0", (1%Z, "c", false));
    ("symmetricP05", (5%Z, "d", false)); ("asymmetricP05", (5%Z, "c", true));
    ("symmetricP1", (2%Z, "d", false));  ("asymmetricP1", (2%Z, "c", true));
    ("symmetricP2", (6%Z, "d", false));  ("asymmetricP2", (6%Z, "c", true));
    ("typeIa", (2%Z, "a", false));  ("typeIb", (2%Z, "b", false));
    ("typeIc", (2%Z, "c", false));  ("typeId", (2%Z, "d", false));
    ("typeIas", (2%Z, "a", true));  ("typeIbs", (2%Z, "b", true));
    ("typeIcs", (2%Z, "c", true));  ("typeIds", (2%Z, "d", true));
    ("typeIIa", (3%Z, "a", false)); ("typeIIb", (3%Z, "b", false));
    ("typeIIc", (3%Z, "c", false)); ("typeIId", (3%Z, "d", false));
    ("typeIIIc", (4%Z, "c", false)); ("typeIVc", (7%Z, "c", false)) ].

(** The remaining names: _asymmetricItakura has the productions of (4,c) but the
    hint NA; the others are not of this form. *)
Definition rj_others : list string :=
  ["asymmetric"; "_symmetricVelichkoZagoruyko"; "_asymmetricItakura"; "_asymmetricP0b"; "mori2006"; "rigid"].
