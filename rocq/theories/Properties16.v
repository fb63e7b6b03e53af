(** Properties16.v - C64.

    Only theorem statements, each closed by a lemma proved elsewhere, and concrete cases
    that meet their hypotheses.  See Properties1.v for the arithmetic [N] and [NumLaws]. *)
From Coq Require Import QArith Qcanon.
From Verif Require Import Base Num StepPattern Window Core Backtrack Dtw Spec Api Tables Vocab Terms.
From Verif Require Import NumQ NumQLaws NumF NumFLaws.
From Verif Require Import StableSpec Stable Examples Examples7 Examples14.
Open Scope string_scope.
Open Scope list_scope.
Open Scope nat_scope.

(** C64: local costs changed by at most e each change the distance by at most e times the weight of the normalization (closed end). *)
Theorem C64_distance : forall e cdist x y cdist' x' y' o (lm lm' : mat NumQ) d k al be,
  costs_of cdist x y lm -> dtw cdist x y o = Ok d -> 0 < nr lm ->
  lookup k pattern_table = Some (r_stepPattern d) -> hint_law (hint (r_stepPattern d)) = Some (al, be) ->
  o_open_end o = false ->
  costs_of cdist' x' y' lm' -> (o_open_begin o = true \/ native_array x' y') -> perturbed e lm lm' ->
  exists d', dtw cdist' x' y' o = Ok d' /\
    differ_at_most (mul (ofZ (Z.of_nat (if o_open_begin o then nr lm else 1 + (al * (nr lm - 1) + be * (nc lm - 1))))) (XFin e : NumQ))
      (r_distance d) (r_distance d').
Proof. exact stable_closed. Qed.
Print Assumptions C64_distance.

(** C64: and the normalized distance by at most e (3e for hint M), open ends included. *)
Theorem C64_normalized : forall e cdist x y cdist' x' y' o (lm lm' : mat NumQ) d k,
  (Q2Qc 0 <= e)%Qc ->
  costs_of cdist x y lm -> dtw cdist x y o = Ok d -> 0 < nr lm ->
  lookup k pattern_table = Some (r_stepPattern d) -> hint (r_stepPattern d) <> "NA" ->
  costs_of cdist' x' y' lm' -> (o_open_begin o = true \/ native_array x' y') -> perturbed e lm lm' ->
  exists d', dtw cdist' x' y' o = Ok d' /\
    differ_at_most (mul (ofZ (if String.eqb (hint (r_stepPattern d)) "M" then 3 else 1)) (XFin e : NumQ))
      (r_normalizedDistance d) (r_normalizedDistance d').
Proof. exact stable_normalized. Qed.
Print Assumptions C64_normalized.

Example C64_case : perturbed one pA pB /\
  succeeds pA (oQ "symmetric2") "symmetric2" NoWindow (fun d => dist_is 7 d) /\
  succeeds pB (oQ "symmetric2") "symmetric2" NoWindow (fun d => dist_is 8 d).
Proof. exact stable_case. Qed.

Example C64_case_open : perturbed one pA pB /\
  succeeds pA (named "asymmetric" WTNone [] true false true true) "asymmetric" NoWindow (fun d => dist_is 4 d) /\
  succeeds pB (named "asymmetric" WTNone [] true false true true) "asymmetric" NoWindow (fun d => dist_is 2 d).
Proof. exact stable_case_open. Qed.
