(** Properties33.v - C88: sums of local costs.

    Only theorem statements, each closed by a lemma proved elsewhere, and concrete cases
    that meet their hypotheses.  See Properties1.v for the arithmetic [N] and [NumLaws]. *)
From Coq Require Import QArith Qcanon.
From Verif Require Import Base Num StepPattern Window Core Backtrack Dtw Spec Api Tables Vocab Terms.
From Verif Require Import NumQ NumQLaws NumF NumFLaws.
From Verif Require Import SumSpec Sum Mix Examples Examples7 Examples33.
Open Scope string_scope.
Open Scope list_scope.
Open Scope nat_scope.

(** C88 (exact arithmetic): if the local costs are the sums of those of two other problems, both of these have an alignment, and the distance is at least the sum of their distances; with open end the same holds for normalized distances. *)
Theorem C88_sum : forall cdist x y cdist1 x1 y1 cdist2 x2 y2 o (lm a b : mat NumQ) d rules,
  costs_of cdist x y lm -> dtw cdist x y o = Ok d -> pattern_rules (r_stepPattern d) rules -> 0 < nr lm -> finite_weights rules ->
  costs_of cdist1 x1 y1 a -> (o_open_begin o = true \/ native_array x1 y1) ->
  costs_of cdist2 x2 y2 b -> (o_open_begin o = true \/ native_array x2 y2) -> summed a b lm ->
  exists d1 d2, dtw cdist1 x1 y1 o = Ok d1 /\ dtw cdist2 x2 y2 o = Ok d2 /\
    (o_open_end o = false -> leb (add (r_distance d1) (r_distance d2)) (r_distance d) = true) /\
    (hint (r_stepPattern d) <> "NA" -> leb (add (r_normalizedDistance d1) (r_normalizedDistance d2)) (r_normalizedDistance d) = true).
Proof. exact sum_of_costs. Qed.
Print Assumptions C88_sum.

(** C88: the predefined step patterns. *)
Theorem C88_sum_named : forall cdist x y cdist1 x1 y1 cdist2 x2 y2 o (lm a b : mat NumQ) d k,
  costs_of cdist x y lm -> dtw cdist x y o = Ok d -> lookup k pattern_table = Some (r_stepPattern d) -> 0 < nr lm ->
  costs_of cdist1 x1 y1 a -> (o_open_begin o = true \/ native_array x1 y1) ->
  costs_of cdist2 x2 y2 b -> (o_open_begin o = true \/ native_array x2 y2) -> summed a b lm ->
  exists d1 d2, dtw cdist1 x1 y1 o = Ok d1 /\ dtw cdist2 x2 y2 o = Ok d2 /\
    (o_open_end o = false -> leb (add (r_distance d1) (r_distance d2)) (r_distance d) = true) /\
    (hint (r_stepPattern d) <> "NA" -> leb (add (r_normalizedDistance d1) (r_normalizedDistance d2)) (r_normalizedDistance d) = true).
Proof. exact sum_of_costs_named. Qed.
Print Assumptions C88_sum_named.

(** C88: the distance is a concave function of the local costs: for costs p a + q b it is at least p times the distance for a plus q times that for b. *)
Theorem C88_mixture : forall p q cdist x y cdist1 x1 y1 cdist2 x2 y2 o (lm a b : mat NumQ) d rules,
  (Q2Qc 0 < p)%Qc -> (Q2Qc 0 < q)%Qc ->
  costs_of cdist x y lm -> dtw cdist x y o = Ok d -> pattern_rules (r_stepPattern d) rules -> 0 < nr lm -> finite_weights rules ->
  costs_of cdist1 x1 y1 a -> (o_open_begin o = true \/ native_array x1 y1) ->
  costs_of cdist2 x2 y2 b -> (o_open_begin o = true \/ native_array x2 y2) -> mixed p q a b lm ->
  exists d1 d2, dtw cdist1 x1 y1 o = Ok d1 /\ dtw cdist2 x2 y2 o = Ok d2 /\
    (o_open_end o = false ->
     leb (add (mul (XFin p : NumQ) (r_distance d1)) (mul (XFin q : NumQ) (r_distance d2))) (r_distance d) = true) /\
    (hint (r_stepPattern d) <> "NA" ->
     leb (add (mul (XFin p : NumQ) (r_normalizedDistance d1)) (mul (XFin q : NumQ) (r_normalizedDistance d2))) (r_normalizedDistance d) = true).
Proof. exact mixed_costs. Qed.
Print Assumptions C88_mixture.

Example C88_case_summed : summed a33 b33 s33.
Proof. exact summed33. Qed.

Example C88_case_channels : succeeds a33 (oQ "symmetric2") "symmetric2" NoWindow (dist_is 0) /\
  succeeds b33 (oQ "symmetric2") "symmetric2" NoWindow (dist_is 0) /\
  succeeds s33 (oQ "symmetric2") "symmetric2" NoWindow (dist_is 27).
Proof. exact channels33. Qed.

Example C88_case_same : succeeds a33 (oQ "rigid") "rigid" NoWindow (dist_is 9) /\
  succeeds b33 (oQ "rigid") "rigid" NoWindow (dist_is 9) /\
  succeeds s33 (oQ "rigid") "rigid" NoWindow (dist_is 18).
Proof. exact same33. Qed.

Example C88_case_open : succeeds (ints 1 2 [4;1]%Z) (oOpen "symmetric2") "symmetric2" NoWindow (dist_is 5) /\
  succeeds (ints 1 2 [0;5]%Z) (oOpen "symmetric2") "symmetric2" NoWindow (dist_is 0) /\
  succeeds (ints 1 2 [4;6]%Z) (oOpen "symmetric2") "symmetric2" NoWindow (dist_is 4).
Proof. exact open33. Qed.

Example C88_case_mixture : mixed (Q2Qc 2) (Q2Qc 1) a33 b33 m33 /\ succeeds m33 (oQ "rigid") "rigid" NoWindow (dist_is 27) /\
  succeeds m33 (oQ "symmetric1") "symmetric1" NoWindow (dist_is 18).
Proof. exact mixed33. Qed.
