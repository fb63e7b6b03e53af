(** Properties25.v - C80: how the number of alignments changes with the problem.

    Only theorem statements, each closed by a lemma proved elsewhere, and concrete cases
    that meet their hypotheses.  See Properties1.v for the arithmetic [N] and [NumLaws]. *)
From Verif Require Import Base Num StepPattern Window Core Backtrack Dtw Spec Api Tables Vocab Terms.
From Verif Require Import NumQ NumQLaws NumF NumFLaws.
From Verif Require Import CountPaths CountSpec Thm8 Thm10 Examples Examples2 CountEx Count3 Examples23.
Open Scope string_scope.
Open Scope list_scope.
Open Scope nat_scope.

(** C80: the count does not depend on the costs. *)
Theorem C80_costs_irrelevant : forall (N : Num) (L : NumLaws N) cdist cdist' x x' y y' (o : opts N) (lm lm' : mat N) d d' rules,
  costs_of cdist x y lm -> dtw cdist x y o = Ok d ->
  costs_of cdist' x' y' lm' -> dtw cdist' x' y' o = Ok d' ->
  pattern_rules (r_stepPattern d) rules -> nr lm' = nr lm -> nc lm' = nc lm ->
  countPaths d' = countPaths d.
Proof. exact (fun N L  => @count_costs N L). Qed.
Print Assumptions C80_costs_irrelevant.

(** C80: with a wider window or with more productions (of the same numbers) it does not decrease. *)
Theorem C80_more_admitted : forall (N : Num) (L : NumLaws N) cdist cdist' x x' y y' (o o' : opts N) (lm lm' : mat N) d d' rules rules',
  costs_of cdist x y lm -> dtw cdist x y o = Ok d -> pattern_rules (r_stepPattern d) rules ->
  costs_of cdist' x' y' lm' -> dtw cdist' x' y' o' = Ok d' -> pattern_rules (r_stepPattern d') rules' ->
  o_open_begin o = false -> o_open_end o = false -> o_open_begin o' = false -> o_open_end o' = false ->
  (r_windowFunction d = NoWindow -> r_windowArgs d = []) -> (r_windowFunction d' = NoWindow -> r_windowArgs d' = []) ->
  nr lm' = nr lm -> nc lm' = nc lm ->
  (forall k r, rule_no rules k = Some r -> rule_no rules' k = Some r) ->
  window_within (r_windowFunction d) (r_windowArgs d) (r_windowFunction d') (r_windowArgs d') (nr lm) (nc lm) ->
  no_marker rules' -> counts_fit rules' lm' (r_windowFunction d') (r_windowArgs d') ->
  exists c c', countPaths d = Ok c /\ countPaths d' = Ok c' /\ (c <= c')%Z.
Proof. exact (fun N L  => @count_more N L). Qed.
Print Assumptions C80_more_admitted.

(** C80: a wider Sakoe-Chiba band. *)
Theorem C80_wider_band : forall (N : Num) (L : NumLaws N) cdist cdist' x x' y y' (o o' : opts N) (lm lm' : mat N) d d' rules (ws ws' : N),
  costs_of cdist x y lm -> dtw cdist x y o = Ok d -> pattern_rules (r_stepPattern d) rules ->
  costs_of cdist' x' y' lm' -> dtw cdist' x' y' o' = Ok d' -> r_stepPattern d' = r_stepPattern d ->
  o_open_begin o = false -> o_open_end o = false -> o_open_begin o' = false -> o_open_end o' = false ->
  r_windowFunction d = SakoeChiba -> r_windowArgs d = band ws -> r_windowFunction d' = SakoeChiba -> r_windowArgs d' = band ws' ->
  leb ws ws' = true -> nr lm' = nr lm -> nc lm' = nc lm ->
  no_marker rules -> counts_fit rules lm' SakoeChiba (band ws') ->
  exists c c', countPaths d = Ok c /\ countPaths d' = Ok c' /\ (c <= c')%Z.
Proof. exact (fun N L  => @count_wider_band N L). Qed.
Print Assumptions C80_wider_band.

(** C80: a larger elasticity of mvmStepPattern(). *)
Theorem C80_larger_elasticity : forall (N : Num) (L : NumLaws N) cdist cdist' x x' y y' (o o' : opts N) (lm lm' : mat N) d d' e e',
  costs_of cdist x y lm -> dtw cdist x y o = Ok d -> r_stepPattern d = mvmStepPattern e ->
  costs_of cdist' x' y' lm' -> dtw cdist' x' y' o' = Ok d' -> r_stepPattern d' = mvmStepPattern e' ->
  1 <= e -> e <= e' -> (8 * Z.of_nat e' <= INT_MAX)%Z ->
  o_open_begin o = false -> o_open_end o = false -> o_open_begin o' = false -> o_open_end o' = false ->
  r_windowFunction d = NoWindow -> r_windowArgs d = [] -> r_windowFunction d' = NoWindow -> r_windowArgs d' = [] ->
  nr lm' = nr lm -> nc lm' = nc lm -> counts_fit (productions (mvm_productions e')) lm' NoWindow [] ->
  exists c c', countPaths d = Ok c /\ countPaths d' = Ok c' /\ (c <= c')%Z.
Proof. exact (fun N L  => @count_mvm N L). Qed.
Print Assumptions C80_larger_elasticity.

(** C80: the transposed problem has as many alignments. *)
Theorem C80_transposed : forall (N : Num) (L : NumLaws N) cdist cdist' x x' y y' (o o' : opts N) (lm lm' : mat N) d d' rules,
  costs_of cdist x y lm -> dtw cdist x y o = Ok d -> pattern_rules (r_stepPattern d) rules ->
  costs_of cdist' x' y' lm' -> dtw cdist' x' y' o' = Ok d' -> pattern_rules (r_stepPattern d') (map T_rule rules) ->
  o_open_begin o = false -> o_open_end o = false -> o_open_begin o' = false -> o_open_end o' = false ->
  (r_windowFunction d = NoWindow -> r_windowArgs d = []) -> (r_windowFunction d' = NoWindow -> r_windowArgs d' = []) ->
  nr lm' = nc lm -> nc lm' = nr lm ->
  (forall i j, i < nr lm -> j < nc lm ->
     (in_window (r_windowFunction d) (r_windowArgs d) (nr lm) (nc lm) i j <->
      in_window (r_windowFunction d') (r_windowArgs d') (nc lm) (nr lm) j i)) ->
  no_marker rules -> counts_fit rules lm (r_windowFunction d) (r_windowArgs d) ->
  exists c, countPaths d = Ok c /\ countPaths d' = Ok c.
Proof. exact (fun N L  => @count_transposed N L). Qed.
Print Assumptions C80_transposed.

Example C80_case_costs : succeeds mA (named "symmetric2" WTNone [] true false false false) "symmetric2" NoWindow (count_is 25) /\
  succeeds mA' (named "symmetric2" WTNone [] true false false false) "symmetric2" NoWindow (count_is 25) /\
  succeeds mA (named "symmetric2" (WTName "sakoechiba") (band (ofZ 1)) true false false false) "symmetric2" SakoeChiba (count_is 15) /\
  succeeds mA (named "symmetric2" (WTName "sakoechiba") (band (ofZ 2)) true false false false) "symmetric2" SakoeChiba (count_is 24) /\
  counts_fit (@productions NumF (match lookup "symmetric2" predefined with Some l => l | None => [] end)) mA SakoeChiba (band (ofZ 2)).
Proof. exact costs23. Qed.

Example C80_case_mvm : checkOk (run m35 (oMvm 2)) (count_is 1) = true /\ checkOk (run m35 (oMvm 3)) (count_is 3) = true /\
  checkOk (run m35 (oMvm 1)) (fun _ => true) = false.
Proof. exact mvm23. Qed.

Example C80_case_transposed : exists sp, lookup "asymmetric" pattern_table = Some sp /\
  checkOk (run mA (named "asymmetric" WTNone [] true false false false)) (count_is 2) = true /\
  checkOk (run mAT (oT23 sp)) (count_is 2) = true.
Proof. exact transposed23. Qed.
