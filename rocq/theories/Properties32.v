(** Properties32.v - C87: the productions of a step pattern.

    Only theorem statements, each closed by a lemma proved elsewhere, and concrete cases
    that meet their hypotheses.  See Properties1.v for the arithmetic [N] and [NumLaws]. *)
From Coq Require Import Permutation.
From Verif Require Import Base Num StepPattern Window Core Backtrack Dtw Spec Api Tables Vocab Terms.
From Verif Require Import NumQ NumQLaws NumF NumFLaws.
From Verif Require Import PatSpec SameRules Examples Examples32.
Open Scope string_scope.
Open Scope list_scope.
Open Scope nat_scope.

(** C87: a step pattern with more productions finds an alignment whenever one with fewer does, and its distance is not larger, whatever the costs and weights. *)
Theorem C87_more_closed_end : forall (N : Num) (L : NumLaws N) cdist x y (o : opts N) (lm : mat N) d rules s' sp' rules',
  costs_of cdist x y lm -> 0 < nr lm ->
  dtw cdist x y o = Ok d -> pattern_rules (r_stepPattern d) rules -> o_open_end o = false ->
  pattern_of s' sp' -> pattern_rules sp' rules' -> (o_open_begin o = true -> hint sp' = "N") ->
  incl rules rules' ->
  exists d', dtw cdist x y (with_pattern o s') = Ok d' /\ r_stepPattern d' = sp' /\ leb (r_distance d') (r_distance d) = true.
Proof. exact (fun N L  => @more_closed_end N L). Qed.
Print Assumptions C87_more_closed_end.

(** C87, open end: the same for the normalized distance. *)
Theorem C87_more_open_end : forall (N : Num) (L : NumLaws N) cdist x y (o : opts N) (lm : mat N) d rules s' sp' rules',
  costs_of cdist x y lm -> 0 < nr lm ->
  dtw cdist x y o = Ok d -> pattern_rules (r_stepPattern d) rules -> o_open_end o = true ->
  pattern_of s' sp' -> pattern_rules sp' rules' -> hint sp' = hint (r_stepPattern d) ->
  incl rules rules' ->
  exists d', dtw cdist x y (with_pattern o s') = Ok d' /\ r_stepPattern d' = sp' /\
    leb (r_normalizedDistance d') (r_normalizedDistance d) = true.
Proof. exact (fun N L  => @more_open_end N L). Qed.
Print Assumptions C87_more_open_end.

(** C87: the order in which productions are listed, and listing one twice, changes neither the distance nor the end of the alignment (the numbers in stepsTaken, and the choice among alignments of equal cost, do depend on it), *)
Theorem C87_same : forall (N : Num) (L : NumLaws N) cdist x y (o : opts N) (lm : mat N) d rules s' sp' rules',
  costs_of cdist x y lm -> 0 < nr lm ->
  dtw cdist x y o = Ok d -> pattern_rules (r_stepPattern d) rules ->
  pattern_of s' sp' -> pattern_rules sp' rules' -> hint sp' = hint (r_stepPattern d) ->
  (forall r, In r rules <-> In r rules') ->
  exists d', dtw cdist x y (with_pattern o s') = Ok d' /\ r_stepPattern d' = sp' /\ r_jmin d' = r_jmin d /\
    eqb (r_distance d') (r_distance d) = true /\
    (hint sp' <> "NA" -> eqb (r_normalizedDistance d') (r_normalizedDistance d) = true).
Proof. exact (fun N L  => @same_rules N L). Qed.
Print Assumptions C87_same.

(** C87: nor the exception. *)
Theorem C87_same_raise : forall (N : Num) (L : NumLaws N) cdist x y (o : opts N) (lm : mat N) sp rules w s' sp' rules' e,
  well_posed cdist x y o lm sp rules w ->
  pattern_of s' sp' -> pattern_rules sp' rules' -> hint sp' = hint sp ->
  (forall r, In r rules <-> In r rules') ->
  dtw cdist x y o = Raise e -> dtw cdist x y (with_pattern o s') = Raise e.
Proof. exact (fun N L  => @same_rules_raise N L). Qed.
Print Assumptions C87_same_raise.

(** C87: every order of the productions of a pattern gives a well-formed pattern. *)
Theorem C87_any_order : forall (N : Num) sp (rules rules' : list (rule N)) h,
  pattern_rules sp rules -> Permutation rules rules' ->
  pattern_rules (StepPat (table rules') h) rules' /\ (forall r, In r rules <-> In r rules').
Proof. exact (fun N  => @any_order N). Qed.
Print Assumptions C87_any_order.

Example C87_case_backwards : exists sp, lookup "symmetricP1" (@pattern_table NumF) = Some sp /\ pattern_rules sp (listed_rules "symmetricP1") /\
  pattern_rules (backwards "symmetricP1" (hint sp)) (rev (listed_rules "symmetricP1")) /\
  (forall r, In r (listed_rules "symmetricP1") <-> In r (rev (listed_rules "symmetricP1"))).
Proof. exact backwards_ok. Qed.

Example C87_case_backwards_runs : checkOk (run mB (oKeep "symmetricP1")) (fun d => dist_is 6 d && align_is [0;1;2;2]%Z [0;1;2;3]%Z [2;1]%Z d) = true /\
  checkOk (run mB (oBack "symmetricP1" "N+M")) (fun d => dist_is 6 d && align_is [0;1;2;2]%Z [0;1;2;3]%Z [2;3]%Z d) = true.
Proof. exact backwards_runs. Qed.

Example C87_case_ties : checkOk (run z32 (oKeep "symmetric1")) (fun d => dist_is 0 d && align_is [0;1;2]%Z [0;1;2]%Z [1;1]%Z d) = true /\
  checkOk (run z32 (oBack "symmetric1" "NA")) (fun d => dist_is 0 d && align_is [0;0;0;1;2]%Z [0;1;2;2;2]%Z [2;2;1;1]%Z d) = true.
Proof. exact backwards_ties. Qed.

Example C87_case_more : succeeds neg32 (oKeep "rigid") "rigid" NoWindow (dist_is 5) /\ succeeds neg32 (oKeep "symmetric1") "symmetric1" NoWindow (dist_is (-3)) /\
  incl (listed_rules "rigid") (listed_rules "symmetric1").
Proof. exact more32. Qed.
