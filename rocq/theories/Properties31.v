(** Properties31.v - C86: the order of the rows of a step pattern.

    Only theorem statements, each closed by a lemma proved elsewhere, and concrete cases
    that meet their hypotheses.  See Properties1.v for the arithmetic [N] and [NumLaws]. *)
From Verif Require Import Base Num StepPattern Window Core Backtrack Dtw Spec Api Tables Vocab Terms.
From Verif Require Import NumQ NumQLaws NumF NumFLaws.
From Verif Require Import Print CountPaths RowSpec Reorder Examples Examples31.
Open Scope string_scope.
Open Scope list_scope.
Open Scope nat_scope.

(** C86: listing the rows of a step pattern in another order changes neither the result nor the exception. *)
Theorem C86_result : forall (N : Num) (L : NumLaws N) cdist x y (o : opts N) (s s' : steppat N) rules,
  pattern_rules s rules -> same_productions s s' -> canonicalizeStepPattern (o_step_pattern o) = Ok s ->
  (forall d, dtw cdist x y o = Ok d -> dtw cdist x y (use_pattern s' o) = Ok (with_pattern s' d)) /\
  (forall e, dtw cdist x y o = Raise e -> dtw cdist x y (use_pattern s' o) = Raise e).
Proof. exact (fun N L  => @rows_reordered N L). Qed.
Print Assumptions C86_result.

(** C86: nor the text of the pattern, *)
Theorem C86_text : forall (N : Num) (L : NumLaws N) fmt (s s' : steppat N) rules,
  pattern_rules s rules -> same_productions s s' -> str_pattern fmt s' = str_pattern fmt s.
Proof. exact (fun N L  => @rows_reordered_text N L). Qed.
Print Assumptions C86_text.

(** C86: and the transposes are rearrangements of each other too. *)
Theorem C86_T : forall (N : Num) (s s' : steppat N),
  same_productions s s' -> same_productions (T s) (T s').
Proof. exact (fun N  => @rows_reordered_T N). Qed.
Print Assumptions C86_T.

(** C86: nor the number of warping paths. *)
Theorem C86_count : forall (N : Num) (L : NumLaws N) (s s' : steppat N) rules d,
  pattern_rules s rules -> same_productions s s' -> same_starts s s' -> r_stepPattern d = s ->
  countPaths (with_pattern s' d) = countPaths d.
Proof. exact (fun N L  => @rows_reordered_count N L). Qed.
Print Assumptions C86_count.

(** Concrete case: symmetricP1 with its rows mixed up. *)
Theorem C86_case_same : forall (N : Num) (L : NumLaws N),
  RowSpec.same_productions (@symmetricP1 N) (rearranged mixed31).
Proof. exact (fun N L  => @mixed_same N L). Qed.
Print Assumptions C86_case_same.

(** Concrete case. *)
Theorem C86_case_rules : forall (N : Num) (L : NumLaws N),
  (exists l, lookup "symmetricP1" predefined = Some l /\ pattern_rules (@symmetricP1 N) (productions l)) /\
  RowSpec.same_starts (@symmetricP1 N) (rearranged mixed31).
Proof. exact (fun N L  => @mixed_rules N L). Qed.
Print Assumptions C86_case_rules.

Example C86_case_runs : checkOk (run mB (with_rows mixed31)) (fun d => dist_is 6 d && align_is [0;1;2;2]%Z [0;1;2;3]%Z [2;1]%Z d && steps_are [0;1;2]%Z [0;1;3]%Z d) = true /\
  checkOk (run mB (oKeep "symmetricP1")) (fun d => dist_is 6 d && align_is [0;1;2;2]%Z [0;1;2;3]%Z [2;1]%Z d && steps_are [0;1;2]%Z [0;1;3]%Z d) = true.
Proof. exact mixed_runs. Qed.

Example C86_case_last : match run mB (with_rows [0;1;2;5;6;7;3;4]) with UB => true | _ => false end = true /\
  (forall k, In k [1; 2; 3]%Z -> RowSpec.rows_of_production (@rearranged NumF [0;1;2;5;6;7;3;4]) k = RowSpec.rows_of_production (@symmetricP1 NumF) k).
Proof. exact last_matters. Qed.
