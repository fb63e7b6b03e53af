(** Properties28.v - C84: the number of points of an alignment.

    Only theorem statements, each closed by a lemma proved elsewhere, and concrete cases
    that meet their hypotheses.  See Properties1.v for the arithmetic [N] and [NumLaws]. *)
From Verif Require Import Base Num StepPattern Window Core Backtrack Dtw Spec Api Tables Vocab Terms.
From Verif Require Import NumQ NumQLaws NumF NumFLaws.
From Verif Require Import WarpSpec SeriesSpec PointsSpec Points Examples Examples2 Examples27.
Open Scope string_scope.
Open Scope list_scope.
Open Scope nat_scope.

(** C84: any step pattern that lists no point twice. *)
Theorem C84_length : forall (N : Num) (L : NumLaws N) cdist x y o (lm : mat N) d rules,
  costs_of cdist x y lm -> dtw cdist x y o = Ok d ->
  pattern_rules (r_stepPattern d) rules -> o_distance_only o = false -> no_point_twice rules ->
  exists mp, r_map d = Some mp /\ advances (index1 mp) (index2 mp) /\
    List.length (stepsTaken mp) <= List.length (index1 mp) /\ List.length (index1 mp) = List.length (index2 mp) /\
    List.length (index1 mp) <= nr lm + r_jmin d.
Proof. exact (fun N L  => @alignment_length N L). Qed.
Print Assumptions C84_length.

(** C84: every predefined step pattern. *)
Theorem C84_length_named : forall (N : Num) (L : NumLaws N) cdist x y o (lm : mat N) d k,
  costs_of cdist x y lm -> dtw cdist x y o = Ok d ->
  lookup k pattern_table = Some (r_stepPattern d) -> o_distance_only o = false ->
  exists mp, r_map d = Some mp /\ advances (index1 mp) (index2 mp) /\
    List.length (stepsTaken mp) <= List.length (index1 mp) /\ List.length (index1 mp) = List.length (index2 mp) /\
    List.length (index1 mp) <= nr lm + r_jmin d.
Proof. exact (fun N L  => @alignment_length_named N L). Qed.
Print Assumptions C84_length_named.

(** C84: mvmStepPattern(e). *)
Theorem C84_length_mvm : forall (N : Num) (L : NumLaws N) cdist x y o (lm : mat N) d e,
  costs_of cdist x y lm -> dtw cdist x y o = Ok d ->
  r_stepPattern d = mvmStepPattern e -> 1 <= e -> (8 * Z.of_nat e <= INT_MAX)%Z -> o_distance_only o = false ->
  exists mp, r_map d = Some mp /\ advances (index1 mp) (index2 mp) /\
    List.length (stepsTaken mp) <= List.length (index1 mp) /\ List.length (index1 mp) = List.length (index2 mp) /\
    List.length (index1 mp) <= nr lm + r_jmin d.
Proof. exact (fun N L  => @alignment_length_mvm N L). Qed.
Print Assumptions C84_length_mvm.

(** C84: step patterns whose productions leave out no sample. *)
Theorem C84_all_matched : forall (N : Num) (L : NumLaws N) cdist x y o (lm : mat N) d rules,
  costs_of cdist x y lm -> dtw cdist x y o = Ok d ->
  pattern_rules (r_stepPattern d) rules -> o_distance_only o = false -> 0 < nr lm ->
  exists mp, r_map d = Some mp /\
    (gapless true rules -> (forall i, i < nr lm -> In (Z.of_nat i) (index1 mp)) /\ nr lm <= List.length (index1 mp)) /\
    (gapless false rules -> exists j0, first_is j0 (index2 mp) /\ (o_open_begin o = false -> j0 = 0%Z) /\
       (forall j, j0 <= j <= Z.of_nat (r_jmin d) -> In j (index2 mp))%Z /\
       (Z.of_nat (r_jmin d) + 1 - j0 <= Z.of_nat (List.length (index2 mp)))%Z).
Proof. exact (fun N L  => @all_matched N L). Qed.
Print Assumptions C84_all_matched.

(** C84: the predefined step patterns. *)
Theorem C84_all_matched_named : forall (N : Num) (L : NumLaws N) cdist x y o (lm : mat N) d k,
  costs_of cdist x y lm -> dtw cdist x y o = Ok d ->
  lookup k pattern_table = Some (r_stepPattern d) -> o_distance_only o = false -> 0 < nr lm ->
  exists mp, r_map d = Some mp /\
    (In k (gapless_names true) -> (forall i, i < nr lm -> In (Z.of_nat i) (index1 mp)) /\ nr lm <= List.length (index1 mp)) /\
    (In k (gapless_names false) -> exists j0, first_is j0 (index2 mp) /\ (o_open_begin o = false -> j0 = 0%Z) /\
       (forall j, j0 <= j <= Z.of_nat (r_jmin d) -> In j (index2 mp))%Z /\
       (Z.of_nat (r_jmin d) + 1 - j0 <= Z.of_nat (List.length (index2 mp)))%Z).
Proof. exact (fun N L  => @all_matched_named N L). Qed.
Print Assumptions C84_all_matched_named.

Example C84_case_longest : succeeds stairs27 (named "symmetric2" WTNone [] true false false false) "symmetric2" NoWindow
  (fun d => align_is [0;1;1;2;2]%Z [0;0;1;1;2]%Z [3;2;3;2]%Z d && (r_jmin d =? 2)).
Proof. exact longest27. Qed.

Example C84_case_shortest : succeeds diag27 (named "symmetric2" WTNone [] true false true false) "symmetric2" NoWindow
    (fun d => align_is [0;1;2]%Z [0;1;2]%Z [1;1]%Z d && (r_jmin d =? 2)) /\
  succeeds diag27 (named "asymmetricP05" WTNone [] true false true true) "asymmetricP05" NoWindow
    (fun d => align_is [0;1;2]%Z [1;1;2]%Z [4;3]%Z d) /\
  In "asymmetricP05" (gapless_names true) /\ In "asymmetricP05" (gapless_names false).
Proof. exact shortest27. Qed.

Example C84_case_skips : succeeds jump27 (named "typeIIa" WTNone [] true false false false) "typeIIa" NoWindow
    (align_is [0;1]%Z [0;2]%Z [2]%Z) /\ ~ In "typeIIa" (gapless_names false).
Proof. exact skips27. Qed.

Example C84_case_mvm : checkOk (run diag27 (mkOpts (SPObj (mvmStepPattern 2)) WTNone [] true false true true))
   (fun d => negb (dist_is 9 d) && match r_map d with Some mp => List.length (index1 mp) =? 3 | None => false end) = true.
Proof. exact mvm27. Qed.
