(** Properties8.v - C44: accuracy in binary64.

    Only theorem statements, each closed by a lemma proved elsewhere, and concrete cases
    that meet their hypotheses.  See Properties1.v for the arithmetic [N] and [NumLaws]. *)
From Coq Require Import Reals.
From Flocq Require Import BinarySingleNaN.
From Verif Require Import Base Num StepPattern Window Core Backtrack Dtw Spec Api Tables Vocab Terms.
From Verif Require Import NumQ NumQLaws NumF NumFLaws.
From Verif Require Import CoreProof DtwProof ApiThms Thm1 Thm10 Derived Examples Exact Accuracy3 Examples6.
Open Scope string_scope.
Open Scope list_scope.
Open Scope nat_scope.

(** [double fused] is binary64 arithmetic, with separate or fused multiply-add. *)
Theorem C44_double : double false = NumF /\ double true = NumFMA.
Proof. exact (conj double_F double_FMA). Qed.
Print Assumptions C44_double.

(** C44: patterns with weights 0, 1, 2: the distance against the least exact cost. *)
Theorem C44_accuracy : forall (fused : bool) k l cdist x y o (lm : mat (double fused)) d,
  costs_of cdist x y lm -> dtw cdist x y o = Ok d ->
  lookup k pattern_table = Some (r_stepPattern d) -> lookup k predefined = Some l -> In k integer_weights ->
  o_open_begin o = false -> o_open_end o = false ->
  costs_fine lm -> is_finite (r_distance d : f64) = true ->
  exists E, least_exact value false l lm (r_windowFunction d) (r_windowArgs d) (nc lm - 1) E /\
    (Rabs (value (r_distance d) - E) <= ((1 + / 2 ^ 53) ^ (nr lm + nc lm - 2) - 1) * E)%R.
Proof. exact accuracy. Qed.
Print Assumptions C44_accuracy.

(** C44: every predefined pattern with non-negative weights, when no cost is between 0 and 2^-1020. *)
Theorem C44_accuracy_fractions : forall (fused : bool) k l cdist x y o (lm : mat (double fused)) d,
  costs_of cdist x y lm -> dtw cdist x y o = Ok d ->
  lookup k pattern_table = Some (r_stepPattern d) -> lookup k predefined = Some l -> k <> "_symmetricVelichkoZagoruyko" ->
  o_open_begin o = false -> o_open_end o = false ->
  costs_fine lm -> costs_not_tiny lm -> is_finite (r_distance d : f64) = true ->
  exists E, least_exact value false l lm (r_windowFunction d) (r_windowArgs d) (nc lm - 1) E /\
    (Rabs (value (r_distance d) - E) <= ((1 + / 2 ^ 53) ^ (nr lm + nc lm) - 1) * E)%R.
Proof. exact accuracy_fractions. Qed.
Print Assumptions C44_accuracy_fractions.

(** C44: open ends: against the best alignment to the same reference column. *)
Theorem C44_accuracy_open : forall (fused : bool) k l cdist x y o (lm : mat (double fused)) d,
  costs_of cdist x y lm -> dtw cdist x y o = Ok d ->
  lookup k pattern_table = Some (r_stepPattern d) -> lookup k predefined = Some l -> k <> "_symmetricVelichkoZagoruyko" ->
  costs_fine lm -> (In k integer_weights \/ costs_not_tiny lm) -> is_finite (r_distance d : f64) = true ->
  exists E, least_exact value (o_open_begin o) l lm (r_windowFunction d) (r_windowArgs d) (r_jmin d) E /\
    (Rabs (value (r_distance d) - E) <= ((1 + / 2 ^ 53) ^ (nr lm + r_jmin d + 2) - 1) * E)%R.
Proof. exact accuracy_open. Qed.
Print Assumptions C44_accuracy_open.

(** C44: the exact cost R of the returned alignment: the distance is close to R, and R close to the least
    exact cost E. *)
Theorem C44_accuracy_alignment : forall (fused : bool) k l cdist x y o (lm : mat (double fused)) d,
  costs_of cdist x y lm -> dtw cdist x y o = Ok d ->
  lookup k pattern_table = Some (r_stepPattern d) -> lookup k predefined = Some l -> k <> "_symmetricVelichkoZagoruyko" ->
  costs_fine lm -> (In k integer_weights \/ costs_not_tiny lm) -> is_finite (r_distance d : f64) = true ->
  o_distance_only o = false ->
  exists mp ks E R, r_map d = Some mp /\ stepsTaken mp = map Z.of_nat ks /\
    exact_walk value (o_open_begin o) l lm (r_windowFunction d) (r_windowArgs d) ks (exact_end (o_open_begin o) lm (r_jmin d)) R /\
    least_exact value (o_open_begin o) l lm (r_windowFunction d) (r_windowArgs d) (r_jmin d) E /\
    (Rabs (value (r_distance d) - R) <= ((1 + / 2 ^ 53) ^ (nr lm + r_jmin d + 2) - 1) * R)%R /\
    ((1 - / 2 ^ 53) ^ (nr lm + r_jmin d + 2) * R <= (1 + / 2 ^ 53) ^ (nr lm + r_jmin d + 2) * E)%R.
Proof. exact accuracy_alignment. Qed.
Print Assumptions C44_accuracy_alignment.

Example C44_case_costs : costs_fine mTenths /\ costs_not_tiny mTenths.
Proof. exact tenths_fine. Qed.

Example C44_case : succeeds (mTenths : mat NumF) (oKeep "symmetric1") "symmetric1" NoWindow
  (fun d => isfin (r_distance d) && align_is [0;1;2]%Z [0;1;2]%Z [1;1]%Z d &&
     negb (eqb (r_distance d) (div (ofZ 6) (ofZ 10)))).
Proof. exact tenths_run. Qed.

Example C44_case_fractions : succeeds (mTenths : mat NumF) (oKeep "asymmetricP05") "asymmetricP05" NoWindow
  (fun d => isfin (r_distance d) && align_is [0;1;2]%Z [0;1;2]%Z [3;3]%Z d).
Proof. exact tenths_run_fractions. Qed.
