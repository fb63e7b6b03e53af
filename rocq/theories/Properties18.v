(** Properties18.v - C67: accuracy of the normalized distance.

    Only theorem statements, each closed by a lemma proved elsewhere, and concrete cases
    that meet their hypotheses.  See Properties1.v for the arithmetic [N] and [NumLaws]. *)
From Coq Require Import Reals.
From Flocq Require Import BinarySingleNaN.
From Verif Require Import Base Num StepPattern Window Core Backtrack Dtw Spec Api Tables Vocab Terms.
From Verif Require Import NumQ NumQLaws NumF NumFLaws.
From Verif Require Import CoreProof DtwProof ApiThms Thm1 Thm10 Derived Examples Exact LengthSpec Accuracy4 Examples6 Examples16.
Open Scope string_scope.
Open Scope list_scope.
Open Scope nat_scope.

(** C67: the normalized distance against the least exact cost to the same end column, divided exactly by
    the length the hint names (2^-1075: underflow of the division). *)
Theorem C67_normalized : forall (fused : bool) k l cdist x y o (lm : mat (double fused)) d,
  costs_of cdist x y lm -> dtw cdist x y o = Ok d ->
  lookup k pattern_table = Some (r_stepPattern d) -> lookup k predefined = Some l -> k <> "_symmetricVelichkoZagoruyko" ->
  hint (r_stepPattern d) <> "NA" -> 0 < nr lm ->
  costs_fine lm -> (In k integer_weights \/ costs_not_tiny lm) -> is_finite (r_distance d : f64) = true ->
  exists E, least_exact value (o_open_begin o) l lm (r_windowFunction d) (r_windowArgs d) (r_jmin d) E /\
    let e := (E / INR (path_length (hint (r_stepPattern d)) (nr lm) (r_jmin d)))%R in
    (Rabs (value (r_normalizedDistance d) - e) <= ((1 + / 2 ^ 53) ^ (nr lm + r_jmin d + 3) - 1) * e + / 2 ^ 1075)%R.
Proof. exact accuracy_normalized. Qed.
Print Assumptions C67_normalized.

(** C67: open end: the normalized distance against the least exact normalized cost over all end columns. *)
Theorem C67_open_end : forall (fused : bool) k l cdist x y o (lm : mat (double fused)) d j E,
  costs_of cdist x y lm -> dtw cdist x y o = Ok d ->
  lookup k pattern_table = Some (r_stepPattern d) -> lookup k predefined = Some l -> k <> "_symmetricVelichkoZagoruyko" ->
  o_open_end o = true -> 0 < nr lm ->
  costs_fine lm -> (In k integer_weights \/ costs_not_tiny lm) -> is_finite (r_distance d : f64) = true ->
  let least i v := least_exact value (o_open_begin o) l lm (r_windowFunction d) (r_windowArgs d) i v in
  let norm i v := (v / INR (path_length (hint (r_stepPattern d)) (nr lm) i))%R in
  j < nc lm -> least j E -> (forall i v, i < nc lm -> least i v -> (norm j E <= norm i v)%R) ->
  ((1 + / 2 ^ 53) ^ (nr lm + nc lm + 1) * E < 2 ^ 1024)%R ->
  (Rabs (value (r_normalizedDistance d) - norm j E) <= ((1 + / 2 ^ 53) ^ (nr lm + nc lm + 2) - 1) * norm j E + / 2 ^ 1075)%R.
Proof. exact accuracy_open_end. Qed.
Print Assumptions C67_open_end.

(** C67: a column of least exact normalized cost exists. *)
Theorem C67_open_end_exists : forall (fused : bool) k l cdist x y o (lm : mat (double fused)) d,
  costs_of cdist x y lm -> dtw cdist x y o = Ok d ->
  lookup k pattern_table = Some (r_stepPattern d) -> lookup k predefined = Some l -> k <> "_symmetricVelichkoZagoruyko" ->
  costs_fine lm -> (In k integer_weights \/ costs_not_tiny lm) -> is_finite (r_distance d : f64) = true ->
  let least i v := least_exact value (o_open_begin o) l lm (r_windowFunction d) (r_windowArgs d) i v in
  let norm i v := (v / INR (path_length (hint (r_stepPattern d)) (nr lm) i))%R in
  exists j E, j < nc lm /\ least j E /\ forall i v, i < nc lm -> least i v -> (norm j E <= norm i v)%R.
Proof. exact best_column_exists. Qed.
Print Assumptions C67_open_end_exists.

(** C67: open end: no end column has a noticeably smaller exact normalized cost than the reported one. *)
Theorem C67_end_column : forall (fused : bool) k l cdist x y o (lm : mat (double fused)) d j E,
  costs_of cdist x y lm -> dtw cdist x y o = Ok d ->
  lookup k pattern_table = Some (r_stepPattern d) -> lookup k predefined = Some l -> k <> "_symmetricVelichkoZagoruyko" ->
  o_open_end o = true -> 0 < nr lm ->
  costs_fine lm -> (In k integer_weights \/ costs_not_tiny lm) -> is_finite (r_distance d : f64) = true ->
  j < nc lm -> least_exact value (o_open_begin o) l lm (r_windowFunction d) (r_windowArgs d) j E ->
  ((1 + / 2 ^ 53) ^ (nr lm + j + 2) * E < 2 ^ 1024)%R ->
  (value (r_normalizedDistance d) <=
     (1 + / 2 ^ 53) ^ (nr lm + j + 3) * (E / INR (path_length (hint (r_stepPattern d)) (nr lm) j)) + / 2 ^ 1075)%R.
Proof. exact accuracy_end_column. Qed.
Print Assumptions C67_end_column.

Example C67_case_costs : costs_fine mTenths4 /\ costs_not_tiny mTenths4.
Proof. exact tenths4_fine. Qed.

Example C67_case : succeeds (mTenths4 : mat NumF) (named "symmetric2" WTNone [] true false true false) "symmetric2" NoWindow
  (fun d => isfin (r_distance d) && align_is [0;1;2]%Z [0;1;2]%Z [1;1]%Z d && (r_jmin d =? 2)%nat &&
     negb (eqb (r_normalizedDistance d) (div (ofZ 11) (ofZ 60)))).
Proof. exact tenths4_run. Qed.
