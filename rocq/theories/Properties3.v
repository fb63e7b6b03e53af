(** Properties3.v - C19 to C27: normalization, symmetry, monotonicity, predefined patterns.

    Only theorem statements, each closed by a lemma proved elsewhere, and concrete cases
    that meet their hypotheses.  See Properties1.v for the arithmetic [N] and [NumLaws]. *)
From Coq Require Import Qcanon.
From Verif Require Import Base Num StepPattern Window Core Backtrack Dtw Spec Api Tables Vocab Terms.
From Verif Require Import NumQ NumQLaws NumF NumFLaws.
From Verif Require Import ApiThms Textbook Thm1 Thm3 Thm4 Thm6 Thm7 Bound BoundF Feas Thm8 Thm9 Thm10 Thm11 Thm12 Derived Derived2 Examples Examples2 Thm13.
Open Scope string_scope.
Open Scope list_scope.
Open Scope nat_scope.

(** C19: the weights along any admissible path, plus 1 for the first cell, add up to 1 + al*i + be*j,
    where (al,be) is (1,0) for hint N and (1,1) for hint N+M (hint_law); exact arithmetic. *)
Theorem C19_total_weight : forall k (sp : steppat NumQ) l al be (lm : mat NumQ) w kw ks vs ts i j c,
  lookup k pattern_table = Some sp -> lookup k predefined = Some l -> hint_law (hint sp) = Some (al, be) ->
  closed_walk (productions l) lm w kw ks vs ts (i, j) c ->
  total_weight (productions l) (ofZ 1) ks = ofZ (1 + Z.of_nat (al * i + be * j)).
Proof. exact path_weight. Qed.
Print Assumptions C19_total_weight.

(** C19: hence bounds of the distance by the extreme local costs. *)
Theorem C19_distance_bounds : forall cdist x y o (lm : mat NumQ) d k al be lo hi,
  costs_of cdist x y lm -> dtw cdist x y o = Ok d -> 0 < nr lm ->
  lookup k pattern_table = Some (r_stepPattern d) -> hint_law (hint (r_stepPattern d)) = Some (al, be) ->
  o_open_begin o = false -> isfin lo = true -> isfin hi = true -> costs_between lo hi lm ->
  leb (mul lo (ofZ (1 + Z.of_nat (al * (nr lm - 1) + be * r_jmin d)))) (r_distance d) = true /\
  leb (r_distance d) (mul hi (ofZ (1 + Z.of_nat (al * (nr lm - 1) + be * r_jmin d)))) = true.
Proof. exact distance_bounds. Qed.
Print Assumptions C19_distance_bounds.

(** C19: for hint N the normalized distance lies between the least and the greatest local cost. *)
Theorem C19_average_N : forall cdist x y o (lm : mat NumQ) d k lo hi,
  costs_of cdist x y lm -> dtw cdist x y o = Ok d -> 0 < nr lm ->
  lookup k pattern_table = Some (r_stepPattern d) -> hint (r_stepPattern d) = "N" ->
  isfin lo = true -> isfin hi = true -> costs_between lo hi lm ->
  leb lo (r_normalizedDistance d) = true /\ leb (r_normalizedDistance d) hi = true.
Proof. exact average_N. Qed.
Print Assumptions C19_average_N.

(** C19: the distance for a constant local cost c: c*N for hint N, c*(N+M-1) for N+M (so the normalized
    distance is not the average), c*(3M-2) for M (mori2006). *)
Theorem C19_constant_cost : forall cdist x y o (lm : mat NumQ) d k al be c,
  costs_of cdist x y lm -> dtw cdist x y o = Ok d -> 0 < nr lm ->
  lookup k pattern_table = Some (r_stepPattern d) -> hint_law (hint (r_stepPattern d)) = Some (al, be) ->
  o_open_begin o = false -> isfin c = true -> (forall i j, i < nr lm -> j < nc lm -> cell lm i j = c) ->
  r_distance d = mul c (ofZ (1 + Z.of_nat (al * (nr lm - 1) + be * r_jmin d))).
Proof. exact constant_cost. Qed.
Print Assumptions C19_constant_cost.

Example C19_case : succeeds (ints 3 4 [2;2;2;2; 2;2;2;2; 2;2;2;2]%Z : mat NumQ)
  (named "symmetric2" WTNone [] false false false false) "symmetric2" NoWindow
  (fun d => dist_is 12 d && eqb (r_normalizedDistance d) (div (ofZ 12) (ofZ 7))).
Proof. exact exQ2. Qed.

Example C19_case_N : succeeds (ints 3 4 [1;5;2;4; 3;1;6;2; 4;2;1;1]%Z : mat NumQ)
  (named "asymmetric" WTNone [] false false false false) "asymmetric" NoWindow
  (fun d => dist_is 3 d && eqb (r_normalizedDistance d) (ofZ 1)).
Proof. exact exQa. Qed.

(** C20: transposing costs, window and step pattern. *)
Theorem C20_transposed : forall (N : Num) (L : NumLaws N) cdist x y o (lm : mat N) sp rules w cdist' x' y' o' w',
  well_posed cdist x y o lm sp rules w ->
  o_open_begin o = false -> o_open_end o = false ->
  costs_of cdist' x' y' (transpose nan lm) -> native_array x' y' ->
  pattern_of (o_step_pattern o') (T sp) -> window_of (o_window_type o') w' ->
  window_total w' (o_window_args o') (nc lm) (nr lm) ->
  (forall i j, i < nr lm -> j < nc lm ->
     (in_window w' (o_window_args o') (nc lm) (nr lm) j i <-> in_window w (o_window_args o) (nr lm) (nc lm) i j)) ->
  o_open_begin o' = false -> o_open_end o' = false -> o_distance_only o' = o_distance_only o ->
  o_keep_internals o' = o_keep_internals o ->
  (forall d, dtw cdist x y o = Ok d -> exists d', dtw cdist' x' y' o' = Ok d' /\
      r_distance d' = r_distance d /\ r_normalizedDistance d' = r_normalizedDistance d /\
      r_map d' = option_map swap_mapping (r_map d) /\
      r_costMatrix d' = option_map (transpose nan) (r_costMatrix d) /\
      r_directionMatrix d' = option_map (transpose 0%Z) (r_directionMatrix d)) /\
  (forall e, dtw cdist x y o = Raise e -> dtw cdist' x' y' o' = Raise e).
Proof. exact (fun N L  => @transposed N L). Qed.
Print Assumptions C20_transposed.

(** C20: the symmetric predefined patterns. *)
Theorem C20_symmetric_patterns : forall (N : Num) (L : NumLaws N) cdist x y o (lm : mat N) k sp rules x' y' o',
  well_posed cdist x y o lm sp rules NoWindow ->
  In k symmetric_names -> lookup k pattern_table = Some sp ->
  o_open_begin o = false -> o_open_end o = false ->
  costs_of cdist x' y' (transpose nan lm) -> native_array x' y' ->
  o_step_pattern o' = o_step_pattern o -> o_window_type o' = o_window_type o ->
  o_window_args o' = o_window_args o -> o_open_begin o' = false -> o_open_end o' = false ->
  (forall d, dtw cdist x y o = Ok d ->
    exists d', dtw cdist x' y' o' = Ok d' /\ eqb (r_distance d') (r_distance d) = true) /\
  (dtw cdist x y o = Raise no_path -> dtw cdist x' y' o' = Raise no_path).
Proof. exact (fun N L  => @symmetric_named N L). Qed.
Print Assumptions C20_symmetric_patterns.

(** C20: any pattern closed under transposition, any symmetric window. *)
Theorem C20_symmetric_general : forall (N : Num) (L : NumLaws N) cdist x y o (lm : mat N) sp rules w x' y' o',
  well_posed cdist x y o lm sp rules w -> self_transposed rules ->
  o_open_begin o = false -> o_open_end o = false ->
  costs_of cdist x' y' (transpose nan lm) -> native_array x' y' ->
  o_step_pattern o' = o_step_pattern o -> o_window_type o' = o_window_type o ->
  o_window_args o' = o_window_args o -> o_open_begin o' = false -> o_open_end o' = false ->
  symmetric_window w (o_window_args o) (nr lm) (nc lm) ->
  (forall d, dtw cdist x y o = Ok d ->
    exists d', dtw cdist x' y' o' = Ok d' /\ eqb (r_distance d') (r_distance d) = true) /\
  (dtw cdist x y o = Raise no_path -> dtw cdist x' y' o' = Raise no_path).
Proof. exact (fun N L  => @symmetric_pattern N L). Qed.
Print Assumptions C20_symmetric_general.

Theorem C20_sakoe_chiba_symmetric : forall (N : Num) (ws : N) n m,
  symmetric_window SakoeChiba [("window_size", ws)] n m.
Proof. exact (fun N  => @symmetric_sakoe N). Qed.
Print Assumptions C20_sakoe_chiba_symmetric.

Example C20_case : succeeds mA (oKeep "symmetric2") "symmetric2" NoWindow
  (fun d => dist_is 6 d && align_is [0;1;2;2]%Z [0;1;2;3]%Z [1;1;2]%Z d).
Proof. exact exA. Qed.

Example C20_names : symmetric_names =
  ["symmetric1"; "symmetric2"; "symmetricP0"; "symmetricP05"; "symmetricP1"; "symmetricP2";
   "typeIa"; "typeIb"; "typeId"; "typeIas"; "typeIbs"; "typeIds"; "typeIIa"; "typeIIb"; "typeIId"].
Proof. exact symmetric_names_are. Qed.

(** C21: lowering costs keeps success and does not increase the distance. *)
Theorem C21_raised_costs : forall (N : Num) (L : NumLaws N) cdist x y x' y' o (lm lm' : mat N) d' rules,
  costs_of cdist x y lm -> (o_open_begin o = true \/ native_array x y) ->
  costs_of cdist x' y' lm' -> dtw cdist x' y' o = Ok d' -> pattern_rules (r_stepPattern d') rules ->
  0 < nr lm -> nonneg_weights rules -> nonneg_costs lm -> raised lm lm' -> o_open_end o = false ->
  exists d, dtw cdist x y o = Ok d /\ leb (r_distance d) (r_distance d') = true.
Proof. exact (fun N L  => @raised_closed_end N L). Qed.
Print Assumptions C21_raised_costs.

Theorem C21_raised_costs_open_end : forall (N : Num) (L : NumLaws N) cdist x y x' y' o (lm lm' : mat N) d' rules,
  costs_of cdist x y lm -> (o_open_begin o = true \/ native_array x y) ->
  costs_of cdist x' y' lm' -> dtw cdist x' y' o = Ok d' -> pattern_rules (r_stepPattern d') rules ->
  0 < nr lm -> nonneg_weights rules -> nonneg_costs lm -> raised lm lm' -> o_open_end o = true ->
  exists d, dtw cdist x y o = Ok d /\ leb (r_normalizedDistance d) (r_normalizedDistance d') = true.
Proof. exact (fun N L  => @raised_open_end N L). Qed.
Print Assumptions C21_raised_costs_open_end.

Example C21_case : raised mA mA' /\ nonneg_costs mA /\
  succeeds mA' (oKeep "symmetric2") "symmetric2" NoWindow (fun d => dist_is 10 d).
Proof. exact raised_case. Qed.

(** C22: non-negative costs and weights. *)
Theorem C22_nonnegative : forall (N : Num) (L : NumLaws N) cdist x y o (lm : mat N) d rules,
  costs_of cdist x y lm ->
  dtw cdist x y o = Ok d -> pattern_rules (r_stepPattern d) rules ->
  nonneg_weights rules -> nonneg_costs lm ->
  leb (ofZ 0) (r_distance d) = true /\
  (0 < nr lm -> hint (r_stepPattern d) <> "NA" -> leb (ofZ 0) (r_normalizedDistance d) = true).
Proof. exact (fun N L  => @dtw_nonneg N L). Qed.
Print Assumptions C22_nonnegative.

Theorem C22_nonnegative_named : forall (N : Num) (L : NumLaws N) cdist x y o (lm : mat N) d k,
  costs_of cdist x y lm -> dtw cdist x y o = Ok d ->
  lookup k pattern_table = Some (r_stepPattern d) -> ~ In k negative_names -> nonneg_costs lm ->
  leb (ofZ 0) (r_distance d) = true.
Proof. exact (fun N L  => @nonneg_named N L). Qed.
Print Assumptions C22_nonnegative_named.

(** C22: zero diagonal. *)
Theorem C22_identity : forall (N : Num) (L : NumLaws N) cdist x y o (lm : mat N) sp rules w k r,
  well_posed cdist x y o lm sp rules w ->
  o_open_begin o = false -> o_open_end o = false -> nr lm = nc lm ->
  nonneg_weights rules -> nonneg_costs lm ->
  rule_no rules k = Some r -> diagonal_rule r ->
  (forall i, i < nr lm -> eqb (cell lm i i) (ofZ 0) = true) ->
  (forall i, 0 < i -> i < nr lm -> in_window w (o_window_args o) (nr lm) (nc lm) i i) ->
  exists d, dtw cdist x y o = Ok d /\ eqb (r_distance d) (ofZ 0) = true.
Proof. exact (fun N L  => @dtw_identity N L). Qed.
Print Assumptions C22_identity.

Theorem C22_identity_named : forall (N : Num) (L : NumLaws N) cdist x y o (lm : mat N) k sp rules,
  well_posed cdist x y o lm sp rules NoWindow ->
  lookup k pattern_table = Some sp -> ~ In k negative_names ->
  o_open_begin o = false -> o_open_end o = false -> nr lm = nc lm -> nonneg_costs lm ->
  (forall i, i < nr lm -> eqb (cell lm i i) (ofZ 0) = true) ->
  exists d, dtw cdist x y o = Ok d /\ eqb (r_distance d) (ofZ 0) = true.
Proof. exact (fun N L  => @identity_named N L). Qed.
Print Assumptions C22_identity_named.

Example C22_negative_names : negative_names = ["_symmetricVelichkoZagoruyko"].
Proof. exact negative_names_are. Qed.

Example C22_case : succeeds mSq (oKeep "symmetric2") "symmetric2" NoWindow
  (fun d => dist_is 0 d && align_is [0;1;2]%Z [0;1;2]%Z [1;1]%Z d).
Proof. exact exSq. Qed.

(** C23: multiplying every local cost by c > 0 (exact arithmetic). *)
Theorem C23_scaled : forall c cdist x y o (lm : mat NumQ) sp rules w cdist' x' y',
  (Q2Qc 0 < c)%Qc ->
  well_posed cdist x y o lm sp rules w ->
  costs_of cdist' x' y' (scaled c lm) -> (o_open_begin o = true \/ native_array x' y') ->
  (forall d, dtw cdist x y o = Ok d -> exists d', dtw cdist' x' y' o = Ok d' /\
     r_distance d' = mul (XFin c : NumQ) (r_distance d) /\
     r_normalizedDistance d' = mul (XFin c : NumQ) (r_normalizedDistance d) /\
     r_jmin d' = r_jmin d /\ r_map d' = r_map d /\
     r_costMatrix d' = option_map (scaled c) (r_costMatrix d) /\
     r_directionMatrix d' = r_directionMatrix d) /\
  (forall e, dtw cdist x y o = Raise e -> dtw cdist' x' y' o = Raise e).
Proof. exact scaled_costs. Qed.
Print Assumptions C23_scaled.

Example C23_case : succeeds (ints 3 4 [1;5;2;4; 3;1;6;2; 4;2;1;1]%Z : mat NumQ)
  (named "asymmetric" WTNone [] false false false false) "asymmetric" NoWindow
  (fun d => dist_is 3 d && eqb (r_normalizedDistance d) (ofZ 1)).
Proof. exact exQa. Qed.

(** C24: asymmetric and rigid match every query element exactly once. *)
Theorem C24_one_per_query : forall (N : Num) (L : NumLaws N) cdist x y o (lm : mat N) d k,
  costs_of cdist x y lm -> dtw cdist x y o = Ok d ->
  In k one_per_query -> lookup k pattern_table = Some (r_stepPattern d) ->
  o_distance_only o = false -> 0 < nr lm ->
  exists mp, r_map d = Some mp /\ index1 mp = map Z.of_nat (seq 0 (nr lm)) /\ index1s mp = index1 mp /\
    index2s mp = index2 mp /\ List.length (index2 mp) = nr lm.
Proof. exact (fun N L  => @one_per_query_named N L). Qed.
Print Assumptions C24_one_per_query.

Theorem C24_one_per_query_mvm : forall (N : Num) (L : NumLaws N) cdist x y o (lm : mat N) d e,
  costs_of cdist x y lm -> dtw cdist x y o = Ok d ->
  r_stepPattern d = mvmStepPattern e -> 1 <= e -> (8 * Z.of_nat e <= INT_MAX)%Z ->
  o_distance_only o = false -> 0 < nr lm ->
  exists mp, r_map d = Some mp /\ index1 mp = map Z.of_nat (seq 0 (nr lm)) /\ index1s mp = index1 mp /\
    index2s mp = index2 mp /\ List.length (index2 mp) = nr lm.
Proof. exact (fun N L  => @one_per_query_mvm N L). Qed.
Print Assumptions C24_one_per_query_mvm.

Example C24_names : one_per_query = ["asymmetric"; "rigid"].
Proof. exact one_per_query_are. Qed.

Example C24_case : succeeds mA (oKeep "asymmetric") "asymmetric" NoWindow (fun d => dist_is 3 d).
Proof. exact exAsym. Qed.

(** C25: the table slope_limits gives for each pattern the least and greatest slope; the alignment keeps
    them. *)
Theorem C25_limits_respected : forall (N : Num) (L : NumLaws N) cdist x y o (lm : mat N) d k s sp,
  costs_of cdist x y lm -> dtw cdist x y o = Ok d -> 0 < nr lm ->
  In (k, s) slope_limits -> lookup k pattern_table = Some sp -> r_stepPattern d = sp ->
  o_open_begin o = false ->
  within_limits s (nr lm) (r_jmin d + 1).
Proof. exact (fun N L  => @limits_respected N L). Qed.
Print Assumptions C25_limits_respected.

(** C25: outside the limits every closed call raises. *)
Theorem C25_limits_exceeded : forall (N : Num) (L : NumLaws N) cdist x y o (lm : mat N) k s sp rules w,
  well_posed cdist x y o lm sp rules w -> o_open_begin o = false -> o_open_end o = false ->
  In (k, s) slope_limits -> lookup k pattern_table = Some sp ->
  ~ within_limits s (nr lm) (nc lm) -> dtw cdist x y o = Raise no_path.
Proof. exact (fun N L  => @limits_exceeded N L). Qed.
Print Assumptions C25_limits_exceeded.

(** C25: the limits are sufficient, for every pattern: finite costs in exact arithmetic, costs up to
    2^960 in binary64. *)
Theorem C25_limits_sufficient_exact : forall cdist x y o (lm : mat NumQ) k s sp rules,
  well_posed cdist x y o lm sp rules NoWindow -> o_open_begin o = false -> o_open_end o = false ->
  In (k, s) slope_limits -> lookup k pattern_table = Some sp -> all_finite lm ->
  ((exists d, dtw cdist x y o = Ok d) <-> within_limits s (nr lm) (nc lm)).
Proof. exact limits_sufficient_exact. Qed.
Print Assumptions C25_limits_sufficient_exact.

Theorem C25_limits_sufficient_binary64 : forall cdist x y o (lm : mat NumF) k s sp rules,
  well_posed cdist x y o lm sp rules NoWindow -> o_open_begin o = false -> o_open_end o = false ->
  In (k, s) slope_limits -> lookup k pattern_table = Some sp -> moderate lm ->
  ((exists d, dtw cdist x y o = Ok d) <-> within_limits s (nr lm) (nc lm)).
Proof. exact limits_sufficient_binary64. Qed.
Print Assumptions C25_limits_sufficient_binary64.

Theorem C25_limits_sufficient_fma : forall cdist x y o (lm : mat NumFMA) k s sp rules,
  well_posed cdist x y o lm sp rules NoWindow -> o_open_begin o = false -> o_open_end o = false ->
  In (k, s) slope_limits -> lookup k pattern_table = Some sp -> moderate lm ->
  ((exists d, dtw cdist x y o = Ok d) <-> within_limits s (nr lm) (nc lm)).
Proof. exact limits_sufficient_fma. Qed.
Print Assumptions C25_limits_sufficient_fma.

(** C25: the other patterns align series of any lengths. *)
Theorem C25_unlimited_exact : forall cdist x y o (lm : mat NumQ) k sp rules,
  well_posed cdist x y o lm sp rules NoWindow -> o_open_begin o = false -> o_open_end o = false ->
  In k unlimited -> lookup k pattern_table = Some sp -> all_finite lm ->
  exists d, dtw cdist x y o = Ok d.
Proof. exact unlimited_exact. Qed.
Print Assumptions C25_unlimited_exact.

Theorem C25_unlimited_binary64 : forall cdist x y o (lm : mat NumF) k sp rules,
  well_posed cdist x y o lm sp rules NoWindow -> o_open_begin o = false -> o_open_end o = false ->
  In k unlimited -> lookup k pattern_table = Some sp -> moderate lm ->
  exists d, dtw cdist x y o = Ok d.
Proof. exact unlimited_binary64. Qed.
Print Assumptions C25_unlimited_binary64.

Theorem C25_unlimited_fma : forall cdist x y o (lm : mat NumFMA) k sp rules,
  well_posed cdist x y o lm sp rules NoWindow -> o_open_begin o = false -> o_open_end o = false ->
  In k unlimited -> lookup k pattern_table = Some sp -> moderate lm ->
  exists d, dtw cdist x y o = Ok d.
Proof. exact unlimited_fma. Qed.
Print Assumptions C25_unlimited_fma.

Theorem C25_every_pattern : forall k (sp : steppat NumQ), In (k, sp) pattern_table ->
  In k unlimited \/ exists s, In (k, s) slope_limits.
Proof. exact limits_cover. Qed.
Print Assumptions C25_every_pattern.

Example C25_unlimited_names : unlimited =
  ["symmetric1"; "symmetric2"; "symmetricP0"; "asymmetricP0"; "_asymmetricP0b"; "_symmetricVelichkoZagoruyko"].
Proof. exact unlimited_are. Qed.

Example C25_table : slope_limits =
 [ ("asymmetric",          Limits 0 1 2 1);
    ("_asymmetricItakura",  Limits 1 2 2 1);
    ("symmetricP05",        Limits 1 3 3 1);
    ("asymmetricP05",       Limits 1 3 3 1);
    ("symmetricP1",         Limits 1 2 2 1);
    ("asymmetricP1",        Limits 1 2 2 1);
    ("symmetricP2",         Limits 2 3 3 2);
    ("asymmetricP2",        Limits 2 3 3 2);
    ("typeIa",              Limits 1 2 2 1);
    ("typeIb",              Limits 1 2 2 1);
    ("typeIc",              Limits 1 2 2 1);
    ("typeId",              Limits 1 2 2 1);
    ("typeIas",             Limits 1 2 2 1);
    ("typeIbs",             Limits 1 2 2 1);
    ("typeIcs",             Limits 1 2 2 1);
    ("typeIds",             Limits 1 2 2 1);
    ("typeIIa",             Limits 1 2 2 1);
    ("typeIIb",             Limits 1 2 2 1);
    ("typeIIc",             Limits 1 2 2 1);
    ("typeIId",             Limits 1 2 2 1);
    ("typeIIIc",            Limits 1 2 2 1);
    ("typeIVc",             Limits 1 3 3 1);
    ("mori2006",            Limits 1 2 2 1);
    ("rigid",               Limits 1 1 1 1) ].
Proof. exact slope_limits_are. Qed.

Example C25_case : succeeds mB (oKeep "symmetricP1") "symmetricP1" NoWindow
  (fun d => dist_is 6 d && align_is [0;1;2;2]%Z [0;1;2;3]%Z [2;1]%Z d && steps_are [0;1;2]%Z [0;1;3]%Z d).
Proof. exact exB. Qed.

(** C26: the textbook definition (Textbook.v); symmetric1 counts diagonal steps once, symmetric2 twice. *)
Theorem C26_symmetric1_textbook : forall (N : Num) (L : NumLaws N) cdist x y o (lm : mat N) d,
  costs_of cdist x y lm -> dtw cdist x y o = Ok d ->
  r_stepPattern d = symmetric1 -> r_windowFunction d = NoWindow ->
  o_open_begin o = false -> o_open_end o = false -> o_distance_only o = false -> 0 < nr lm ->
  textbook_optimum 1 lm d.
Proof. exact (fun N L  => @symmetric1_optimum N L). Qed.
Print Assumptions C26_symmetric1_textbook.

Theorem C26_symmetric2_textbook : forall (N : Num) (L : NumLaws N) cdist x y o (lm : mat N) d,
  costs_of cdist x y lm -> dtw cdist x y o = Ok d ->
  r_stepPattern d = symmetric2 -> r_windowFunction d = NoWindow ->
  o_open_begin o = false -> o_open_end o = false -> o_distance_only o = false -> 0 < nr lm ->
  textbook_optimum 2 lm d.
Proof. exact (fun N L  => @symmetric2_optimum N L). Qed.
Print Assumptions C26_symmetric2_textbook.

(** C26: a path always exists for costs up to 2^960 (names: C25_unlimited_names). *)
Theorem C26_always_found_binary64 : forall cdist x y o (lm : mat NumF) k sp rules,
  well_posed cdist x y o lm sp rules NoWindow -> o_open_begin o = false -> o_open_end o = false ->
  In k unlimited -> lookup k pattern_table = Some sp -> moderate lm ->
  exists d, dtw cdist x y o = Ok d.
Proof. exact unlimited_binary64. Qed.
Print Assumptions C26_always_found_binary64.

Theorem C26_always_found_fma : forall cdist x y o (lm : mat NumFMA) k sp rules,
  well_posed cdist x y o lm sp rules NoWindow -> o_open_begin o = false -> o_open_end o = false ->
  In k unlimited -> lookup k pattern_table = Some sp -> moderate lm ->
  exists d, dtw cdist x y o = Ok d.
Proof. exact unlimited_fma. Qed.
Print Assumptions C26_always_found_fma.

Theorem C26_always_found_exact : forall cdist x y o (lm : mat NumQ) k sp rules,
  well_posed cdist x y o lm sp rules NoWindow -> o_open_begin o = false -> o_open_end o = false ->
  In k unlimited -> lookup k pattern_table = Some sp -> all_finite lm ->
  exists d, dtw cdist x y o = Ok d.
Proof. exact unlimited_exact. Qed.
Print Assumptions C26_always_found_exact.

Example C26_case : succeeds mA (oKeep "symmetric2") "symmetric2" NoWindow
  (fun d => dist_is 6 d && align_is [0;1;2;2]%Z [0;1;2;3]%Z [1;1;2]%Z d).
Proof. exact exA. Qed.

Example C26_case_symmetric1 : succeeds mA (oKeep "symmetric1") "symmetric1" NoWindow (fun d => dist_is 4 d).
Proof. exact exS1. Qed.

(** C27: minimum variance matching. *)
Theorem C27_mvm_alignment : forall (N : Num) (L : NumLaws N) cdist x y o (lm : mat N) d e,
  costs_of cdist x y lm ->
  dtw cdist x y o = Ok d -> r_stepPattern d = mvmStepPattern e -> 1 <= e -> (8 * Z.of_nat e <= INT_MAX)%Z ->
  o_distance_only o = false -> o_open_begin o = false -> 0 < nr lm ->
  exists mp, r_map d = Some mp /\ index1 mp = map Z.of_nat (seq 0 (nr lm)) /\
    List.length (index2 mp) = nr lm /\ first_is 0 (index2 mp) /\ last_is (Z.of_nat (r_jmin d)) (index2 mp) /\
    (o_open_end o = false -> r_jmin d = nc lm - 1) /\
    forall t j j', nth_error (index2 mp) t = Some j -> nth_error (index2 mp) (S t) = Some j' ->
      (j + 1 <= j' <= j + Z.of_nat e)%Z.
Proof. exact (fun N L  => @mvm_alignment N L). Qed.
Print Assumptions C27_mvm_alignment.

Theorem C27_mvm_limits : forall (N : Num) (L : NumLaws N) cdist x y o (lm : mat N) sp rules w e,
  well_posed cdist x y o lm sp rules w -> sp = mvmStepPattern e -> 1 <= e -> (8 * Z.of_nat e <= INT_MAX)%Z ->
  o_open_begin o = false -> o_open_end o = false ->
  ~ (nr lm - 1 <= nc lm - 1 <= e * (nr lm - 1)) -> dtw cdist x y o = Raise no_path.
Proof. exact (fun N L  => @mvm_limits N L). Qed.
Print Assumptions C27_mvm_limits.

Theorem C27_mvm_feasible_exact : forall cdist x y o (lm : mat NumQ) sp rules e,
  well_posed cdist x y o lm sp rules NoWindow -> sp = mvmStepPattern e -> 1 <= e -> (8 * Z.of_nat e <= INT_MAX)%Z ->
  o_open_begin o = false -> o_open_end o = false -> all_finite lm ->
  ((exists d, dtw cdist x y o = Ok d) <-> nr lm - 1 <= nc lm - 1 <= e * (nr lm - 1)).
Proof. exact mvm_feasible_exact. Qed.
Print Assumptions C27_mvm_feasible_exact.

Theorem C27_mvm_feasible_binary64 : forall cdist x y o (lm : mat NumF) sp rules e,
  well_posed cdist x y o lm sp rules NoWindow -> sp = mvmStepPattern e -> 1 <= e -> (8 * Z.of_nat e <= INT_MAX)%Z ->
  o_open_begin o = false -> o_open_end o = false -> moderate lm ->
  ((exists d, dtw cdist x y o = Ok d) <-> nr lm - 1 <= nc lm - 1 <= e * (nr lm - 1)).
Proof. exact mvm_feasible_binary64. Qed.
Print Assumptions C27_mvm_feasible_binary64.

Example C27_case : well_posed no_cdist (arr mA) None (oMvm 3) mA (mvmStepPattern 3) (productions (mvm_productions 3)) NoWindow /\
  checkOk (run mA (oMvm 3)) (fun d => dist_is 3 d && align_is [0;1;2]%Z [0;1;3]%Z [1;2]%Z d) = true.
Proof. exact exMvm. Qed.
