(** Properties5.v - C37 to C43: native core, calling conventions, names.

    Only theorem statements, each closed by a lemma proved elsewhere, and concrete cases
    that meet their hypotheses.  See Properties1.v for the arithmetic [N] and [NumLaws]. *)
From Verif Require Import Base Num StepPattern Window Core Backtrack Dtw Spec Api Tables Vocab Terms.
From Verif Require Import NumQ NumQLaws NumF NumFLaws.
From Verif Require Import ApiThms CoreProof DtwProof Thm1 Thm3 Thm4 Thm5 Thm8 Thm10 Derived Thm14 Thm15 Examples Examples3.
Open Scope string_scope.
Open Scope list_scope.
Open Scope nat_scope.

(** C37: for every well-formed pattern, whatever the costs, window and options, a call whose matrix of
    cumulative costs has at most 2^31-1 cells returns a value or raises a Python exception: [safe] excludes
    every undefined behaviour of the C code (index out of the arrays, int overflow), process exit and fuel
    exhaustion.  The hypotheses on cdist and on a user-supplied window say the same of those callables. *)
Theorem C37_no_fault : forall (N : Num) (L : NumLaws N) cdist x y (o : opts N),
  (forall a b, safe (cdist a b)) -> (forall a b lm, cdist a b = Ok lm -> wf_mat lm) ->
  (forall lm, nd_val x = Nd2 lm -> wf_mat lm) ->
  (forall sp, pattern_of (o_step_pattern o) sp -> exists rules, pattern_rules sp rules) ->
  (forall w, o_window_type o = WTFun w -> safe_window w) ->
  (forall lm, costs_of cdist x y lm -> (Z.of_nat (rows_used (o_open_begin o) lm) * Z.of_nat (nc lm) <= INT_MAX)%Z) ->
  safe (dtw cdist x y o).
Proof. exact (fun N L  => @always_returns N L). Qed.
Print Assumptions C37_no_fault.

(** C37, C12: on well posed problems only three outcomes are possible. *)
Theorem C37_outcome : forall (N : Num) (L : NumLaws N) cdist x y o (lm : mat N) sp rules w,
  well_posed cdist x y o lm sp rules w ->
  (exists d, dtw cdist x y o = Ok d) \/ dtw cdist x y o = Raise no_path \/
  dtw cdist x y o = Raise (ValueError "All-NaN slice encountered").
Proof. exact (fun N L  => @well_posed_outcome N L). Qed.
Print Assumptions C37_outcome.

(** C37: a pattern id that is not between 1 and the number of rows terminates the process. *)
Theorem C37_bad_id_exits : forall (N : Num) cdist x y o (lm : mat N) sp w,
  costs_of cdist x y lm -> native_array x y ->
  pattern_of (o_step_pattern o) sp -> window_of (o_window_type o) w ->
  window_total w (o_window_args o) (nr lm) (nc lm) -> o_open_begin o = false ->
  0 < nr lm -> 0 < nc lm -> (Z.of_nat (nr lm) <= INT_MAX)%Z -> (Z.of_nat (nc lm) <= INT_MAX)%Z ->
  int_pattern sp ->
  (exists r z, In r (mx sp) /\ is_int (c0 r) z /\ ~ (1 <= z <= Z.of_nat (List.length (mx sp)))%Z) ->
  dtw cdist x y o = Exit.
Proof. exact (fun N  => @bad_id_exits N). Qed.
Print Assumptions C37_bad_id_exits.

(** C37: the size limit is sharp: with more cells than INT_MAX the core computes an overflowing int. *)
Theorem C37_oversized : forall (N : Num) (L : NumLaws N) cdist x y o (lm : mat N) sp rules w,
  costs_of cdist x y lm -> native_array x y ->
  pattern_of (o_step_pattern o) sp -> window_of (o_window_type o) w ->
  window_total w (o_window_args o) (nr lm) (nc lm) -> o_open_begin o = false ->
  (Z.of_nat (nr lm) <= INT_MAX)%Z -> (Z.of_nat (nc lm) <= INT_MAX)%Z ->
  (Z.of_nat (nr lm) * Z.of_nat (nc lm) > INT_MAX)%Z -> pattern_rules sp rules ->
  dtw cdist x y o = UB.
Proof. exact (fun N L  => @oversized_overflows N L). Qed.
Print Assumptions C37_oversized.

(** C37: a negative displacement: undefined behaviour. *)
Theorem C37_negative_step : run (ints 2 2 [1;2;3;4]%Z) (with_rows [zrow 1 (-1) 0 (-1); zrow 1 0 0 1]) = UB.
Proof. exact negative_step_ub. Qed.

(** C37: non-ascending ids: undefined behaviour. *)
Theorem C37_descending_ids : run (ints 2 2 [1;2;3;4]%Z) (with_rows [zrow 2 1 1 (-1); zrow 2 0 0 1; zrow 1 0 1 (-1); zrow 1 0 0 1]) = UB.
Proof. exact descending_ids_ub. Qed.

Theorem C37_zero_id : run (ints 2 2 [1;2;3;4]%Z) (with_rows [zrow 0 1 1 (-1); zrow 0 0 0 1]) = Exit.
Proof. exact zero_id_exit. Qed.

Example C37_case_bad_id : int_pattern (StepPat [zrow 7 1 1 (-1); zrow 7 0 0 1] "NA") /\
  exists r z, In r (mx (StepPat [zrow 7 1 1 (-1); zrow 7 0 0 1] "NA")) /\ is_int (c0 r) z /\ ~ (1 <= z <= 2)%Z.
Proof. exact bad_id_case. Qed.

Example C37_case : checkOk (dtw city (series [1;3;4;9]%Z) (Some (series [1;3;7;8;9]%Z)) default_opts)
  (fun d => dist_is 6 d && align_is [0;1;2;2;3;3]%Z [0;1;1;2;3;4]%Z [1;3;2;1;2]%Z d) = true.
Proof. exact two_series. Qed.

Example C37_case_cdist : (forall a b, safe (city a b)) /\ forall a b lm, city a b = Ok lm -> wf_mat lm.
Proof. exact city_ok. Qed.

(** C38: the backtracking loop takes at most (rows - 1) + jmin steps.  (That it always terminates is part of
    C37_no_fault: [safe] excludes fuel exhaustion.) *)
Theorem C38_terminates : forall (N : Num) (L : NumLaws N) cdist x y o (lm : mat N) d rules,
  costs_of cdist x y lm -> dtw cdist x y o = Ok d -> pattern_rules (r_stepPattern d) rules ->
  o_distance_only o = false ->
  exists mp, r_map d = Some mp /\
    List.length (stepsTaken mp) <= rows_used (o_open_begin o) lm - 1 + r_jmin d.
Proof. exact (fun N L  => @backtrack_steps N L). Qed.
Print Assumptions C38_terminates.

Example C38_case : checkOk (dtw city (series [1;3;4;9]%Z) (Some (series [1;3;7;8;9]%Z)) default_opts)
  (fun d => dist_is 6 d && align_is [0;1;2;2;3;3]%Z [0;1;1;2;3;4]%Z [1;3;2;1;2]%Z d) = true.
Proof. exact two_series. Qed.

(** C39: each step taken moves along the query by the second and along the reference by the third column
    of the starting row of the production it names. *)
Theorem C39_convention : forall (N : Num) (L : NumLaws N) cdist x y o (lm : mat N) d rules,
  costs_of cdist x y lm ->
  dtw cdist x y o = Ok d -> pattern_rules (r_stepPattern d) rules -> o_distance_only o = false ->
  o_open_begin o = false ->
  exists mp, r_map d = Some mp /\
  forall t k, nth_error (stepsTaken mp) t = Some k ->
  exists i j i' j', nth_error (index1s mp) t = Some i /\ nth_error (index2s mp) t = Some j /\
    nth_error (index1s mp) (S t) = Some i' /\ nth_error (index2s mp) (S t) = Some j' /\
    In (Row (ofZ k) (ofZ (i' - i)) (ofZ (j' - j)) (ofZ (-1))) (mx (r_stepPattern d)).
Proof. exact (fun N L  => @steps_follow_table N L). Qed.
Print Assumptions C39_convention.

Example C39_case : succeeds mA (oKeep "asymmetric") "asymmetric" NoWindow
  (fun d => align_is [0;1;2]%Z [0;1;3]%Z [2;3]%Z d).
Proof. exact convention_case. Qed.

(** C40. *)
Theorem C40_two_arguments : forall (N : Num) cdist cdist' x y xm ym lm (o : opts N),
  matrix_of (nd_val x) = Some xm -> matrix_of (nd_val y) = Some ym -> cdist xm ym = Ok lm ->
  dtw cdist' (NdArray (Nd2 lm) true true) None o =
  omap without_series (dtw cdist x (Some y) o).
Proof. exact (fun N  => @two_arguments N). Qed.
Print Assumptions C40_two_arguments.

Theorem C40_too_many_dimensions : forall (N : Num) cdist x y (o : opts N),
  (exists n, nd_val x = NdMore n) \/ (exists n, nd_val y = NdMore n) ->
  dtw cdist x (Some y) o = Raise (ValueError "Input arrays should be 1 or 2 dimensional").
Proof. exact (fun N  => @too_many_dimensions N). Qed.
Print Assumptions C40_too_many_dimensions.

Theorem C40_not_a_matrix : forall (N : Num) cdist x (o : opts N),
  (forall lm, nd_val x <> Nd2 lm) ->
  dtw cdist x None o = Raise (ValueError "A 2D local distance matrix was expected").
Proof. exact (fun N  => @not_a_matrix N). Qed.
Print Assumptions C40_not_a_matrix.

Example C40_case : checkOk (dtw city (series [1;3;4;9]%Z) (Some (series [1;3;7;8;9]%Z)) default_opts)
  (fun d => dist_is 6 d && align_is [0;1;2;2;3;3]%Z [0;1;1;2;3;4]%Z [1;3;2;1;2]%Z d) = true.
Proof. exact two_series. Qed.

Example C40_case_costs : exists lm, costs_of city (series [1;3;4;9]%Z) (Some (series [1;3;7;8;9]%Z)) lm /\
  nr lm = 4 /\ nc lm = 5 /\
  forallb (fun p => eqb (fst p) (snd p)) (combine (dat lm) (map ofZ [0;2;6;7;8; 2;0;4;5;6; 3;1;3;4;5; 8;6;2;1;0]%Z)) = true.
Proof. exact two_series_costs. Qed.

(** C41. *)
Theorem C41_never : forall (N : Num) cdist x (o : opts N) d,
  o_open_begin o = false ->
  is_double x = false \/ is_corder x = false -> dtw cdist x None o <> Ok d.
Proof. exact (fun N  => @wrong_layout_never N). Qed.
Print Assumptions C41_never.

Theorem C41_message : forall (N : Num) cdist x o (lm : mat N) sp w,
  nd_val x = Nd2 lm -> wf_mat lm ->
  is_double x = false \/ is_corder x = false ->
  pattern_of (o_step_pattern o) sp -> window_of (o_window_type o) w ->
  window_total w (o_window_args o) (nr lm) (nc lm) -> size_ok (nr lm) (nc lm) -> o_open_begin o = false ->
  dtw cdist x None o = Raise (ValueError "Buffer dtype mismatch or ndarray is not C-contiguous").
Proof. exact (fun N  => @wrong_layout_msg N). Qed.
Print Assumptions C41_message.

Example C41_case : forall o : opts NumF, o_open_begin o = false ->
  forall d, dtw no_cdist (NdArray (Nd2 mA) true false) None o <> Ok d.
Proof. exact wrong_layout_case. Qed.

(** C42: no charged cell is NaN or +infinity. *)
Theorem C42_obstacles : forall (N : Num) (L : NumLaws N) cdist x y o (lm : mat N) d rules,
  costs_of cdist x y lm ->
  dtw cdist x y o = Ok d -> pattern_rules (r_stepPattern d) rules ->
  o_distance_only o = false -> o_open_begin o = false -> nonneg_weights rules ->
  exists mp, r_map d = Some mp /\ isnan (cell lm 0 0) = false /\
    (stepsTaken mp <> [] -> good (cell lm 0 0)) /\
    forall t k r i j a, nth_error (stepsTaken mp) t = Some k -> rule_no rules (Z.to_nat k) = Some r ->
      nth_error (index1s mp) (S t) = Some i -> nth_error (index2s mp) (S t) = Some j ->
      In a (r_add r) -> good (cell lm (Z.to_nat i - fst (fst a)) (Z.to_nat j - snd (fst a))).
Proof. exact (fun N L  => @obstacles_closed N L). Qed.
Print Assumptions C42_obstacles.

Example C42_case : succeeds mC (oKeep "symmetric2") "symmetric2" NoWindow
  (fun d => dist_is 10 d && align_is [0;1;2;2;2]%Z [0;0;1;2;3]%Z [3;1;2;2]%Z d).
Proof. exact obstacle_case. Qed.

(** C43. *)
Theorem C43_window_by_name : forall (N : Num) cdist x y (o : opts N) nm w,
  window_of (WTName nm) w ->
  dtw cdist x y (mkOpts (o_step_pattern o) (WTName nm) (o_window_args o) (o_keep_internals o)
                        (o_distance_only o) (o_open_end o) (o_open_begin o)) =
  dtw cdist x y (mkOpts (o_step_pattern o) (WTFun w) (o_window_args o) (o_keep_internals o)
                        (o_distance_only o) (o_open_end o) (o_open_begin o)).
Proof. exact (fun N  => @window_by_name N). Qed.
Print Assumptions C43_window_by_name.

Theorem C43_window_omitted : forall (N : Num) cdist x y (o : opts N),
  dtw cdist x y (mkOpts (o_step_pattern o) WTNone (o_window_args o) (o_keep_internals o)
                        (o_distance_only o) (o_open_end o) (o_open_begin o)) =
  dtw cdist x y (mkOpts (o_step_pattern o) (WTFun NoWindow) (o_window_args o) (o_keep_internals o)
                        (o_distance_only o) (o_open_end o) (o_open_begin o)).
Proof. exact (fun N  => @window_omitted N). Qed.
Print Assumptions C43_window_omitted.

Theorem C43_pattern_by_name : forall (N : Num) cdist x y (o : opts N) nm sp,
  lookup nm pattern_table = Some sp ->
  dtw cdist x y (mkOpts (SPName nm) (o_window_type o) (o_window_args o) (o_keep_internals o)
                        (o_distance_only o) (o_open_end o) (o_open_begin o)) =
  dtw cdist x y (mkOpts (SPObj sp) (o_window_type o) (o_window_args o) (o_keep_internals o)
                        (o_distance_only o) (o_open_end o) (o_open_begin o)).
Proof. exact (fun N  => @pattern_by_name N). Qed.
Print Assumptions C43_pattern_by_name.

Theorem C43_unknown_window : forall (N : Num) cdist x y (o : opts N) nm d,
  o_window_type o = WTName nm ->
  nm <> "none" -> nm <> "sakoechiba" -> nm <> "itakura" -> nm <> "slantedband" ->
  dtw cdist x y o <> Ok d.
Proof. exact (fun N  => @unknown_window N). Qed.
Print Assumptions C43_unknown_window.

Theorem C43_unknown_pattern : forall (N : Num) cdist x y (o : opts N) nm d,
  o_step_pattern o = SPName nm ->
  lookup nm (@pattern_table N) = None -> dtw cdist x y o <> Ok d.
Proof. exact (fun N  => @unknown_pattern N). Qed.
Print Assumptions C43_unknown_pattern.

Example C43_case : succeeds mA (oKeep "asymmetric") "asymmetric" NoWindow
  (fun d => align_is [0;1;2]%Z [0;1;3]%Z [2;3]%Z d).
Proof. exact convention_case. Qed.
