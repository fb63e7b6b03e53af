(** Properties11.v - C55 to C60: masks, cut series, closed forms of countPaths.

    Only theorem statements, each closed by a lemma proved elsewhere, and concrete cases
    that meet their hypotheses.  See Properties1.v for the arithmetic [N] and [NumLaws]. *)
From Coq Require Import QArith Qcanon.
From Verif Require Import Base Num StepPattern Window Core Backtrack Dtw Spec Api Tables Vocab Terms.
From Verif Require Import NumQ NumQLaws NumF NumFLaws.
From Verif Require Import CountPaths CountSpec CoreProof DtwProof ApiThms Thm1 Thm5 Thm10 Thm11 Thm13 CountEx Derived Examples Examples3 Examples7 Examples8 SeriesSpec PathSpec Thm23 Thm26 Thm27 Thm28 Thm29 Examples9.
Open Scope string_scope.
Open Scope list_scope.
Open Scope nat_scope.

(** C55: for patterns that charge only the cell they enter, a window is the same as missing local costs outside it:
    same distance, alignment, matrices or exception. *)
Theorem C55_mask : forall (N : Num) (L : NumLaws N) cdist x y o (lm : mat N) sp rules w cdist' x' y' lm',
  well_posed cdist x y o lm sp rules w -> end_point_rules rules ->
  masked (o_open_begin o) w (o_window_args o) lm lm' ->
  costs_of cdist' x' y' lm' -> (o_open_begin o = true \/ native_array x' y') ->
  same_outcome (dtw cdist x y o) (dtw cdist' x' y' (without_window o)).
Proof. exact (fun N L  => @window_mask N L). Qed.
Print Assumptions C55_mask.

Theorem C55_patterns : forall (N : Num) (L : NumLaws N) k l,
  In k ["symmetric1"; "symmetric2"; "symmetricP0"; "asymmetric"; "asymmetricP0"; "typeIIa"; "typeIIb"; "typeIIc"; "typeIId"; "rigid"] ->
  lookup k predefined = Some l -> end_point_rules (@productions N l).
Proof. exact (fun N L  => @end_point_predefined N L). Qed.
Print Assumptions C55_patterns.

Theorem C55_patterns_mvm : forall (N : Num) (L : NumLaws N) e,
  end_point_rules (@productions N (mvm_productions e)).
Proof. exact (fun N L  => @end_point_mvm N L). Qed.
Print Assumptions C55_patterns_mvm.

Example C55_case : masked false SakoeChiba (ws 1) mA mBand /\
  succeeds mA (named "symmetric2" (WTName "sakoechiba") (ws 1) true false false false) "symmetric2" SakoeChiba
    (fun d => dist_is 6 d && align_is [0;1;2;2]%Z [0;1;2;3]%Z [1;1;2]%Z d) /\
  succeeds mBand (oKeep "symmetric2") "symmetric2" NoWindow
    (fun d => dist_is 6 d && align_is [0;1;2;2]%Z [0;1;2;3]%Z [1;1;2]%Z d).
Proof. exact mask_case. Qed.

(** C55: patterns with inner points are not of this kind. *)
Theorem C55_inner_points_differ : succeeds mIn (named "typeIIIc" (WTName "sakoechiba") (ws 0) true false false false) "typeIIIc" SakoeChiba (dist_is 0) /\
  succeeds mInDiag (oKeep "typeIIIc") "typeIIIc" NoWindow (dist_is 9).
Proof. exact mask_inner_differs. Qed.

(** C56: an open-end result is the closed-end result for the reference cut after the matched part, and that
    cut is the first one with the least normalized distance. *)
Theorem C56_prefix : forall (N : Num) (L : NumLaws N) cdist x y o (lm : mat N) d rules o' cdist',
  costs_of cdist x y lm -> dtw cdist x y o = Ok d -> pattern_rules (r_stepPattern d) rules -> 0 < nr lm ->
  o_open_end o = true -> ignores_sizes (r_windowFunction d) (r_windowArgs d) ->
  same_problem o o' -> o_open_end o' = false -> o_distance_only o' = o_distance_only o ->
  (exists d', dtw cdist' (NdArray (Nd2 (leading lm (nr lm) (r_jmin d + 1))) true true) None o' = Ok d' /\
     r_distance d' = r_distance d /\ r_normalizedDistance d' = r_normalizedDistance d /\
     r_jmin d' = r_jmin d /\ r_map d' = r_map d) /\
  (forall j, j < nc lm ->
     match dtw cdist' (NdArray (Nd2 (leading lm (nr lm) (j + 1))) true true) None o' with
     | Ok d' => leb (r_normalizedDistance d) (r_normalizedDistance d') = true /\
                (j < r_jmin d -> ltb (r_normalizedDistance d) (r_normalizedDistance d') = true)
     | Raise e => e = no_path
     | _ => False
     end).
Proof. exact (fun N L  => @open_end_is_prefix N L). Qed.
Print Assumptions C56_prefix.

Example C56_case : succeeds mA (named "symmetric2" WTNone [] true false true false) "symmetric2" NoWindow
    (fun d => dist_is 5 d && (r_jmin d =? 2) && align_is [0;1;2]%Z [0;1;2]%Z [1;1]%Z d) /\
  succeeds (leading mA 3 3) (named "symmetric2" WTNone [] true false false false) "symmetric2" NoWindow
    (fun d => dist_is 5 d && (r_jmin d =? 2) && align_is [0;1;2]%Z [0;1;2]%Z [1;1]%Z d).
Proof. exact prefix_case. Qed.

(** C57: cut at any of its breakpoints, the returned alignment is the one returned for the cut series. *)
Theorem C57_passes : forall (N : Num) (L : NumLaws N) cdist x y o (lm : mat N) d rules o' cdist' mp,
  costs_of cdist x y lm -> dtw cdist x y o = Ok d -> pattern_rules (r_stepPattern d) rules -> 0 < nr lm ->
  o_open_begin o = false -> r_map d = Some mp -> ignores_sizes (r_windowFunction d) (r_windowArgs d) ->
  same_problem o o' -> o_open_end o' = false -> o_distance_only o' = false ->
  forall q a b, nth_error (index1s mp) q = Some a -> nth_error (index2s mp) q = Some b ->
  exists d' mp', dtw cdist' (NdArray (Nd2 (leading lm (Z.to_nat a + 1) (Z.to_nat b + 1))) true true) None o' = Ok d' /\
    r_map d' = Some mp' /\
    index1s mp' = firstn (q + 1) (index1s mp) /\ index2s mp' = firstn (q + 1) (index2s mp) /\
    stepsTaken mp' = firstn q (stepsTaken mp) /\
    (exists rest, index1 mp = index1 mp' ++ rest) /\ (exists rest, index2 mp = index2 mp' ++ rest) /\
    (forall cm, r_costMatrix d = Some cm -> mget cm (Z.to_nat a) (Z.to_nat b) = Some (r_distance d')).
Proof. exact (fun N L  => @result_passes_through N L). Qed.
Print Assumptions C57_passes.

Example C57_case : succeeds mA (oKeep "symmetric2") "symmetric2" NoWindow
    (fun d => dist_is 6 d && align_is [0;1;2;2]%Z [0;1;2;3]%Z [1;1;2]%Z d &&
      match r_costMatrix d with Some cm => match mget cm 1 1 with Some v => eqb v (ofZ 3) | None => false end | None => false end) /\
  succeeds (leading mA 2 2) (oKeep "symmetric2") "symmetric2" NoWindow
    (fun d => dist_is 3 d && align_is [0;1]%Z [0;1]%Z [1]%Z d).
Proof. exact passes_case. Qed.

(** C58: with open_end, a longer reference can only lower the normalized distance. *)
Theorem C58_longer : forall (N : Num) (L : NumLaws N) cdist x y o (lm : mat N) sp rules w cdist' m d1,
  well_posed cdist x y o lm sp rules w -> o_open_end o = true -> ignores_sizes w (o_window_args o) -> 0 < m <= nc lm ->
  dtw cdist' (NdArray (Nd2 (leading lm (nr lm) m)) true true) None o = Ok d1 ->
  exists d, dtw cdist x y o = Ok d /\ leb (r_normalizedDistance d) (r_normalizedDistance d1) = true.
Proof. exact (fun N L  => @longer_reference N L). Qed.
Print Assumptions C58_longer.

Example C58_case : succeeds (leading mA 3 2) (named "symmetric2" WTNone [] true false true false) "symmetric2" NoWindow
    (fun d => (r_jmin d =? 1) && ltb (div (ofZ 99) (ofZ 100)) (r_normalizedDistance d)) /\
  succeeds mA (named "symmetric2" WTNone [] true false true false) "symmetric2" NoWindow
    (fun d => (r_jmin d =? 2) && ltb (r_normalizedDistance d) (div (ofZ 99) (ofZ 100))).
Proof. exact longer_case. Qed.

(** C59: without window, countPaths returns a Delannoy number for the symmetric patterns ... *)
Theorem C59_delannoy : forall (N : Num) (L : NumLaws N) cdist x y o (lm : mat N) d k,
  costs_of cdist x y lm -> dtw cdist x y o = Ok d ->
  In k ["symmetric1"; "symmetric2"; "symmetricP0"] -> lookup k pattern_table = Some (r_stepPattern d) ->
  r_windowFunction d = NoWindow -> r_windowArgs d = [] ->
  o_open_begin o = false -> o_open_end o = false ->
  (Z.of_nat (delannoy (nr lm - 1) (nc lm - 1)) <= 2 ^ 53)%Z ->
  countPaths d = Ok (Z.of_nat (delannoy (nr lm - 1) (nc lm - 1))).
Proof. exact (fun N L  => @count_delannoy N L). Qed.
Print Assumptions C59_delannoy.

(** C59: ... and a trinomial coefficient for asymmetric. *)
Theorem C59_trinomial : forall (N : Num) (L : NumLaws N) cdist x y o (lm : mat N) d,
  costs_of cdist x y lm -> dtw cdist x y o = Ok d -> r_stepPattern d = asymmetric ->
  r_windowFunction d = NoWindow -> r_windowArgs d = [] ->
  o_open_begin o = false -> o_open_end o = false ->
  (3 ^ Z.of_nat (nr lm - 1) <= 2 ^ 53)%Z ->
  countPaths d = Ok (Z.of_nat (trinomial (nr lm - 1) (nc lm - 1))).
Proof. exact (fun N L  => @count_trinomial N L). Qed.
Print Assumptions C59_trinomial.

Example C59_case : succeeds mA (oKeep "symmetric2") "symmetric2" NoWindow
    (fun d => count_is (Z.of_nat (delannoy 2 3)) d && count_is 25 d) /\
  succeeds mA (oKeep "asymmetric") "asymmetric" NoWindow
    (fun d => count_is (Z.of_nat (trinomial 2 3)) d && count_is 2 d) /\
  delannoy 4 4 = 321 /\ trinomial 5 5 = 51.
Proof. exact count_case. Qed.

(** C60: with asymmetric, open_begin finds the best place to cut the beginning off the reference
    (exact arithmetic). *)
Theorem C60_suffix : forall cdist x y o (lm : mat NumQ) sp rules o' cdist',
  well_posed cdist x y o lm sp rules NoWindow -> strides rules -> o_open_begin o = true -> 2 <= nr lm ->
  o_step_pattern o' = o_step_pattern o -> o_window_type o' = o_window_type o ->
  o_open_begin o' = false -> o_open_end o' = o_open_end o ->
  let on_suffix s := dtw cdist' (NdArray (Nd2 (trailing lm s)) true true) None o' in
  match dtw cdist x y o with
  | Ok d =>
      (forall s d', s < nc lm -> on_suffix s = Ok d' -> leb (r_distance d) (r_distance d') = true) /\
      exists mp s d', r_map d = Some mp /\ hd_error (index2 mp) = Some (Z.of_nat s) /\ s < nc lm /\
        on_suffix s = Ok d' /\ r_distance d' = r_distance d /\
        r_normalizedDistance d' = r_normalizedDistance d
  | _ => forall s d', s < nc lm -> on_suffix s <> Ok d'
  end.
Proof. exact open_begin_is_suffix. Qed.
Print Assumptions C60_suffix.

Example C60_case : succeeds mSuf (named "asymmetric" WTNone [] true false false true) "asymmetric" NoWindow
    (fun d => dist_is 3 d && align_is [0;1;2]%Z [1;2;4]%Z [1;2;3]%Z d) /\
  succeeds (trailing mSuf 1) (named "asymmetric" WTNone [] true false false false) "asymmetric" NoWindow
    (fun d => dist_is 3 d && align_is [0;1;2]%Z [0;1;3]%Z [2;3]%Z d) /\
  succeeds (trailing mSuf 2) (named "asymmetric" WTNone [] true false false false) "asymmetric" NoWindow (dist_is 4).
Proof. exact suffix_case. Qed.
