(** Properties2.v - C09 to C18: windows, open ends, normalization, options.

    Only theorem statements, each closed by a lemma proved elsewhere, and concrete cases
    that meet their hypotheses.  See Properties1.v for the arithmetic [N] and [NumLaws]. *)
From Verif Require Import Base Num StepPattern Window Core Backtrack Dtw Spec Api Tables Vocab Terms.
From Verif Require Import NumQ NumQLaws NumF NumFLaws.
From Verif Require Import ApiThms Thm1 Thm3 Thm4 Thm8 Thm10 Thm11 Derived Examples Examples2 Thm13.
Open Scope string_scope.
Open Scope list_scope.
Open Scope nat_scope.

(** C09: the window does not constrain every point of the alignment.  With typeIIIc and a Sakoe-Chiba
    band of width 0 the returned index1/index2 contain a point off the diagonal (an intermediate point). *)
Theorem C09_inner_point_outside_window : exists d,
  succeeds mIn (named "typeIIIc" (WTName "sakoechiba") (ws 0) true false false false) "typeIIIc" SakoeChiba (fun d => true) /\
  run mIn (named "typeIIIc" (WTName "sakoechiba") (ws 0) true false false false) = Ok d /\
  rejected_point mIn d.
Proof. exact inner_rejected. Qed.

(** C09: the first point (0,0) is not checked: the Itakura window rejects it in every problem. *)
Theorem C09_first_point_outside_window : exists d,
  succeeds m5 (named "symmetric2" (WTName "itakura") [] true false false false) "symmetric2" Itakura (fun d => true) /\
  run m5 (named "symmetric2" (WTName "itakura") [] true false false false) = Ok d /\
  rejected_point m5 d.
Proof. exact first_rejected. Qed.

Print Assumptions C09_inner_point_outside_window.
Print Assumptions C09_first_point_outside_window.

(** C10: every point of index1s/index2s lies in the band. *)
Theorem C10_sakoe_chiba_points : forall (N : Num) (L : NumLaws N) cdist x y o (lm : mat N) d rules ws,
  costs_of cdist x y lm ->
  dtw cdist x y o = Ok d -> pattern_rules (r_stepPattern d) rules ->
  o_distance_only o = false -> o_open_begin o = false ->
  r_windowFunction d = SakoeChiba -> r_windowArgs d = band ws -> leb (ofZ 0) ws = true ->
  exists mp, r_map d = Some mp /\
  forall t i j, nth_error (index1s mp) t = Some i -> nth_error (index2s mp) t = Some j ->
    leb (ofZ (Z.abs (j - i))) ws = true.
Proof. exact (fun N L  => @sakoe_points N L). Qed.
Print Assumptions C10_sakoe_chiba_points.

(** C10: a band narrower than the difference of the lengths: always an error. *)
Theorem C10_sakoe_chiba_too_narrow : forall (N : Num) (L : NumLaws N) cdist x y o (lm : mat N) sp rules ws,
  well_posed cdist x y o lm sp rules SakoeChiba -> o_open_end o = false -> o_open_begin o = false ->
  o_window_args o = band ws -> leb (ofZ 0) ws = true ->
  leb (ofZ (Z.abs (Z.of_nat (nc lm) - Z.of_nat (nr lm)))) ws = false ->
  dtw cdist x y o = Raise no_path.
Proof. exact (fun N L  => @sakoe_too_narrow N L). Qed.
Print Assumptions C10_sakoe_chiba_too_narrow.

(** C10: a wide band is no window at all; the results differ in the recorded window only. *)
Theorem C10_sakoe_chiba_wide : forall (N : Num) (L : NumLaws N) cdist x y o (lm : mat N) sp rules ws,
  well_posed cdist x y o lm sp rules NoWindow -> o_window_args o = [] ->
  leb (ofZ (Z.max (Z.of_nat (nr lm)) (Z.of_nat (nc lm)))) ws = true ->
  dtw cdist x y (set_window o (WTName "sakoechiba") (band ws)) =
  omap (fun d => relabel_window d SakoeChiba (band ws)) (dtw cdist x y o).
Proof. exact (fun N L  => @sakoe_wide N L). Qed.
Print Assumptions C10_sakoe_chiba_wide.

Example C10_case : succeeds mA (named "symmetricP1" (WTName "sakoechiba") (ws 1) true false false false) "symmetricP1" SakoeChiba
  (fun d => dist_is 6 d && align_is [0;1;2;2]%Z [0;1;2;3]%Z [2;1]%Z d).
Proof. exact exSC. Qed.

Example C10_case_narrow : fails mA (named "symmetric2" (WTName "sakoechiba") (ws 0) true false false false) "symmetric2" SakoeChiba
  (ValueError "No warping path found compatible with the local constraints").
Proof. exact exSCnarrow. Qed.

(** C11: the sizes for which the Itakura window contains the final corner. *)
Theorem C11_itakura_corner : forall (N : Num) n m,
  0 < n -> 0 < m ->
  (@in_window N Itakura [] n m (n - 1) (m - 1) <-> (m - 1 < 2 * (n - 1) /\ n - 1 <= 2 * (m - 1))).
Proof. exact (fun N  => @itakura_corner N). Qed.
Print Assumptions C11_itakura_corner.

(** C11: otherwise every closed-end call raises. *)
Theorem C11_itakura_excluded : forall (N : Num) (L : NumLaws N) cdist x y o (lm : mat N) sp rules,
  well_posed cdist x y o lm sp rules Itakura -> o_open_end o = false -> o_open_begin o = false ->
  o_window_args o = [] -> ~ (nr lm = 1 /\ nc lm = 1) ->
  ~ (nc lm - 1 < 2 * (nr lm - 1) /\ nr lm - 1 <= 2 * (nc lm - 1)) ->
  dtw cdist x y o = Raise no_path.
Proof. exact (fun N L  => @itakura_corner_excluded N L). Qed.
Print Assumptions C11_itakura_excluded.

(** C11: the inequalities satisfied by every point of index1s/index2s but the first. *)
Theorem C11_itakura_points : forall (N : Num) (L : NumLaws N) cdist x y o (lm : mat N) d rules,
  costs_of cdist x y lm ->
  dtw cdist x y o = Ok d -> pattern_rules (r_stepPattern d) rules ->
  o_distance_only o = false -> o_open_begin o = false -> r_windowFunction d = Itakura -> r_windowArgs d = [] ->
  exists mp, r_map d = Some mp /\
  forall t i j, nth_error (index1s mp) (S t) = Some i -> nth_error (index2s mp) (S t) = Some j ->
    (j < 2 * i /\ i <= 2 * j /\
     Z.of_nat (nr lm) - 1 - 2 * (Z.of_nat (nc lm) - j) <= i /\ Z.of_nat (nc lm) - 1 - 2 * (Z.of_nat (nr lm) - i) < j)%Z.
Proof. exact (fun N L  => @itakura_points N L). Qed.
Print Assumptions C11_itakura_points.

(** C11: the slanted band contains the final corner only if |M/N - 1| <= window_size (exact arithmetic). *)
Theorem C11_slanted_corner : forall (ws : NumQ) n m,
  0 < n -> 0 < m ->
  (in_window SlantedBand (band ws) n m (n - 1) (m - 1) <->
   leb (vabs (sub (div (ofZ (Z.of_nat m)) (ofZ (Z.of_nat n))) (ofZ 1))) ws = true).
Proof. exact slanted_corner. Qed.
Print Assumptions C11_slanted_corner.

(** C11: otherwise every closed-end call raises (exact arithmetic; then any arithmetic). *)
Theorem C11_slanted_excluded : forall cdist x y o (lm : mat NumQ) sp rules ws,
  well_posed cdist x y o lm sp rules SlantedBand -> o_open_end o = false -> o_open_begin o = false ->
  o_window_args o = band ws -> ~ (nr lm = 1 /\ nc lm = 1) ->
  leb (vabs (sub (div (ofZ (Z.of_nat (nc lm))) (ofZ (Z.of_nat (nr lm)))) (ofZ 1))) ws = false ->
  dtw cdist x y o = Raise no_path.
Proof. exact slanted_corner_excluded. Qed.
Print Assumptions C11_slanted_excluded.

Theorem C11_slanted_excluded_any : forall (N : Num) (L : NumLaws N) cdist x y o (lm : mat N) sp rules ws,
  well_posed cdist x y o lm sp rules SlantedBand -> o_open_end o = false -> o_open_begin o = false ->
  o_window_args o = band ws -> ~ (nr lm = 1 /\ nc lm = 1) ->
  leb (vabs (sub (ofZ (Z.of_nat (nc lm) - 1))
                 (div (ofZ ((Z.of_nat (nr lm) - 1) * Z.of_nat (nc lm))) (ofZ (Z.of_nat (nr lm)))))) ws = false ->
  dtw cdist x y o = Raise no_path.
Proof. exact (fun N L  => @slanted_corner_raises N L). Qed.
Print Assumptions C11_slanted_excluded_any.

(** C11: for instance every 2 x 5 problem with window_size 1 in binary64. *)
Theorem C11_slanted_2_5 : forall cdist x y o (lm : mat NumF) sp rules,
  well_posed cdist x y o lm sp rules SlantedBand -> o_open_end o = false -> o_open_begin o = false ->
  o_window_args o = ws 1 -> nr lm = 2 -> nc lm = 5 -> dtw cdist x y o = Raise no_path.
Proof. exact slanted_2_5. Qed.
Print Assumptions C11_slanted_2_5.

Example C11_case_itakura : succeeds m5 (named "symmetric2" (WTName "itakura") [] true false false false) "symmetric2" Itakura
  (fun d => dist_is 6 d && align_is [0;1;2;3;4;4]%Z [0;1;2;2;3;4]%Z [1;1;3;1;2]%Z d).
Proof. exact exIta. Qed.

Example C11_case_itakura_excluded : fails mLong (named "symmetric2" (WTName "itakura") [] true false false false) "symmetric2" Itakura
  (ValueError "No warping path found compatible with the local constraints").
Proof. exact exItaLong. Qed.

Example C11_case_slanted : succeeds m5 (named "symmetric2" (WTName "slantedband") (ws 1) true false false false) "symmetric2" SlantedBand
  (fun d => dist_is 6 d && align_is [0;1;2;3;4;4]%Z [0;1;2;2;3;4]%Z [1;1;3;1;2]%Z d).
Proof. exact exSlOk. Qed.

Example C11_case_slanted_excluded : fails mSl (named "symmetric2" (WTName "slantedband") (ws 1) true false false false) "symmetric2" SlantedBand
  (ValueError "No warping path found compatible with the local constraints").
Proof. exact exSl. Qed.

(** C12: a window that admits more cells: still an alignment, and no larger distance. *)
Theorem C12_wider_window : forall (N : Num) (L : NumLaws N) cdist x y o (lm : mat N) d rules t2 kw2 w2,
  costs_of cdist x y lm -> dtw cdist x y o = Ok d -> pattern_rules (r_stepPattern d) rules ->
  0 < nr lm -> o_open_end o = false -> window_of t2 w2 ->
  window_total w2 kw2 (rows_used (o_open_begin o) lm) (nc lm) ->
  window_within (r_windowFunction d) (o_window_args o) w2 kw2 (rows_used (o_open_begin o) lm) (nc lm) ->
  exists d2, dtw cdist x y (set_window o t2 kw2) = Ok d2 /\ leb (r_distance d2) (r_distance d) = true.
Proof. exact (fun N L  => @relaxed_closed_end N L). Qed.
Print Assumptions C12_wider_window.

(** C12: with open end the normalized distance is what is minimized. *)
Theorem C12_wider_window_open_end : forall (N : Num) (L : NumLaws N) cdist x y o (lm : mat N) d rules t2 kw2 w2,
  costs_of cdist x y lm -> dtw cdist x y o = Ok d -> pattern_rules (r_stepPattern d) rules ->
  0 < nr lm -> o_open_end o = true -> window_of t2 w2 ->
  window_total w2 kw2 (rows_used (o_open_begin o) lm) (nc lm) ->
  window_within (r_windowFunction d) (o_window_args o) w2 kw2 (rows_used (o_open_begin o) lm) (nc lm) ->
  exists d2, dtw cdist x y (set_window o t2 kw2) = Ok d2 /\
    leb (r_normalizedDistance d2) (r_normalizedDistance d) = true.
Proof. exact (fun N L  => @relaxed_open_end N L). Qed.
Print Assumptions C12_wider_window_open_end.

Example C12_case : succeeds mA (named "symmetricP1" (WTName "sakoechiba") (ws 1) true false false false) "symmetricP1" SakoeChiba
  (fun d => dist_is 6 d && align_is [0;1;2;2]%Z [0;1;2;3]%Z [2;1]%Z d).
Proof. exact exSC. Qed.

(** A Sakoe-Chiba band of width 1 lies within no window at all. *)
Example C12_case_wider : window_within SakoeChiba (ws 1) NoWindow [] 3 4.
Proof. exact sakoe_within_none. Qed.

(** C13: jmin is the first end of least normalized cost among all ends that can be reached. *)
Theorem C13_open_end_choice : forall (N : Num) (L : NumLaws N) cdist x y o (lm : mat N) d rules,
  costs_of cdist x y lm -> dtw cdist x y o = Ok d -> pattern_rules (r_stepPattern d) rules ->
  o_open_end o = true -> 0 < nr lm ->
  r_jmin d < nc lm /\
  best_to (o_open_begin o) rules lm (r_windowFunction d) (r_windowArgs d) (r_jmin d) (r_distance d) /\
  r_normalizedDistance d = normalized (hint (r_stepPattern d)) (nr lm) (r_jmin d) (r_distance d) /\
  forall j c, j < nc lm ->
    best_to (o_open_begin o) rules lm (r_windowFunction d) (r_windowArgs d) j c ->
    leb (r_normalizedDistance d) (normalized (hint (r_stepPattern d)) (nr lm) j c) = true /\
    (j < r_jmin d ->
     ltb (r_normalizedDistance d) (normalized (hint (r_stepPattern d)) (nr lm) j c) = true).
Proof. exact (fun N L  => @open_end_choice N L). Qed.
Print Assumptions C13_open_end_choice.

(** C13: opening the end never increases the normalized distance. *)
Theorem C13_open_end_below_closed : forall (N : Num) (L : NumLaws N) cdist x y o (lm : mat N) d rules,
  costs_of cdist x y lm -> dtw cdist x y (set_open_end false o) = Ok d ->
  pattern_rules (r_stepPattern d) rules -> 0 < nr lm -> hint (r_stepPattern d) <> "NA" ->
  exists d2, dtw cdist x y (set_open_end true o) = Ok d2 /\
    leb (r_normalizedDistance d2) (r_normalizedDistance d) = true.
Proof. exact (fun N L  => @open_end_below_closed N L). Qed.
Print Assumptions C13_open_end_below_closed.

Example C13_case : succeeds mA (named "asymmetric" WTNone [] true false true false) "asymmetric" NoWindow
  (fun d => dist_is 3 d && align_is [0;1;2]%Z [0;1;2]%Z [2;2]%Z d && (r_jmin d =? 2)).
Proof. exact exE. Qed.

(** C14: the distance is attained by the returned walk from some cell of the virtual row, and no walk
    from any cell of that row is cheaper. *)
Theorem C14_open_begin_optimal : forall (N : Num) (L : NumLaws N) cdist x y o (lm : mat N) d rules,
  costs_of cdist x y lm -> dtw cdist x y o = Ok d -> pattern_rules (r_stepPattern d) rules ->
  o_open_begin o = true ->
  exists mp ks vs ts, r_map d = Some mp /\
    open_walk rules lm (r_windowFunction d) (r_windowArgs d) ks vs ts (nr lm, r_jmin d) (r_distance d) /\
    usable ks (r_distance d) /\ describes_open mp ks vs ts /\
    forall ks' vs' ts' c,
      open_walk rules lm (r_windowFunction d) (r_windowArgs d) ks' vs' ts' (nr lm, r_jmin d) c ->
      usable ks' c -> leb (r_distance d) c = true.
Proof. exact (fun N L  => @open_begin_optimal N L). Qed.
Print Assumptions C14_open_begin_optimal.

Theorem C14_open_begin_found_iff : forall (N : Num) (L : NumLaws N) cdist x y o (lm : mat N) sp rules w,
  well_posed cdist x y o lm sp rules w -> o_open_begin o = true -> o_open_end o = false ->
  ((exists d, dtw cdist x y o = Ok d) <->
   exists ks vs ts c, open_walk rules lm w (o_window_args o) ks vs ts (nr lm, nc lm - 1) c /\ usable ks c) /\
  (dtw cdist x y o = Raise no_path <->
   forall ks vs ts c, open_walk rules lm w (o_window_args o) ks vs ts (nr lm, nc lm - 1) c -> ~ usable ks c).
Proof. exact (fun N L  => @open_begin_found_iff N L). Qed.
Print Assumptions C14_open_begin_found_iff.

Example C14_case : succeeds mA (named "asymmetric" WTNone [] true false false true) "asymmetric" NoWindow
  (fun d => dist_is 3 d && align_is [0;1;2]%Z [0;1;3]%Z [1;2;3]%Z d).
Proof. exact exOB. Qed.

(** C15: normalization requirements. *)
Theorem C15_open_begin_needs_N : forall (N : Num) cdist x y o (lm : mat N) sp,
  costs_of cdist x y lm ->
  pattern_of (o_step_pattern o) sp -> o_open_begin o = true -> hint sp <> "N" ->
  dtw cdist x y o = Raise (ValueError "Open-begin requires step patterns with 'N' normalization (e.g. asymmetric, or R-J types (c)). See Tormene et al.").
Proof. exact (fun N  => @open_begin_needs_N N). Qed.
Print Assumptions C15_open_begin_needs_N.

Theorem C15_open_end_needs_normalization : forall (N : Num) cdist x y (o : opts N) sp d,
  pattern_of (o_step_pattern o) sp ->
  o_open_end o = true -> hint sp = "NA" -> dtw cdist x y o <> Ok d.
Proof. exact (fun N  => @open_end_needs_norm N). Qed.
Print Assumptions C15_open_end_needs_normalization.

Theorem C15_open_end_needs_normalization_msg : forall (N : Num) (L : NumLaws N) cdist x y o (lm : mat N) sp rules w,
  costs_of cdist x y lm -> native_array x y ->
  pattern_of (o_step_pattern o) sp -> pattern_rules sp rules -> window_of (o_window_type o) w ->
  window_total w (o_window_args o) (nr lm) (nc lm) -> size_ok (nr lm) (nc lm) ->
  o_open_begin o = false -> o_open_end o = true -> hint sp = "NA" ->
  dtw cdist x y o = Raise (ValueError "Open-end alignments require normalizable step patterns").
Proof. exact (fun N L  => @open_end_needs_norm_msg N L). Qed.
Print Assumptions C15_open_end_needs_normalization_msg.

Theorem C15_normalized_distance : forall (N : Num) (L : NumLaws N) cdist x y o (lm : mat N) d rules,
  costs_of cdist x y lm -> dtw cdist x y o = Ok d -> pattern_rules (r_stepPattern d) rules ->
  (hint (r_stepPattern d) = "N+M" ->
     r_normalizedDistance d = div (r_distance d) (ofZ (Z.of_nat (nr lm) + Z.of_nat (r_jmin d) + 1))) /\
  (hint (r_stepPattern d) = "N" ->
     r_normalizedDistance d = div (r_distance d) (ofZ (Z.of_nat (nr lm)))) /\
  (hint (r_stepPattern d) = "M" ->
     r_normalizedDistance d = div (r_distance d) (ofZ (1 + Z.of_nat (r_jmin d)))) /\
  (hint (r_stepPattern d) = "NA" -> r_normalizedDistance d = nan) /\
  (o_open_end o = false -> r_jmin d = nc lm - 1).
Proof. exact (fun N L  => @normalization_rule N L). Qed.
Print Assumptions C15_normalized_distance.

Example C15_case : succeeds mA (oKeep "mori2006") "mori2006" NoWindow (fun d => dist_is 10 d).
Proof. exact exMori. Qed.

Example C15_case_NA : hint (@symmetric1 NumF) = "NA" /\ lookup "symmetric1" (@pattern_table NumF) = Some symmetric1.
Proof. exact needs_norm_case. Qed.

Example C15_case_begin : hint (@symmetric2 NumF) <> "N" /\ lookup "symmetric2" (@pattern_table NumF) = Some symmetric2.
Proof. exact needs_N_case. Qed.

(** C16: for every size and every reference index there is a matrix on which the open-begin alignment
    with asymmetric matches exactly that index. *)
Theorem C16_asymmetric_starts_anywhere : forall (N : Num) (L : NumLaws N) n m j0,
  0 < n -> size_ok (n + 1) m -> j0 < m ->
  exists (d : DTW N) mp, run (one_column n m j0) subsequence_opts = Ok d /\ r_map d = Some mp /\ index1 mp = map Z.of_nat (seq 0 n) /\ index2 mp = repeat (Z.of_nat j0) n.
Proof. exact (fun N L  => @asymmetric_starts_anywhere N L). Qed.
Print Assumptions C16_asymmetric_starts_anywhere.

(** C16: a rigid open-begin alignment never uses reference index 0 and needs a longer reference. *)
Theorem C16_rigid_never_first : forall (N : Num) (L : NumLaws N) cdist x y o (lm : mat N) d,
  costs_of cdist x y lm ->
  dtw cdist x y o = Ok d -> r_stepPattern d = rigid -> o_open_begin o = true -> 0 < nr lm ->
  nr lm < nc lm /\
  exists mp j0, r_map d = Some mp /\ 1 <= j0 /\
    index2 mp = map Z.of_nat (seq j0 (nr lm)).
Proof. exact (fun N L  => @rigid_open_begin_short N L). Qed.
Print Assumptions C16_rigid_never_first.

Theorem C16_rigid_equal_lengths_raise : forall (N : Num) (L : NumLaws N) cdist x y o (lm : mat N) sp rules w,
  well_posed cdist x y o lm sp rules w -> sp = rigid -> o_open_begin o = true -> nc lm <= nr lm ->
  dtw cdist x y o = Raise (if o_open_end o then ValueError "All-NaN slice encountered" else no_path).
Proof. exact (fun N L  => @rigid_open_begin_raises N L). Qed.
Print Assumptions C16_rigid_equal_lengths_raise.

(** C16: the same for every pattern whose productions all advance along the reference. *)
Theorem C16_advancing_never_first : forall (N : Num) (L : NumLaws N) cdist x y o (lm : mat N) d rules,
  costs_of cdist x y lm ->
  dtw cdist x y o = Ok d -> pattern_rules (r_stepPattern d) rules ->
  o_open_begin o = true -> advancing rules ->
  exists mp, r_map d = Some mp /\ forall j, In j (index2 mp) -> (1 <= j)%Z.
Proof. exact (fun N L  => @open_begin_never_first N L). Qed.
Print Assumptions C16_advancing_never_first.

Theorem C16_advancing_patterns : forall (N : Num) k l,
  In k advancing_names -> lookup k predefined = Some l -> @advancing N (productions l).
Proof. exact (fun N  => @advancing_names_ok N). Qed.
Print Assumptions C16_advancing_patterns.

Example C16_case_rigid : succeeds mA (named "rigid" WTNone [] true false true true) "rigid" NoWindow
  (fun d => dist_is 12 d && align_is [0;1;2]%Z [1;2;3]%Z [1;1;1]%Z d).
Proof. exact exRigid. Qed.

Example C16_case_rigid_raises : fails mSq (named "rigid" WTNone [] true false true true) "rigid" NoWindow
  (ValueError "All-NaN slice encountered").
Proof. exact exRigidLong. Qed.

(** C17: distance_only only removes the alignment. *)
Theorem C17_distance_only : forall (N : Num) (L : NumLaws N) cdist x y o (lm : mat N) sp rules,
  costs_of cdist x y lm ->
  pattern_of (o_step_pattern o) sp -> pattern_rules sp rules -> o_open_begin o = false ->
  dtw cdist x y (set_distance_only true o) =
  omap without_alignment (dtw cdist x y (set_distance_only false o)).
Proof. exact (fun N L  => @distance_only_same N L). Qed.
Print Assumptions C17_distance_only.

(** C17: with open begin it raises AttributeError whenever the call without it succeeds. *)
Theorem C17_distance_only_open_begin : forall (N : Num) cdist x y (o : opts N) d,
  o_open_begin o = true ->
  dtw cdist x y (set_distance_only false o) = Ok d ->
  dtw cdist x y (set_distance_only true o) = Raise AttributeError.
Proof. exact (fun N  => @distance_only_open_begin N). Qed.
Print Assumptions C17_distance_only_open_begin.

Theorem C17_distance_only_open_begin_never : forall (N : Num) cdist x y (o : opts N) d,
  o_open_begin o = true -> o_distance_only o = true ->
  dtw cdist x y o <> Ok d.
Proof. exact (fun N  => @distance_only_open_begin_never N). Qed.
Print Assumptions C17_distance_only_open_begin_never.

Example C17_case : succeeds mA (named "symmetric2" WTNone [] false true false false) "symmetric2" NoWindow
  (fun d => dist_is 6 d && (match r_map d with None => true | Some _ => false end)).
Proof. exact exDonly. Qed.

Example C17_case_open_begin : succeeds mA (named "asymmetric" WTNone [] true false false true) "asymmetric" NoWindow
  (fun d => dist_is 3 d && align_is [0;1;2]%Z [0;1;3]%Z [1;2;3]%Z d).
Proof. exact exOB. Qed.

(** C18: keep_internals only adds the matrices and the series (shapes: C06). *)
Theorem C18_keep_internals : forall (N : Num) cdist x y (o : opts N),
  dtw cdist x y (set_keep_internals false o) =
  omap without_internals (dtw cdist x y (set_keep_internals true o)).
Proof. exact (fun N  => @keep_internals_only_keeps N). Qed.
Print Assumptions C18_keep_internals.

Example C18_case : succeeds mB (oKeep "symmetricP1") "symmetricP1" NoWindow
  (fun d => dist_is 6 d && align_is [0;1;2;2]%Z [0;1;2;3]%Z [2;1]%Z d && steps_are [0;1;2]%Z [0;1;3]%Z d).
Proof. exact exB. Qed.
