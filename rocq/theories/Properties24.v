(** Properties24.v - C77-C79: off the alignment; accumulated costs never decrease; the default call.

    Only theorem statements, each closed by a lemma proved elsewhere, and concrete cases
    that meet their hypotheses.  See Properties1.v for the arithmetic [N] and [NumLaws]. *)
From Verif Require Import Base Num StepPattern Window Core Backtrack Dtw Spec Api Tables Vocab Terms.
From Verif Require Import NumQ NumQLaws NumF NumFLaws.
From Verif Require Import SeriesSpec Thm8 ZeroSum SeriesSpec NarrowSpec Narrow Grow Examples Examples7 Examples8 Examples10 Examples22 Textbook Default Examples3.
Open Scope string_scope.
Open Scope list_scope.
Open Scope nat_scope.

(** C77: a narrower window that still admits the returned alignment gives the same alignment and distances. *)
Theorem C77_narrower_window : forall (N : Num) (L : NumLaws N) cdist x y o (lm : mat N) d rules t2 kw2 w2 mp,
  costs_of cdist x y lm ->
  dtw cdist x y o = Ok d -> pattern_rules (r_stepPattern d) rules -> 0 < nr lm -> r_map d = Some mp ->
  window_of t2 w2 -> window_total w2 kw2 (rows_used (o_open_begin o) lm) (nc lm) ->
  window_within w2 kw2 (r_windowFunction d) (o_window_args o) (rows_used (o_open_begin o) lm) (nc lm) ->
  alignment_in_window (o_open_begin o) w2 kw2 (nr lm) (nc lm) mp ->
  exists d2, dtw cdist x y (set_window o t2 kw2) = Ok d2 /\ r_map d2 = Some mp /\ r_distance d2 = r_distance d /\
    r_normalizedDistance d2 = r_normalizedDistance d /\ r_jmin d2 = r_jmin d.
Proof. exact (fun N L  => @narrower_window N L). Qed.
Print Assumptions C77_narrower_window.

(** C77: in particular a Sakoe-Chiba band as wide as the alignment found without a window. *)
Theorem C77_wide_enough_band : forall (N : Num) (L : NumLaws N) cdist x y o (lm : mat N) d rules mp ws,
  costs_of cdist x y lm ->
  dtw cdist x y o = Ok d -> pattern_rules (r_stepPattern d) rules -> 0 < nr lm -> r_map d = Some mp ->
  r_windowFunction d = NoWindow -> o_open_begin o = false ->
  (forall t i j, nth_error (index1s mp) t = Some i -> nth_error (index2s mp) t = Some j -> leb (ofZ (Z.abs (j - i))) ws = true) ->
  exists d2, dtw cdist x y (set_window o (WTName "sakoechiba") (band ws)) = Ok d2 /\ r_map d2 = Some mp /\ r_distance d2 = r_distance d /\
    r_normalizedDistance d2 = r_normalizedDistance d /\ r_jmin d2 = r_jmin d.
Proof. exact (fun N L  => @wide_enough_band N L). Qed.
Print Assumptions C77_wide_enough_band.

(** C77: larger local costs away from the returned alignment do not change it. *)
Theorem C77_raised_elsewhere : forall (N : Num) (L : NumLaws N) cdist x y cdist' x' y' o (lm lm' : mat N) d rules mp,
  costs_of cdist x y lm ->
  dtw cdist x y o = Ok d -> pattern_rules (r_stepPattern d) rules -> 0 < nr lm -> r_map d = Some mp ->
  costs_of cdist' x' y' lm' -> (o_open_begin o = true \/ native_array x' y') ->
  nonneg_weights rules -> nonneg_costs lm -> raised lm lm' -> same_on_alignment lm lm' mp ->
  exists d', dtw cdist' x' y' o = Ok d' /\ r_map d' = Some mp /\ r_distance d' = r_distance d /\
    r_normalizedDistance d' = r_normalizedDistance d /\ r_jmin d' = r_jmin d.
Proof. exact (fun N L  => @raised_elsewhere N L). Qed.
Print Assumptions C77_raised_elsewhere.

Example C77_case : succeeds lm22 (oQ "symmetric1") "symmetric1" NoWindow (fun d => dist_is 5 d && align_is [0;0;1;2;3]%Z [0;1;2;3;3]%Z [2;1;1;3]%Z d) /\
  succeeds lm22 (band22 1) "symmetric1" SakoeChiba (fun d => dist_is 5 d && align_is [0;0;1;2;3]%Z [0;1;2;3;3]%Z [2;1;1;3]%Z d) /\
  succeeds lm22 (band22 0) "symmetric1" SakoeChiba (dist_is 20) /\
  succeeds lm22' (oQ "symmetric1") "symmetric1" NoWindow (fun d => dist_is 5 d && align_is [0;0;1;2;3]%Z [0;1;2;3;3]%Z [2;1;1;3]%Z d) /\
  raised lm22 lm22' /\ nonneg_costs lm22 /\
  same_on_alignment lm22 lm22' (Mapping [0;0;1;2;3]%Z [0;1;2;3;3]%Z [0;0;1;2;3]%Z [0;1;2;3;3]%Z [2;1;1;3]%Z) /\
  alignment_in_window false SakoeChiba (bandQ 1) 4 4 (Mapping [0;0;1;2;3]%Z [0;1;2;3;3]%Z [0;0;1;2;3]%Z [0;1;2;3;3]%Z [2;1;1;3]%Z).
Proof. exact narrow22. Qed.

(** C78: every accumulated cost is at least an accumulated cost in the h rows before (no step spans more than h query samples). *)
Theorem C78_earlier_rows : forall (N : Num) (M : modelled N) cdist x y o (lm : mat N) d rules h,
  costs_of cdist x y lm -> dtw cdist x y o = Ok d ->
  pattern_rules (r_stepPattern d) rules -> 0 < nr lm -> o_keep_internals o = true ->
  nonneg_costs lm -> nonneg_weights rules -> (forall r a, In r rules -> In a (r_add r) -> isfin (snd a) = true) ->
  (forall r, In r rules -> r_di r <= h) ->
  exists g, r_costMatrix d = Some g /\ nr g = nr lm /\ nc g = nc lm /\
    forall i i' j' v', h <= i + 1 -> i < i' -> mget g i' j' = Some v' -> isnan v' = false ->
    exists i0 j0 v, i0 <= i < i0 + h /\ j0 <= j' /\ mget g i0 j0 = Some v /\ isnan v = false /\ leb v v' = true.
Proof. exact (fun N M => @earlier_rows_m N M). Qed.
Print Assumptions C78_earlier_rows.

(** C78: h successive rows of accumulated costs above a bound put the distance above the bound. *)
Theorem C78_abandon : forall (N : Num) (M : modelled N) cdist x y o (lm : mat N) d rules g h,
  costs_of cdist x y lm -> dtw cdist x y o = Ok d ->
  pattern_rules (r_stepPattern d) rules -> 0 < nr lm -> r_costMatrix d = Some g ->
  nonneg_costs lm -> nonneg_weights rules -> (forall r a, In r rules -> In a (r_add r) -> isfin (snd a) = true) ->
  (forall r, In r rules -> r_di r <= h) -> 0 < h ->
  forall i bound, i < nr lm -> h <= i + 1 ->
    (forall i0 j v, i0 <= i < i0 + h -> mget g i0 j = Some v -> isnan v = false -> ltb bound v = true) ->
    ltb bound (r_distance d) = true.
Proof. exact (fun N M => @abandon_m N M). Qed.
Print Assumptions C78_abandon.

(** C78: one row, for the step patterns that advance by at most one query sample. *)
Theorem C78_abandon_named : forall (N : Num) (M : modelled N) cdist x y o (lm : mat N) d k g,
  costs_of cdist x y lm -> dtw cdist x y o = Ok d ->
  lookup k pattern_table = Some (r_stepPattern d) -> In k one_row_names -> 0 < nr lm -> r_costMatrix d = Some g -> nonneg_costs lm ->
  forall i bound, i < nr lm -> (forall j v, mget g i j = Some v -> isnan v = false -> ltb bound v = true) ->
    ltb bound (r_distance d) = true.
Proof. exact (fun N M => @abandon_named_m N M). Qed.
Print Assumptions C78_abandon_named.

(** C78: along the returned alignment the accumulated costs never decrease, up to the distance. *)
Theorem C78_along : forall (N : Num) (M : modelled N) cdist x y o (lm : mat N) d rules g mp,
  costs_of cdist x y lm -> dtw cdist x y o = Ok d ->
  pattern_rules (r_stepPattern d) rules -> 0 < nr lm -> r_costMatrix d = Some g -> r_map d = Some mp ->
  nonneg_costs lm -> nonneg_weights rules -> (forall r a, In r rules -> In a (r_add r) -> isfin (snd a) = true) ->
  forall t t' i j i' j', t < t' -> nth_error (index1s mp) t = Some i -> nth_error (index2s mp) t = Some j ->
    nth_error (index1s mp) t' = Some i' -> nth_error (index2s mp) t' = Some j' ->
  exists v v', mget g (Z.to_nat i) (Z.to_nat j) = Some v /\ mget g (Z.to_nat i') (Z.to_nat j') = Some v' /\
    leb v v' = true /\ leb v' (r_distance d) = true.
Proof. exact (fun N M => @costs_along_m N M). Qed.
Print Assumptions C78_along.

(** C78: for the predefined step patterns. *)
Theorem C78_along_named : forall (N : Num) (M : modelled N) cdist x y o (lm : mat N) d k g mp,
  costs_of cdist x y lm -> dtw cdist x y o = Ok d ->
  lookup k pattern_table = Some (r_stepPattern d) -> ~ In k negative_names -> 0 < nr lm -> r_costMatrix d = Some g -> r_map d = Some mp ->
  nonneg_costs lm ->
  forall t t' i j i' j', t < t' -> nth_error (index1s mp) t = Some i -> nth_error (index2s mp) t = Some j ->
    nth_error (index1s mp) t' = Some i' -> nth_error (index2s mp) t' = Some j' ->
  exists v v', mget g (Z.to_nat i) (Z.to_nat j) = Some v /\ mget g (Z.to_nat i') (Z.to_nat j') = Some v' /\
    leb v v' = true /\ leb v' (r_distance d) = true.
Proof. exact (fun N M => @costs_along_named_m N M). Qed.
Print Assumptions C78_along_named.

Example C78_case : succeeds lmF22 (named "symmetric1" WTNone [] true false false false) "symmetric1" NoWindow (fun d => dist_is 5 d &&
    cells_are (r_costMatrix d) [Some 0; Some 1; Some 10; Some 19; Some 9; Some 9; Some 2; Some 11; Some 18; Some 18; Some 11; Some 3; Some 27; Some 27; Some 20; Some 5]%Z) /\
  In "symmetric1" one_row_names /\ ~ In "symmetric1" negative_names.
Proof. exact grow22. Qed.

(** C79: what dtw(x, y) with no other arguments returns. *)
Theorem C79_default_call : forall (N : Num) (L : NumLaws N) cdist x y (lm : mat N) d,
  costs_of cdist x y lm -> dtw cdist x y default_opts = Ok d -> 0 < nr lm ->
  textbook_optimum 2 lm d /\
  r_normalizedDistance d = div (r_distance d) (ofZ (Z.of_nat (nr lm) + Z.of_nat (nc lm))) /\
  r_N d = nr lm /\ r_M d = nc lm /\ r_stepPattern d = symmetric2 /\ r_windowFunction d = NoWindow /\ r_windowArgs d = [] /\
  r_openEnd d = false /\ r_openBegin d = false /\ r_jmin d = nc lm - 1 /\ r_costMatrix d = None.
Proof. exact (fun N L  => @default_call N L). Qed.
Print Assumptions C79_default_call.

(** C79: it does not fail on finite costs (binary64). *)
Theorem C79_default_found : forall cdist x y (lm : mat NumF),
  costs_of cdist x y lm -> native_array x y -> 0 < nr lm -> size_ok (nr lm) (nc lm) ->
  moderate lm -> exists d, dtw cdist x y default_opts = Ok d.
Proof. exact default_found_binary64. Qed.
Print Assumptions C79_default_found.

(** C79: the same with fused multiply-add. *)
Theorem C79_default_found_fma : forall cdist x y (lm : mat NumFMA),
  costs_of cdist x y lm -> native_array x y -> 0 < nr lm -> size_ok (nr lm) (nc lm) ->
  moderate lm -> exists d, dtw cdist x y default_opts = Ok d.
Proof. exact default_found_fma. Qed.
Print Assumptions C79_default_found_fma.

Example C79_case : checkOk (dtw city (series [1;3;4;9]%Z) (Some (series [1;3;7;8;9]%Z)) default_opts)
  (fun d => dist_is 6 d && align_is [0;1;2;2;3;3]%Z [0;1;1;2;3;4]%Z [1;3;2;1;2]%Z d) = true.
Proof. exact two_series. Qed.
