(** Properties10.v - C52, C53, C54: time reversal, zero distance, bounds.

    Only theorem statements, each closed by a lemma proved elsewhere, and concrete cases
    that meet their hypotheses.  See Properties1.v for the arithmetic [N] and [NumLaws]. *)
From Coq Require Import QArith Qcanon.
From Verif Require Import Base Num StepPattern Window Core Backtrack Dtw Spec Api Tables Vocab Terms.
From Verif Require Import NumQ NumQLaws NumF NumFLaws.
From Verif Require Import CoreProof DtwProof ApiThms Thm1 Thm10 Thm11 Derived Examples Examples3 Examples7 SeriesSpec Thm23 Thm24 Thm25 Examples8.
Open Scope string_scope.
Open Scope list_scope.
Open Scope nat_scope.

(** C52: for patterns that charge each cell they enter with weight one, aligning both series backwards gives
    the same distance and normalized distance (exact arithmetic). *)
Theorem C52_closed : forall cdist x y o (lm : mat NumQ) d rules cdist' x' y',
  costs_of cdist x y lm -> dtw cdist x y o = Ok d -> pattern_rules (r_stepPattern d) rules -> 0 < nr lm ->
  unit_rules rules -> o_open_begin o = false -> o_open_end o = false ->
  window_reversible (r_windowFunction d) (r_windowArgs d) (nr lm) (nc lm) ->
  costs_of cdist' x' y' (rot lm) -> native_array x' y' ->
  exists d', dtw cdist' x' y' o = Ok d' /\ r_distance d' = r_distance d /\
    r_normalizedDistance d' = r_normalizedDistance d.
Proof. exact reversed_closed. Qed.
Print Assumptions C52_closed.

(** C52: ... and the same calls fail. *)
Theorem C52_closed_failures : forall cdist x y o (lm : mat NumQ) sp rules w cdist' x' y',
  well_posed cdist x y o lm sp rules w -> unit_rules rules -> o_open_begin o = false -> o_open_end o = false ->
  window_reversible w (o_window_args o) (nr lm) (nc lm) ->
  costs_of cdist' x' y' (rot lm) -> native_array x' y' ->
  forall e, dtw cdist x y o = Raise e -> dtw cdist' x' y' o = Raise e.
Proof. exact reversed_fails. Qed.
Print Assumptions C52_closed_failures.

(** C52: for asymmetric-like patterns, open_begin backwards is open_end forwards and conversely. *)
Theorem C52_open : forall cdist x y o (lm : mat NumQ) d rules cdist' x' y' o',
  costs_of cdist x y lm -> dtw cdist x y o = Ok d -> pattern_rules (r_stepPattern d) rules ->
  strides rules -> hint (r_stepPattern d) = "N" -> r_windowFunction d = NoWindow -> 2 <= nr lm ->
  costs_of cdist' x' y' (rot lm) -> (o_open_begin o' = true \/ native_array x' y') ->
  (Z.of_nat (nr lm + 1) * Z.of_nat (nc lm) <= INT_MAX)%Z ->
  o_step_pattern o' = o_step_pattern o -> o_window_type o' = o_window_type o ->
  o_open_begin o' = o_open_end o -> o_open_end o' = o_open_begin o -> o_distance_only o' = false ->
  exists d', dtw cdist' x' y' o' = Ok d' /\ r_distance d' = r_distance d /\
    r_normalizedDistance d' = r_normalizedDistance d.
Proof. exact reversed_open. Qed.
Print Assumptions C52_open.

(** C52: reading both series backwards turns the local cost matrix around. *)
Theorem C52_series : forall (N : Num) (cdist : mat N -> mat N -> out (mat N)) f xm ym xm' ym' lm,
  entrywise cdist f -> wf_mat xm -> wf_mat ym -> nc xm = nc ym -> cdist xm ym = Ok lm ->
  wf_mat xm' -> wf_mat ym' -> backwards xm xm' -> backwards ym ym' ->
  cdist xm' ym' = Ok (rot lm).
Proof. exact (fun N  => @backwards_costs N). Qed.
Print Assumptions C52_series.

(** C52: the local cost matrix turned around. *)
Theorem C52_costs : forall (N : Num) (lm : mat N) i j,
  wf_mat lm -> i < nr lm -> j < nc lm ->
  cell (rot lm) i j = cell lm (nr lm - 1 - i) (nc lm - 1 - j).
Proof. exact (fun N  => @rot_cell N). Qed.
Print Assumptions C52_costs.

(** C52: predefined patterns of this kind. *)
Theorem C52_patterns : forall k l,
  In k ["symmetric1"; "asymmetric"; "typeIIa"; "rigid"] -> lookup k predefined = Some l -> unit_rules (@productions NumQ l).
Proof. exact unit_predefined. Qed.
Print Assumptions C52_patterns.

Theorem C52_patterns_mvm : forall e,
  unit_rules (@productions NumQ (mvm_productions e)).
Proof. exact unit_mvm. Qed.
Print Assumptions C52_patterns_mvm.

Theorem C52_patterns_open : forall l,
  lookup "asymmetric" predefined = Some l -> strides (@productions NumQ l).
Proof. exact strides_asymmetric. Qed.
Print Assumptions C52_patterns_open.

Theorem C52_no_window : forall (N : Num) (kw : kwargs N) n m,
  window_reversible NoWindow kw n m.
Proof. exact (fun N  => @reversible_none N). Qed.
Print Assumptions C52_no_window.

Theorem C52_sakoe_chiba : forall (N : Num) (ws : N) n,
  leb (ofZ 0) ws = true ->
  window_reversible SakoeChiba [("window_size", ws)] n n.
Proof. exact (fun N  => @reversible_sakoe N). Qed.
Print Assumptions C52_sakoe_chiba.

Example C52_case_symmetric1 : succeeds mRev (named "symmetric1" (WTName "sakoechiba") (bandQ 1) true false false false) "symmetric1" SakoeChiba
    (fun d => dist_is 6 d && align_is [0;0;1;2]%Z [0;1;2;2]%Z [2;1;3]%Z d) /\
  succeeds (rot mRev) (named "symmetric1" (WTName "sakoechiba") (bandQ 1) true false false false) "symmetric1" SakoeChiba
    (fun d => dist_is 6 d && align_is [0;1;2;2]%Z [0;0;1;2]%Z [3;1;2]%Z d) /\
  window_reversible SakoeChiba (bandQ 1) 3 3.
Proof. exact rev_symmetric1. Qed.

(** C52: symmetric2 is not of this kind, and its distance does change. *)
Theorem C52_symmetric2_differs : succeeds mDiag (oQ "symmetric2") "symmetric2" NoWindow (dist_is 2) /\
  succeeds (rot mDiag) (oQ "symmetric2") "symmetric2" NoWindow (dist_is 1).
Proof. exact rev_symmetric2_differs. Qed.

Example C52_case_open : succeeds mOpen (named "asymmetric" WTNone [] true false true false) "asymmetric" NoWindow
    (fun d => dist_is 2 d && align_is [0;1;2]%Z [0;1;1]%Z [2;1]%Z d) /\
  succeeds (rot mOpen) (named "asymmetric" WTNone [] true false false true) "asymmetric" NoWindow
    (fun d => dist_is 2 d && align_is [0;1;2]%Z [2;2;3]%Z [1;1;2]%Z d).
Proof. exact rev_open. Qed.

Example C52_case_series : backwards xRev (ints 3 2 [5;0; 3;4; 1;2]%Z) /\ backwards yRev (ints 2 2 [4;4; 1;1]%Z) /\
  checkOk (dtw (cdist_of sq) (NdArray (Nd2 xRev) true true) (Some (NdArray (Nd2 yRev) true true)) (oQ "symmetric1"))
    (dist_is 19) = true /\
  checkOk (dtw (cdist_of sq) (NdArray (Nd2 (ints 3 2 [5;0; 3;4; 1;2]%Z)) true true)
            (Some (NdArray (Nd2 (ints 2 2 [4;4; 1;1]%Z)) true true)) (oQ "symmetric1")) (dist_is 19) = true.
Proof. exact series_backwards. Qed.

Example C52_case_cdist : forall (N : Num) (f : list N -> list N -> N), entrywise (cdist_of f) f.
Proof. exact cdist_of_entrywise. Qed.

(** C53: when labels (sample values) are equal exactly where the local cost is zero, the distance is zero exactly
    when both series are the same series with samples repeated. *)
Theorem C53_zero : forall (N : Num) cdist x y o (lm : mat N) d nm A (xs ys : list A),
  modelled N -> costs_of cdist x y lm -> dtw cdist x y o = Ok d -> 0 < nr lm ->
  nm = "symmetric1" \/ nm = "symmetric2" -> lookup nm pattern_table = Some (r_stepPattern d) ->
  r_windowFunction d = NoWindow -> o_open_begin o = false -> o_open_end o = false ->
  (forall i j, i < nr lm -> j < nc lm -> leb (ofZ 0) (cell lm i j) = true) ->
  List.length xs = nr lm -> List.length ys = nc lm ->
  (forall i j a b, nth_error xs i = Some a -> nth_error ys j = Some b ->
     (eqb (cell lm i j) (ofZ 0) = true <-> a = b)) ->
  (eqb (r_distance d) (ofZ 0) = true <-> exists z, stretched z xs /\ stretched z ys).
Proof. exact zero_distance. Qed.
Print Assumptions C53_zero.

Example C53_case_zero : succeeds (absdiff [1;1;2;3] [1;2;2;3;3])%Z (oKeep "symmetric2") "symmetric2" NoWindow (dist_is 0) /\
  stretched [1;2;3]%Z [1;1;2;3]%Z /\ stretched [1;2;3]%Z [1;2;2;3;3]%Z.
Proof. exact zero_case. Qed.

Example C53_case_labels : forall i j a b, nth_error [1;1;2;3]%Z i = Some a -> nth_error [1;2;2;3;3]%Z j = Some b ->
  eqb (cell (absdiff [1;1;2;3] [1;2;2;3;3])%Z i j) (ofZ 0) = true <-> a = b.
Proof. exact zero_labels. Qed.

Example C53_case_nonzero : succeeds (absdiff [1;2;1] [1;2])%Z (oKeep "symmetric2") "symmetric2" NoWindow (dist_is 1).
Proof. exact nonzero_case. Qed.

(** C54: the sum over query samples of any lower bound of the costs inside the window is a lower bound of the
    distance, as computed in floating point. *)
Theorem C54_lower : forall (N : Num) cdist x y o (lm : mat N) d rules lb,
  modelled N -> costs_of cdist x y lm -> dtw cdist x y o = Ok d -> pattern_rules (r_stepPattern d) rules ->
  row_steps rules -> o_open_begin o = false ->
  (forall i j, i < nr lm -> j < nc lm ->
     (i = 0 /\ j = 0) \/ in_window (r_windowFunction d) (r_windowArgs d) (nr lm) (nc lm) i j ->
     isnan (cell lm i j) = true \/ (leb (ofZ 0) (lb i) = true /\ leb (lb i) (cell lm i j) = true)) ->
  leb (running_sum (ofZ 1) lb (nr lm - 1)) (r_distance d) = true.
Proof. exact row_lower_bound. Qed.
Print Assumptions C54_lower.

(** C54: the cost of the lock-step alignment is an upper bound. *)
Theorem C54_upper : forall (N : Num) (L : NumLaws N) cdist x y o (lm : mat N) d rules w,
  costs_of cdist x y lm -> dtw cdist x y o = Ok d -> pattern_rules (r_stepPattern d) rules ->
  In (Rule 1 1 [(0, 0, w)]) rules -> o_open_begin o = false -> o_open_end o = false -> 0 < nr lm -> nr lm = nc lm ->
  (forall i, 0 < i < nr lm -> in_window (r_windowFunction d) (r_windowArgs d) (nr lm) (nc lm) i i) ->
  good (running_sum w (fun i => cell lm i i) (nr lm - 1)) ->
  leb (r_distance d) (running_sum w (fun i => cell lm i i) (nr lm - 1)) = true.
Proof. exact (fun N L  => @lock_upper_bound N L). Qed.
Print Assumptions C54_upper.

Theorem C54_lower_patterns : forall (N : Num) k l,
  In k ["symmetric1"; "symmetric2"; "symmetricP0"; "asymmetric"; "rigid"] -> lookup k predefined = Some l ->
  row_steps (@productions N l).
Proof. exact (fun N  => @row_by_row_predefined N). Qed.
Print Assumptions C54_lower_patterns.

Theorem C54_lower_mvm : forall (N : Num) e,
  row_steps (@productions N (mvm_productions e)).
Proof. exact (fun N  => @row_by_row_mvm N). Qed.
Print Assumptions C54_lower_mvm.

Theorem C54_upper_patterns : forall (N : Num) k l w,
  In (k, w) [("symmetric1", 1); ("symmetric2", 2); ("symmetricP0", 2); ("asymmetric", 1); ("typeIIa", 1); ("rigid", 1)]%Z ->
  lookup k predefined = Some l -> In (@Rule N 1 1 [(0, 0, ofZ w)]) (productions l).
Proof. exact (fun N  => @lock_step_predefined N). Qed.
Print Assumptions C54_upper_patterns.

Example C54_case : succeeds m5 (named "symmetric1" (WTName "sakoechiba") (ws 1) true false false false) "symmetric1" SakoeChiba
    (fun d => dist_is 4 d && leb (running_sum (ofZ 1) lb5 4) (r_distance d) && eqb (running_sum (ofZ 1) lb5 4) (ofZ 3) &&
              leb (r_distance d) (running_sum (ofZ 1) (fun i => cell m5 i i) 4)
              && eqb (running_sum (ofZ 1) (fun i => cell m5 i i) 4) (ofZ 6)) /\
  forallb (fun i => forallb (fun j => (1 <? i - j) || (1 <? j - i) ||
     (leb (ofZ 0) (lb5 i) && leb (lb5 i) (cell m5 i j))) (seq 0 5)) (seq 0 5) = true.
Proof. exact bounds_case. Qed.
