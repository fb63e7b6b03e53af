(** Properties12.v - further forms of C01, C05, C10, C13, C22, C36, C39 and C42.

    Only theorem statements, each closed by a lemma proved elsewhere, and concrete cases
    that meet their hypotheses.  See Properties1.v for the arithmetic [N] and [NumLaws]. *)
From Verif Require Import Base Num StepPattern Window Core Backtrack Dtw Spec Api Tables Vocab Terms.
From Verif Require Import NumQ NumQLaws NumF NumFLaws.
From Verif Require Import CoreProof DtwProof ApiThms Thm1 Thm3 Thm8 Thm10 Derived Warp WarpSpec Laws2 Examples Examples3 Examples9 Thm19 Thm30 Examples10.
Open Scope string_scope.
Open Scope list_scope.
Open Scope nat_scope.

(** C01: the distance is at most the cost of every admissible path, also of one of infinite cost. *)
Theorem C01_every_path : forall (N : Num) (L : NumLaws N) cdist x y o (lm : mat N) d rules,
  costs_of cdist x y lm -> dtw cdist x y o = Ok d -> pattern_rules (r_stepPattern d) rules ->
  o_open_begin o = false -> o_open_end o = false ->
  forall ks vs ts c,
    closed_walk rules lm (r_windowFunction d) (r_windowArgs d) ks vs ts (nr lm - 1, nc lm - 1) c ->
    isnan c = false -> leb (r_distance d) c = true.
Proof. exact (fun N L  => @optimal_every_path N L). Qed.
Print Assumptions C01_every_path.

Example C01_case_infinite : succeeds mInf (oKeep "symmetric2") "symmetric2" NoWindow (dist_is 3) /\
  exists l c ks vs ts, lookup "symmetric2" predefined = Some l /\
    closed_walk (productions l) mInf NoWindow [] ks vs ts (1, 1) c /\ isnan c = false /\ ltb c pinf = false.
Proof. exact infinite_path_case. Qed.

(** C05: with open begin, too; the first step leaves the virtual row before the query. *)
Theorem C05_steps_follow_table_open_begin : forall (N : Num) (L : NumLaws N) cdist x y o (lm : mat N) d rules,
  costs_of cdist x y lm ->
  dtw cdist x y o = Ok d -> pattern_rules (r_stepPattern d) rules -> o_open_begin o = true ->
  exists mp, r_map d = Some mp /\
  (forall k, nth_error (stepsTaken mp) 0 = Some k ->
     exists j0 i j, (0 <= j0 < Z.of_nat (nc lm))%Z /\
       nth_error (index1s mp) 0 = Some i /\ nth_error (index2s mp) 0 = Some j /\
       In (Row (ofZ k) (ofZ (i + 1)) (ofZ (j - j0)) (ofZ (-1))) (mx (r_stepPattern d))) /\
  (forall t k, nth_error (stepsTaken mp) (S t) = Some k ->
     exists i j i' j', nth_error (index1s mp) t = Some i /\ nth_error (index2s mp) t = Some j /\
       nth_error (index1s mp) (S t) = Some i' /\ nth_error (index2s mp) (S t) = Some j' /\
       In (Row (ofZ k) (ofZ (i' - i)) (ofZ (j' - j)) (ofZ (-1))) (mx (r_stepPattern d))).
Proof. exact (fun N L  => @steps_follow_table_open N L). Qed.
Print Assumptions C05_steps_follow_table_open_begin.

(** C05: index1/index2 pass through the intermediate points of every production and then its end point ([replay]),
    index1s/index2s through the end points only ([replay_ends]). *)
Theorem C05_refined : forall (N : Num) (L : NumLaws N) cdist x y o (lm : mat N) d rules,
  costs_of cdist x y lm ->
  dtw cdist x y o = Ok d -> pattern_rules (r_stepPattern d) rules ->
  o_distance_only o = false -> o_open_begin o = false ->
  exists mp ks, r_map d = Some mp /\ stepsTaken mp = map Z.of_nat ks /\
    (forall k, In k ks -> exists r, rule_no rules k = Some r) /\
    index1s mp = map query_ix ((0, 0) :: replay_ends rules 0 0 ks) /\
    index2s mp = map ref_ix ((0, 0) :: replay_ends rules 0 0 ks) /\
    index1 mp = map query_ix ((0, 0) :: replay rules 0 0 ks) /\
    index2 mp = map ref_ix ((0, 0) :: replay rules 0 0 ks) /\
    r_distance d = replay_cost rules (cell lm) 0 0 (cell lm 0 0) ks.
Proof. exact (fun N L  => @alignment_closed N L). Qed.
Print Assumptions C05_refined.

(** C05: with open begin. *)
Theorem C05_refined_open_begin : forall (N : Num) (L : NumLaws N) cdist x y o (lm : mat N) d rules,
  costs_of cdist x y lm ->
  dtw cdist x y o = Ok d -> pattern_rules (r_stepPattern d) rules -> o_open_begin o = true ->
  exists mp ks j0, r_map d = Some mp /\ j0 < nc lm /\ stepsTaken mp = map Z.of_nat ks /\
    (forall k, In k ks -> exists r, rule_no rules k = Some r) /\
    index1s mp = map query_ix_open (replay_ends rules 0 j0 ks) /\
    index2s mp = map ref_ix (replay_ends rules 0 j0 ks) /\
    index1 mp = map query_ix_open (replay rules 0 j0 ks) /\
    index2 mp = map ref_ix (replay rules 0 j0 ks) /\
    r_distance d = replay_cost rules (cell (padded lm)) 0 j0 (ofZ 0) ks.
Proof. exact (fun N L  => @alignment_open N L). Qed.
Print Assumptions C05_refined_open_begin.

Example C05_case_open_begin : succeeds mB (named "typeIIc" WTNone [] true false true true) "typeIIc" NoWindow
    (fun d => align_is [1;2]%Z [1;2]%Z [3;1]%Z d && area_fails d) /\
  succeeds mA (named "asymmetric" WTNone [] true false true true) "asymmetric" NoWindow
    (fun d => align_is [0;1;2]%Z [0;1;2]%Z [1;2;2]%Z d && area_ok d).
Proof. exact area_open_case. Qed.

(** C10: with open begin the band is measured from the query with one virtual sample in front of it. *)
Theorem C10_sakoe_chiba_points_open_begin : forall (N : Num) (L : NumLaws N) cdist x y o (lm : mat N) d rules ws,
  costs_of cdist x y lm ->
  dtw cdist x y o = Ok d -> pattern_rules (r_stepPattern d) rules -> o_open_begin o = true -> 0 < nr lm ->
  r_windowFunction d = SakoeChiba -> r_windowArgs d = band ws ->
  exists mp, r_map d = Some mp /\
  forall t i j, nth_error (index1s mp) t = Some i -> nth_error (index2s mp) t = Some j ->
    leb (ofZ (Z.abs (j - (i + 1)))) ws = true.
Proof. exact (fun N L  => @sakoe_points_open N L). Qed.
Print Assumptions C10_sakoe_chiba_points_open_begin.

Example C10_case_open_begin : succeeds mA (named "asymmetric" (WTName "sakoechiba") (ws 1) true false true true) "asymmetric" SakoeChiba
    (fun d => dist_is 3 d && align_is [0;1;2]%Z [0;1;2]%Z [1;2;2]%Z d &&
       cells_are (r_costMatrix d) [Some 1; Some 5; Some 2; None; None; Some 2; Some 7; Some 4; None; None; Some 3; Some 3]%Z).
Proof. exact band_open_case. Qed.

(** C13: jmin in terms of the last row of the cumulative cost matrix. *)
Theorem C13_last_row : forall (N : Num) (L : NumLaws N) cdist x y o (lm : mat N) d rules,
  costs_of cdist x y lm ->
  dtw cdist x y o = Ok d -> pattern_rules (r_stepPattern d) rules -> o_keep_internals o = true ->
  o_open_end o = true -> 0 < nr lm ->
  exists g, r_costMatrix d = Some g /\ nr g = nr lm /\ nc g = nc lm /\
    mget g (nr lm - 1) (r_jmin d) = Some (r_distance d) /\
    r_normalizedDistance d = normalized (hint (r_stepPattern d)) (nr lm) (r_jmin d) (r_distance d) /\
    forall j v, mget g (nr lm - 1) j = Some v -> isnan v = false ->
      leb (r_normalizedDistance d) (normalized (hint (r_stepPattern d)) (nr lm) j v) = true /\
      (j < r_jmin d -> ltb (r_normalizedDistance d) (normalized (hint (r_stepPattern d)) (nr lm) j v) = true).
Proof. exact (fun N L  => @open_end_matrix N L). Qed.
Print Assumptions C13_last_row.

Example C13_case_last_row : succeeds mA (named "symmetric2" WTNone [] true false true false) "symmetric2" NoWindow
    (fun d => (r_jmin d =? 2) && dist_is 5 d &&
       cells_are (r_costMatrix d) [Some 1; Some 6; Some 8; Some 12; Some 4; Some 3; Some 9; Some 11; Some 8; Some 5; Some 5; Some 6]%Z).
Proof. exact last_row_case. Qed.

(** C22: no entry of the cumulative cost matrix is negative. *)
Theorem C22_nonnegative_matrix : forall (N : Num) (L : NumLaws N) cdist x y o (lm : mat N) d rules,
  costs_of cdist x y lm ->
  dtw cdist x y o = Ok d -> pattern_rules (r_stepPattern d) rules -> o_keep_internals o = true ->
  nonneg_weights rules -> nonneg_costs lm ->
  exists g, r_costMatrix d = Some g /\ nr g = nr lm /\ nc g = nc lm /\
    forall i j v, mget g i j = Some v -> leb (ofZ 0) v = true \/ isnan v = true.
Proof. exact (fun N L  => @matrix_nonneg N L). Qed.
Print Assumptions C22_nonnegative_matrix.

Example C22_case_matrix : succeeds mA (named "symmetric2" WTNone [] true false true false) "symmetric2" NoWindow
    (fun d => (r_jmin d =? 2) && dist_is 5 d &&
       cells_are (r_costMatrix d) [Some 1; Some 6; Some 8; Some 12; Some 4; Some 3; Some 9; Some 11; Some 8; Some 5; Some 5; Some 6]%Z).
Proof. exact last_row_case. Qed.

(** C36: with open begin warpArea needs query sample 0 to be matched. *)
Theorem C36_open_begin : forall (N : Num) (L : NumLaws N) (L2 : NumLaws2 N) cdist x y o (lm : mat N) d rules,
  costs_of cdist x y lm ->
  dtw cdist x y o = Ok d -> pattern_rules (r_stepPattern d) rules ->
  o_open_begin o = true -> 0 < nr lm -> leaves_row rules ->
  exists mp, r_map d = Some mp /\
    (In 0%Z (index1 mp) -> exists ts, warpArea d = Ok (np_sum ts) /\ leb (ofZ 0) (np_sum ts) = true /\
       area_terms (index1 mp) (index2 mp) (nr lm) (nc lm) ts) /\
    (~ In 0%Z (index1 mp) ->
       warpArea d = Raise (ValueError "A value in x_new is below the interpolation range's minimum value")).
Proof. exact (fun N L  => @area_open N L). Qed.
Print Assumptions C36_open_begin.

Example C36_case_open_begin : succeeds mB (named "typeIIc" WTNone [] true false true true) "typeIIc" NoWindow
    (fun d => align_is [1;2]%Z [1;2]%Z [3;1]%Z d && area_fails d) /\
  succeeds mA (named "asymmetric" WTNone [] true false true true) "asymmetric" NoWindow
    (fun d => align_is [0;1;2]%Z [0;1;2]%Z [1;2;2]%Z d && area_ok d).
Proof. exact area_open_case. Qed.

(** C39: with open begin. *)
Theorem C39_convention_open_begin : forall (N : Num) (L : NumLaws N) cdist x y o (lm : mat N) d rules,
  costs_of cdist x y lm ->
  dtw cdist x y o = Ok d -> pattern_rules (r_stepPattern d) rules -> o_open_begin o = true ->
  exists mp, r_map d = Some mp /\
  (forall k, nth_error (stepsTaken mp) 0 = Some k ->
     exists j0 i j, (0 <= j0 < Z.of_nat (nc lm))%Z /\
       nth_error (index1s mp) 0 = Some i /\ nth_error (index2s mp) 0 = Some j /\
       In (Row (ofZ k) (ofZ (i + 1)) (ofZ (j - j0)) (ofZ (-1))) (mx (r_stepPattern d))) /\
  (forall t k, nth_error (stepsTaken mp) (S t) = Some k ->
     exists i j i' j', nth_error (index1s mp) t = Some i /\ nth_error (index2s mp) t = Some j /\
       nth_error (index1s mp) (S t) = Some i' /\ nth_error (index2s mp) (S t) = Some j' /\
       In (Row (ofZ k) (ofZ (i' - i)) (ofZ (j' - j)) (ofZ (-1))) (mx (r_stepPattern d))).
Proof. exact (fun N L  => @steps_follow_table_open N L). Qed.
Print Assumptions C39_convention_open_begin.

(** C42: with open begin (offsets beyond the first query sample lie in the virtual row). *)
Theorem C42_obstacles_open_begin : forall (N : Num) (L : NumLaws N) cdist x y o (lm : mat N) d rules,
  costs_of cdist x y lm ->
  dtw cdist x y o = Ok d -> pattern_rules (r_stepPattern d) rules ->
  o_open_begin o = true -> nonneg_weights rules ->
  exists mp, r_map d = Some mp /\
    forall t k r i j a, nth_error (stepsTaken mp) t = Some k -> rule_no rules (Z.to_nat k) = Some r ->
      nth_error (index1s mp) t = Some i -> nth_error (index2s mp) t = Some j ->
      In a (r_add r) -> (Z.of_nat (fst (fst a)) <= i)%Z ->
      good (cell lm (Z.to_nat i - fst (fst a)) (Z.to_nat j - snd (fst a))).
Proof. exact (fun N L  => @obstacles_open N L). Qed.
Print Assumptions C42_obstacles_open_begin.

Example C42_case_open_begin : succeeds mB (named "asymmetric" WTNone [] true false true true) "asymmetric" NoWindow
    (fun d => dist_is 3 d && align_is [0;1;2]%Z [0;1;2]%Z [1;2;2]%Z d).
Proof. exact obstacle_open_case. Qed.
