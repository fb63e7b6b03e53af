(** Properties1.v - C01 to C08: what the returned distance, alignment and matrices are.

    Only theorem statements, each closed by a lemma proved elsewhere, and concrete
    cases that meet their hypotheses.  [N] is the arithmetic; [NumLaws] holds of IEEE
    binary64 with and without fused multiply-add (NumFLaws.v) and of exact arithmetic
    (NumQLaws.v).  Vocabulary: Spec.v, Api.v, Vocab.v. *)
From Verif Require Import Base Num StepPattern Window Core Backtrack Dtw Spec Api Tables Vocab Terms.
From Verif Require Import NumQ NumQLaws NumF NumFLaws.
From Verif Require Import ApiThms Thm1 Thm4 Thm5 Thm10 Derived Examples.
Open Scope string_scope.
Open Scope list_scope.
Open Scope nat_scope.

(** The laws used below hold in binary64 arithmetic, with a separate or a fused
    multiply-add, and in exact arithmetic. *)
Theorem laws_binary64 : NumLaws NumF.
Proof. exact NumF_laws. Qed.
Print Assumptions laws_binary64.
Theorem laws_binary64_fma : NumLaws NumFMA.
Proof. exact NumFMA_laws. Qed.
Print Assumptions laws_binary64_fma.
Theorem laws_exact : NumLaws NumQ.
Proof. exact NumQ_laws. Qed.
Print Assumptions laws_exact.

(** C01: the distance is a lower bound of the cost of every admissible alignment. *)
Theorem C01_distance_optimal : forall (N : Num) (L : NumLaws N) cdist x y o (lm : mat N) d rules,
  costs_of cdist x y lm -> dtw cdist x y o = Ok d -> pattern_rules (r_stepPattern d) rules ->
  o_open_begin o = false -> o_open_end o = false ->
  forall ks vs ts c,
    closed_walk rules lm (r_windowFunction d) (r_windowArgs d) ks vs ts (nr lm - 1, nc lm - 1) c ->
    usable ks c -> leb (r_distance d) c = true.
Proof. exact (fun N L => optimal_closed L). Qed.
Print Assumptions C01_distance_optimal.

Example C01_case : succeeds mA (oKeep "symmetric2") "symmetric2" NoWindow
  (fun d => dist_is 6 d && align_is [0;1;2;2]%Z [0;1;2;3]%Z [1;1;2]%Z d).
Proof. exact exA. Qed.
Example C01_other_alignment : exists l vs ts c, lookup "symmetric2" predefined = Some l /\
  closed_walk (productions l) mA NoWindow [] [2;2;2;3;3] vs ts (nr mA - 1, nc mA - 1) c /\
  usable [2;2;2;3;3] c /\ eqb c (ofZ 15) = true.
Proof. exact exA_other. Qed.

(** C02: re-adding the costs along stepsTaken gives the distance; the four index lists
    are the cells passed by stepsTaken. *)
Theorem C02_alignment_attains_distance : forall (N : Num) (L : NumLaws N) cdist x y o (lm : mat N) d rules,
  costs_of cdist x y lm -> dtw cdist x y o = Ok d -> pattern_rules (r_stepPattern d) rules ->
  o_distance_only o = false -> o_open_begin o = false ->
  exists mp ks, r_map d = Some mp /\ stepsTaken mp = map Z.of_nat ks /\
    (forall k, In k ks -> exists r, rule_no rules k = Some r) /\
    index1s mp = map query_ix ((0, 0) :: replay_ends rules 0 0 ks) /\
    index2s mp = map ref_ix ((0, 0) :: replay_ends rules 0 0 ks) /\
    index1 mp = map query_ix ((0, 0) :: replay rules 0 0 ks) /\
    index2 mp = map ref_ix ((0, 0) :: replay rules 0 0 ks) /\
    r_distance d = replay_cost rules (cell lm) 0 0 (cell lm 0 0) ks.
Proof. exact (fun N L => alignment_closed L). Qed.
Print Assumptions C02_alignment_attains_distance.

Theorem C02_alignment_attains_distance_open_begin : forall (N : Num) (L : NumLaws N) cdist x y o (lm : mat N) d rules,
  costs_of cdist x y lm -> dtw cdist x y o = Ok d -> pattern_rules (r_stepPattern d) rules ->
  o_open_begin o = true ->
  exists mp ks j0, r_map d = Some mp /\ j0 < nc lm /\ stepsTaken mp = map Z.of_nat ks /\
    (forall k, In k ks -> exists r, rule_no rules k = Some r) /\
    index1s mp = map query_ix_open (replay_ends rules 0 j0 ks) /\
    index2s mp = map ref_ix (replay_ends rules 0 j0 ks) /\
    index1 mp = map query_ix_open (replay rules 0 j0 ks) /\
    index2 mp = map ref_ix (replay rules 0 j0 ks) /\
    r_distance d = replay_cost rules (cell (padded lm)) 0 j0 (ofZ 0) ks.
Proof. exact (fun N L => alignment_open L). Qed.
Print Assumptions C02_alignment_attains_distance_open_begin.

Example C02_case : succeeds mB (oKeep "symmetricP1") "symmetricP1" NoWindow
  (fun d => dist_is 6 d && align_is [0;1;2;2]%Z [0;1;2;3]%Z [2;1]%Z d && steps_are [0;1;2]%Z [0;1;3]%Z d).
Proof. exact exB. Qed.
Example C02_case_open_begin :
  succeeds mA (named "asymmetricP1" WTNone [] true false true true) "asymmetricP1" NoWindow
  (fun d => dist_is 5 d && align_is [0;1;2]%Z [2;3;3]%Z [2;3]%Z d && (r_jmin d =? 3)).
Proof. exact exBE. Qed.

(** C03: an alignment is found exactly when one of usable cost exists. *)
Theorem C03_found_iff_exists : forall (N : Num) (L : NumLaws N) cdist x y o (lm : mat N) sp rules w,
  well_posed cdist x y o lm sp rules w -> o_open_begin o = false -> o_open_end o = false ->
  ((exists d, dtw cdist x y o = Ok d) <->
   exists ks vs ts c, closed_walk rules lm w (o_window_args o) ks vs ts (nr lm - 1, nc lm - 1) c /\ usable ks c) /\
  (dtw cdist x y o =
     Raise (ValueError "No warping path found compatible with the local constraints") <->
   forall ks vs ts c, closed_walk rules lm w (o_window_args o) ks vs ts (nr lm - 1, nc lm - 1) c -> ~ usable ks c).
Proof. exact (fun N L => found_iff L). Qed.
Print Assumptions C03_found_iff_exists.

Theorem C03_found_iff_exists_open_end : forall (N : Num) (L : NumLaws N) cdist x y o (lm : mat N) sp rules w,
  well_posed cdist x y o lm sp rules w -> o_open_begin o = false -> o_open_end o = true ->
  ((exists d, dtw cdist x y o = Ok d) <->
   exists j ks vs ts c, j < nc lm /\
     closed_walk rules lm w (o_window_args o) ks vs ts (nr lm - 1, j) c /\ usable ks c) /\
  (dtw cdist x y o = Raise (ValueError "All-NaN slice encountered") <->
   forall j ks vs ts c, j < nc lm ->
     closed_walk rules lm w (o_window_args o) ks vs ts (nr lm - 1, j) c -> ~ usable ks c).
Proof. exact (fun N L => found_iff_open_end L). Qed.
Print Assumptions C03_found_iff_exists_open_end.

Example C03_case_found : succeeds mB (oKeep "symmetricP1") "symmetricP1" NoWindow
  (fun d => dist_is 6 d && align_is [0;1;2;2]%Z [0;1;2;3]%Z [2;1]%Z d && steps_are [0;1;2]%Z [0;1;3]%Z d).
Proof. exact exB. Qed.
Example C03_case_not_found : fails mWall (oKeep "symmetric2") "symmetric2" NoWindow
  (ValueError "No warping path found compatible with the local constraints").
Proof. exact exWall. Qed.
Example C03_case_open_end : succeeds mA (named "asymmetric" WTNone [] true false true false) "asymmetric" NoWindow
  (fun d => dist_is 3 d && align_is [0;1;2]%Z [0;1;2]%Z [2;2]%Z d && (r_jmin d =? 2)).
Proof. exact exE. Qed.

(** C04: lengths, ends, ranges and monotonicity of the index lists. *)
Theorem C04_anchored_monotone : forall (N : Num) (L : NumLaws N) cdist x y o (lm : mat N) d rules,
  costs_of cdist x y lm -> dtw cdist x y o = Ok d -> pattern_rules (r_stepPattern d) rules ->
  o_distance_only o = false -> o_open_begin o = false ->
  exists mp, r_map d = Some mp /\
    List.length (index1 mp) = List.length (index2 mp) /\
    List.length (index1s mp) = S (List.length (stepsTaken mp)) /\
    List.length (index2s mp) = S (List.length (stepsTaken mp)) /\
    first_is 0 (index1 mp) /\ first_is 0 (index2 mp) /\
    first_is 0 (index1s mp) /\ first_is 0 (index2s mp) /\
    last_is (Z.of_nat (nr lm) - 1) (index1 mp) /\ last_is (Z.of_nat (r_jmin d)) (index2 mp) /\
    last_is (Z.of_nat (nr lm) - 1) (index1s mp) /\ last_is (Z.of_nat (r_jmin d)) (index2s mp) /\
    within 0 (Z.of_nat (nr lm)) (index1 mp) /\ within 0 (Z.of_nat (nc lm)) (index2 mp) /\
    within 0 (Z.of_nat (nr lm)) (index1s mp) /\ within 0 (Z.of_nat (nc lm)) (index2s mp) /\
    nondecreasing (index1 mp) /\ nondecreasing (index2 mp) /\
    nondecreasing (index1s mp) /\ nondecreasing (index2s mp).
Proof. exact (fun N L => monotone_closed L). Qed.
Print Assumptions C04_anchored_monotone.

(** With open begin; [leaves_row] says that no production charges a point in its own
    start row unless it stays in that row (true of every predefined pattern). *)
Theorem C04_monotone_open_begin : forall (N : Num) (L : NumLaws N) cdist x y o (lm : mat N) d rules,
  costs_of cdist x y lm -> dtw cdist x y o = Ok d -> pattern_rules (r_stepPattern d) rules ->
  o_open_begin o = true -> 0 < nr lm ->
  exists mp, r_map d = Some mp /\
    List.length (index1 mp) = List.length (index2 mp) /\
    List.length (index1s mp) = List.length (stepsTaken mp) /\
    List.length (index2s mp) = List.length (stepsTaken mp) /\
    last_is (Z.of_nat (nr lm) - 1) (index1 mp) /\ last_is (Z.of_nat (r_jmin d)) (index2 mp) /\
    last_is (Z.of_nat (nr lm) - 1) (index1s mp) /\ last_is (Z.of_nat (r_jmin d)) (index2s mp) /\
    within 0 (Z.of_nat (nc lm)) (index2 mp) /\
    within 0 (Z.of_nat (nr lm)) (index1s mp) /\ within 0 (Z.of_nat (nc lm)) (index2s mp) /\
    (leaves_row rules -> within 0 (Z.of_nat (nr lm)) (index1 mp)) /\
    nondecreasing (index1 mp) /\ nondecreasing (index2 mp) /\
    nondecreasing (index1s mp) /\ nondecreasing (index2s mp).
Proof. exact (fun N L => monotone_open L). Qed.
Print Assumptions C04_monotone_open_begin.

Theorem C04_leaves_row_predefined : forall (N : Num) k l,
  lookup k predefined = Some l -> leaves_row (@productions N l).
Proof. exact (fun N => @predefined_leaves_row N). Qed.
Print Assumptions C04_leaves_row_predefined.

Example C04_case : succeeds mB (oKeep "symmetricP1") "symmetricP1" NoWindow
  (fun d => dist_is 6 d && align_is [0;1;2;2]%Z [0;1;2;3]%Z [2;1]%Z d && steps_are [0;1;2]%Z [0;1;3]%Z d).
Proof. exact exB. Qed.
Example C04_case_open_begin :
  succeeds mA (named "asymmetricP1" WTNone [] true false true true) "asymmetricP1" NoWindow
  (fun d => dist_is 5 d && align_is [0;1;2]%Z [2;3;3]%Z [2;3]%Z d && (r_jmin d =? 3)).
Proof. exact exBE. Qed.

(** C05: each step is the displacement of the production it names: the start row of
    that production in the step pattern's numeric table.  (The refinement by the
    intermediate points is in C02: index1/index2 are [replay].) *)
Theorem C05_steps_follow_table : forall (N : Num) (L : NumLaws N) cdist x y o (lm : mat N) d rules,
  costs_of cdist x y lm -> dtw cdist x y o = Ok d -> pattern_rules (r_stepPattern d) rules ->
  o_distance_only o = false -> o_open_begin o = false ->
  exists mp, r_map d = Some mp /\
  forall t k, nth_error (stepsTaken mp) t = Some k ->
  exists i j i' j', nth_error (index1s mp) t = Some i /\ nth_error (index2s mp) t = Some j /\
    nth_error (index1s mp) (S t) = Some i' /\ nth_error (index2s mp) (S t) = Some j' /\
    In (Row (ofZ k) (ofZ (i' - i)) (ofZ (j' - j)) (ofZ (-1))) (mx (r_stepPattern d)).
Proof. exact (fun N L => steps_follow_table L). Qed.
Print Assumptions C05_steps_follow_table.

Example C05_case : succeeds mB (oKeep "symmetricP1") "symmetricP1" NoWindow
  (fun d => dist_is 6 d && align_is [0;1;2;2]%Z [0;1;2;3]%Z [2;1]%Z d && steps_are [0;1;2]%Z [0;1;3]%Z d).
Proof. exact exB. Qed.

(** C06: the recursion between the entries of costMatrix and directionMatrix. *)
Theorem C06_cost_matrix : forall (N : Num) (L : NumLaws N) cdist x y o (lm : mat N) d rules,
  costs_of cdist x y lm -> dtw cdist x y o = Ok d -> pattern_rules (r_stepPattern d) rules ->
  o_keep_internals o = true -> o_open_begin o = false ->
  r_localCostMatrix d = Some lm /\
  exists cm dm, r_costMatrix d = Some cm /\ r_directionMatrix d = Some dm /\
    nr cm = nr lm /\ nc cm = nc lm /\ nr dm = nr lm /\ nc dm = nc lm /\
    (mget cm 0 0 = mget lm 0 0 /\ mget dm 0 0 = Some INT_MIN) /\
    (forall i j, i < nr lm -> j < nc lm -> exists v s, mget cm i j = Some v /\ mget dm i j = Some s /\
       ((i, j) <> (0, 0) ->
        (in_window (r_windowFunction d) (r_windowArgs d) (nr lm) (nc lm) i j ->
           best_proposal rules (cell lm) cm i j v s) /\
        (~ in_window (r_windowFunction d) (r_windowArgs d) (nr lm) (nc lm) i j ->
           isnan v = true /\ s = INT_MIN)) /\
       (isnan v = false -> closed_optimum rules lm (r_windowFunction d) (r_windowArgs d) (i, j) v) /\
       (isnan v = true -> forall ks vs ts c,
           closed_walk rules lm (r_windowFunction d) (r_windowArgs d) ks vs ts (i, j) c -> ~ usable ks c)) /\
    mget cm (nr lm - 1) (r_jmin d) = Some (r_distance d).
Proof. exact (fun N L => dtw_matrices_closed L). Qed.
Print Assumptions C06_cost_matrix.

Theorem C06_cost_matrix_open_begin : forall (N : Num) (L : NumLaws N) cdist x y o (lm : mat N) d rules,
  costs_of cdist x y lm -> dtw cdist x y o = Ok d -> pattern_rules (r_stepPattern d) rules ->
  o_keep_internals o = true -> o_open_begin o = true ->
  r_localCostMatrix d = Some lm /\
  exists g dg, r_costMatrix d = Some (drop_first_row g) /\ r_directionMatrix d = Some (drop_first_row dg) /\
    nr g = nr lm + 1 /\ nc g = nc lm /\ nr dg = nr lm + 1 /\ nc dg = nc lm /\
    wf_mat g /\ wf_mat dg /\
    (forall j, j < nc lm -> mget g 0 j = Some (ofZ 0) /\ mget dg 0 j = Some INT_MIN) /\
    (forall i j, 1 <= i < nr lm + 1 -> j < nc lm -> exists v s, mget g i j = Some v /\ mget dg i j = Some s /\
        (in_window (r_windowFunction d) (r_windowArgs d) (nr lm + 1) (nc lm) i j ->
           best_proposal rules (cell (padded lm)) g i j v s) /\
        (~ in_window (r_windowFunction d) (r_windowArgs d) (nr lm + 1) (nc lm) i j ->
           isnan v = true /\ s = INT_MIN) /\
       (isnan v = false -> open_optimum rules lm (r_windowFunction d) (r_windowArgs d) (i, j) v) /\
       (isnan v = true -> forall ks vs ts c,
           open_walk rules lm (r_windowFunction d) (r_windowArgs d) ks vs ts (i, j) c -> ~ usable ks c)) /\
    mget g (nr lm) (r_jmin d) = Some (r_distance d).
Proof. exact (fun N L => dtw_matrices_open L). Qed.
Print Assumptions C06_cost_matrix_open_begin.

(** The recursion printed for symmetric2; [before g i j a b f] is the list holding
    f (g[i-a,j-b]), empty if that cell does not exist. *)
Theorem C06_symmetric2 : forall (N : Num) (L : NumLaws N) cdist x y o (lm : mat N) d,
  costs_of cdist x y lm -> dtw cdist x y o = Ok d -> r_stepPattern d = symmetric2 ->
  o_keep_internals o = true -> o_open_begin o = false ->
  exists g, r_costMatrix d = Some g /\ nr g = nr lm /\ nc g = nc lm /\
  forall i j, i < nr lm -> j < nc lm -> (i, j) <> (0, 0) ->
    in_window (r_windowFunction d) (r_windowArgs d) (nr lm) (nc lm) i j ->
    exists v, mget g i j = Some v /\
      least_of v (before g i j 1 1 (fun u => macc u (ofZ 2) (cell lm i j)) ++
                  before g i j 0 1 (fun u => macc u (ofZ 1) (cell lm i j)) ++
                  before g i j 1 0 (fun u => macc u (ofZ 1) (cell lm i j))).
Proof. exact (fun N L => symmetric2_recursion L). Qed.
Print Assumptions C06_symmetric2.

Example C06_case : succeeds mA (oKeep "symmetric2") "symmetric2" NoWindow
  (fun d => dist_is 6 d && align_is [0;1;2;2]%Z [0;1;2;3]%Z [1;1;2]%Z d).
Proof. exact exA. Qed.
Example C06_case_window :
  succeeds mA (named "symmetricP1" (WTName "sakoechiba") (ws 1) true false false false) "symmetricP1" SakoeChiba
  (fun d => dist_is 6 d && align_is [0;1;2;2]%Z [0;1;2;3]%Z [2;1]%Z d).
Proof. exact exSC. Qed.
Example C06_case_open_begin :
  succeeds mA (named "asymmetricP1" WTNone [] true false true true) "asymmetricP1" NoWindow
  (fun d => dist_is 5 d && align_is [0;1;2]%Z [2;3;3]%Z [2;3]%Z d && (r_jmin d =? 3)).
Proof. exact exBE. Qed.

(** C07: prefixes.  [ignores_sizes] holds of "no window" and of Sakoe-Chiba. *)
Theorem C07_prefix_matrices : forall (N : Num) (L : NumLaws N) cdist x y o (lm : mat N) d rules o' n m,
  costs_of cdist x y lm -> dtw cdist x y o = Ok d -> pattern_rules (r_stepPattern d) rules ->
  o_keep_internals o = true -> o_open_begin o = false ->
  ignores_sizes (r_windowFunction d) (r_windowArgs d) ->
  same_problem o o' -> 0 < n <= nr lm -> 0 < m <= nc lm ->
  exists cm dm, r_costMatrix d = Some cm /\ r_directionMatrix d = Some dm /\
  forall cdist' d', dtw cdist' (NdArray (Nd2 (leading lm n m)) true true) None o' = Ok d' ->
    o_keep_internals o' = true ->
    exists cm' dm', r_costMatrix d' = Some cm' /\ r_directionMatrix d' = Some dm' /\
      forall i j, i < n -> j < m -> mget cm' i j = mget cm i j /\ mget dm' i j = mget dm i j.
Proof. exact (fun N L => prefix_matrices L). Qed.
Print Assumptions C07_prefix_matrices.

Theorem C07_prefix_distance : forall (N : Num) (L : NumLaws N) cdist x y o (lm : mat N) d rules o' cdist',
  costs_of cdist x y lm -> dtw cdist x y o = Ok d -> pattern_rules (r_stepPattern d) rules ->
  o_keep_internals o = true -> o_open_begin o = false ->
  ignores_sizes (r_windowFunction d) (r_windowArgs d) ->
  same_problem o o' -> o_open_end o' = false ->
  exists cm, r_costMatrix d = Some cm /\
  forall i j, i < nr lm -> j < nc lm -> exists v, mget cm i j = Some v /\
    match dtw cdist' (NdArray (Nd2 (leading lm (i + 1) (j + 1))) true true) None o' with
    | Ok d' => isnan v = false /\ r_distance d' = v
    | Raise e => isnan v = true /\ e = no_path
    | _ => False
    end.
Proof. exact (fun N L => prefix_distance L). Qed.
Print Assumptions C07_prefix_distance.

Theorem C07_windows : forall (N : Num) (kw : kwargs N),
  ignores_sizes NoWindow kw /\ ignores_sizes SakoeChiba kw.
Proof. exact @windows_ignore_sizes. Qed.
Print Assumptions C07_windows.

Example C07_case :
  succeeds mA (named "symmetricP1" (WTName "sakoechiba") (ws 1) true false false false) "symmetricP1" SakoeChiba
  (fun d => dist_is 6 d && align_is [0;1;2;2]%Z [0;1;2;3]%Z [2;1]%Z d).
Proof. exact exSC. Qed.

(** C08: the window constrains every point of index1s/index2s but the first. *)
Theorem C08_window_respected : forall (N : Num) (L : NumLaws N) cdist x y o (lm : mat N) d rules,
  costs_of cdist x y lm -> dtw cdist x y o = Ok d -> pattern_rules (r_stepPattern d) rules ->
  o_distance_only o = false -> o_open_begin o = false ->
  exists mp, r_map d = Some mp /\
  forall t i j, nth_error (index1s mp) (S t) = Some i -> nth_error (index2s mp) (S t) = Some j ->
    in_window (r_windowFunction d) (r_windowArgs d) (nr lm) (nc lm) (Z.to_nat i) (Z.to_nat j).
Proof. exact (fun N L => window_closed L). Qed.
Print Assumptions C08_window_respected.

(** With open begin the window is evaluated on the padded problem: one row more and
    query indices one higher. *)
Theorem C08_window_respected_open_begin : forall (N : Num) (L : NumLaws N) cdist x y o (lm : mat N) d rules,
  costs_of cdist x y lm -> dtw cdist x y o = Ok d -> pattern_rules (r_stepPattern d) rules ->
  o_open_begin o = true ->
  exists mp, r_map d = Some mp /\
  forall t i j, nth_error (index1s mp) t = Some i -> nth_error (index2s mp) t = Some j ->
    in_window (r_windowFunction d) (r_windowArgs d) (nr lm + 1) (nc lm) (S (Z.to_nat i)) (Z.to_nat j).
Proof. exact (fun N L => window_open L). Qed.
Print Assumptions C08_window_respected_open_begin.

Example C08_case_user_window :
  succeeds mA (named "symmetric2" (WTFun userw) [] true false false false) "symmetric2" userw
  (fun d => match r_map d with Some mp => negb (zlist_eqb (index2 mp) [0;1;2;3]%Z) | None => false end).
Proof. exact exUser. Qed.
Example C08_case_itakura :
  succeeds m5 (named "symmetric2" (WTName "itakura") [] true false false false) "symmetric2" Itakura
  (fun d => dist_is 6 d && align_is [0;1;2;3;4;4]%Z [0;1;2;2;3;4]%Z [1;1;3;1;2]%Z d).
Proof. exact exIta. Qed.
