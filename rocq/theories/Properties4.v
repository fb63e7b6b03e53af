(** Properties4.v - C28 to C33: Rabiner-Juang construction, transposition of patterns, path counts.

    Only theorem statements, each closed by a lemma proved elsewhere, and concrete cases
    that meet their hypotheses.  See Properties1.v for the arithmetic [N] and [NumLaws]. *)
From Coq Require Import Qcanon Permutation.
From Verif Require Import Base Num StepPattern Window Core Backtrack Dtw Spec Api Tables Vocab Terms.
From Verif Require Import NumQ NumQLaws NumF NumFLaws.
From Verif Require Import ApiThms Thm1 Thm3 Thm7 Thm8 RJSpec RJ RJ2 CountPaths CountSpec CountProof CountThm CountThm2 CountEx Feas Bound BoundF Thm9 Thm11 Derived Derived2 Examples.
Open Scope string_scope.
Open Scope list_scope.
Open Scope nat_scope.

(** C28: the systematic construction of Rabiner and Juang: family t (RJ.family), slope weighting s,
    smoothing m give the productions RJ.chain of the family, with the documented hint. *)
Theorem C28_construction : forall (N : Num) (L : NumLaws N) t s wt m,
  (1 <= t <= 7)%Z -> weighting s = Some wt ->
  exists sp, @rabinerJuangStepPattern N t s m = Ok sp /\ hint sp = rj_hint s /\
    pattern_rules sp (productions (rj_rules t wt m)).
Proof. exact (fun N L  => @rj_pattern N L). Qed.
Print Assumptions C28_construction.

(** C28: the predefined tables listed in rj_names have, up to numbering, the productions, weights and hint
    of the construction. *)
Theorem C28_predefined : forall (N : Num) (L : NumLaws N) k t s m,
  In (k, (t, s, m)) rj_names ->
  exists (sp sp' : steppat N) l wt, lookup k pattern_table = Some sp /\ @rabinerJuangStepPattern N t s m = Ok sp' /\
    hint sp = hint sp' /\ pattern_rules sp (productions l) /\
    weighting s = Some wt /\ pattern_rules sp' (productions (rj_rules t wt m)) /\
    Permutation l (rj_rules t wt m).
Proof. exact (fun N L  => @rj_predefined N L). Qed.
Print Assumptions C28_predefined.

Example C28_names : rj_names =
  [ ("symmetric1", (1%Z, "b", false));   ("symmetric2", (1%Z, "d", false));
    ("symmetricP0", (1%Z, "d", false));  ("asymmetricP0", (1%Z, "c", false));
    ("symmetricP05", (5%Z, "d", false)); ("asymmetricP05", (5%Z, "c", true));
    ("symmetricP1", (2%Z, "d", false));  ("asymmetricP1", (2%Z, "c", true));
    ("symmetricP2", (6%Z, "d", false));  ("asymmetricP2", (6%Z, "c", true));
    ("typeIa", (2%Z, "a", false));  ("typeIb", (2%Z, "b", false));
    ("typeIc", (2%Z, "c", false));  ("typeId", (2%Z, "d", false));
    ("typeIas", (2%Z, "a", true));  ("typeIbs", (2%Z, "b", true));
    ("typeIcs", (2%Z, "c", true));  ("typeIds", (2%Z, "d", true));
    ("typeIIa", (3%Z, "a", false)); ("typeIIb", (3%Z, "b", false));
    ("typeIIc", (3%Z, "c", false)); ("typeIId", (3%Z, "d", false));
    ("typeIIIc", (4%Z, "c", false)); ("typeIVc", (7%Z, "c", false)) ].
Proof. exact rj_names_are. Qed.

(** C28: every predefined name is in the list, apart from six (rj_others). *)
Theorem C28_names_cover : forall (N : Num) k sp,
  lookup k (@pattern_table N) = Some sp ->
  (exists tsm, In (k, tsm) rj_names) \/ In k rj_others.
Proof. exact (fun N  => @rj_names_cover N). Qed.
Print Assumptions C28_names_cover.

Example C28_others : rj_others =
  ["asymmetric"; "_symmetricVelichkoZagoruyko"; "_asymmetricItakura"; "_asymmetricP0b"; "mori2006"; "rigid"].
Proof. exact rj_others_are. Qed.

(** C28: the numbering does not matter for the distance. *)
Theorem C28_order_irrelevant : forall (N : Num) (L : NumLaws N) cdist x y o o' (lm : mat N) sp sp' rules rules' w,
  well_posed cdist x y o lm sp rules w -> well_posed cdist x y o' lm sp' rules' w ->
  Permutation rules rules' ->
  o_open_end o = false -> o_open_end o' = false -> o_open_begin o = o_open_begin o' -> o_window_args o = o_window_args o' ->
  (forall d, dtw cdist x y o = Ok d ->
     exists d', dtw cdist x y o' = Ok d' /\ eqb (r_distance d') (r_distance d) = true) /\
  (dtw cdist x y o = Raise no_path <-> dtw cdist x y o' = Raise no_path).
Proof. exact (fun N L  => @same_productions N L). Qed.
Print Assumptions C28_order_irrelevant.

Example C28_case : succeeds mA (oKeep "symmetric2") "symmetric2" NoWindow
  (fun d => dist_is 6 d && align_is [0;1;2;2]%Z [0;1;2;3]%Z [1;1;2]%Z d).
Proof. exact exA. Qed.

(** C29: the table rows built from a chain of elementary steps: the start row has the total displacement
    and marker -1, each later row the distance still to go (RJ.chain). *)
Theorem C29_builder : forall (N : Num) (L : NumLaws N) k s wt m steps,
  weighting s = Some wt -> steps <> [] ->
  (Z.of_nat (fst (total steps) + snd (total steps)) <= 2 ^ 53)%Z ->
  (Z.of_nat (List.length steps) <= 2 ^ 53)%Z ->
  P_get (Z.of_nat k) s m (zs steps) = Ok (@rule_rows N k (production (chain wt m steps))).
Proof. exact (fun N L  => @builder N L). Qed.
Print Assumptions C29_builder.

(** C29: exact arithmetic: the weights sum to the total slope weighting, smoothed or not ... *)
Theorem C29_weight_sum : forall k s wt m steps,
  weighting s = Some wt -> steps <> [] ->
  (Z.of_nat (fst (total steps) + snd (total steps)) <= 2 ^ 53)%Z -> (Z.of_nat (List.length steps) <= 2 ^ 53)%Z ->
  exists first rest, @P_get NumQ (Z.of_nat k) s m (zs steps) = Ok (first :: rest) /\
    c3 first = ofZ (-1) /\ List.length rest = List.length steps /\
    fold_left add (map c3 rest) (ofZ 0) = ofZ (Z.of_nat (list_sum (map wt steps))).
Proof. exact builder_weight_sum. Qed.
Print Assumptions C29_weight_sum.

(** ... which is the total di for (c), di+dj for (d). *)
Theorem C29_weight_totals : forall steps,
  list_sum (map (fun d : nat * nat => fst d) steps) = fst (total steps) /\
  list_sum (map (fun d : nat * nat => fst d + snd d) steps) = fst (total steps) + snd (total steps).
Proof. exact weighting_totals. Qed.
Print Assumptions C29_weight_totals.

(** C29: unsupported subtypes. *)
Theorem C29_unsupported_subtype : forall (N : Num) k s m steps,
  weighting s = None -> (forall d, In d steps -> (0 <= fst d /\ 0 <= snd d)%Z) ->
  @P_get N k s m steps = Raise (ValueError "Unsupported subtype").
Proof. exact (fun N  => @builder_unsupported N). Qed.
Print Assumptions C29_unsupported_subtype.

Theorem C29_unsupported_weighting : forall (N : Num) t s m,
  (1 <= t <= 7)%Z -> weighting s = None ->
  @rabinerJuangStepPattern N t s m = Raise (ValueError "Unsupported subtype").
Proof. exact (fun N  => @rj_bad_weighting N). Qed.
Print Assumptions C29_unsupported_weighting.

(** C29: unsupported types raise TypeError (the code meant to raise ValueError "Invalid type"). *)
Theorem C29_unsupported_type : forall (N : Num) t s m,
  ~ (1 <= t <= 7)%Z -> @rabinerJuangStepPattern N t s m = Raise TypeError.
Proof. exact (fun N  => @rj_bad_type N). Qed.
Print Assumptions C29_unsupported_type.

Example C29_case : weighting "d" = Some (fun d => fst d + snd d) /\
  chain (fun d => fst d + snd d) true [(1,1);(1,0)] = W 2 1 [(1, 0, (3, 2)%Z); (0, 0, (3, 2)%Z)] /\
  chain (fun d => fst d + snd d) false [(1,2);(1,0);(0,1)] = W 2 3 [(1, 1, (3, 1)%Z); (0, 1, (1, 1)%Z); (0, 0, (1, 1)%Z)].
Proof. exact builder_case. Qed.

(** C30: transposition of step patterns. *)
Theorem C30_involution : forall (N : Num) (sp : steppat N),
  T (T sp) = sp.
Proof. exact (fun N  => @T_involution N). Qed.
Print Assumptions C30_involution.

Theorem C30_rows : forall (N : Num) (sp : steppat N),
  List.length (mx (T sp)) = List.length (mx sp) /\
  forall i r, nth_error (mx sp) i = Some r -> exists r', nth_error (mx (T sp)) i = Some r' /\
    c0 r' = c0 r /\ c1 r' = c2 r /\ c2 r' = c1 r /\ c3 r' = c3 r.
Proof. exact (fun N  => @T_rows N). Qed.
Print Assumptions C30_rows.

Theorem C30_hints : forall (N : Num) (sp : steppat N),
  (hint sp = "N" -> hint (T sp) = "M") /\ (hint sp = "M" -> hint (T sp) = "N") /\
  (hint sp <> "N" -> hint sp <> "M" -> hint (T sp) = hint sp).
Proof. exact (fun N  => @T_hints N). Qed.
Print Assumptions C30_hints.

Example C30_case : forall N : Num, hint (T (@asymmetric N)) = "M" /\
  mx (T (@asymmetric N)) = table (productions [W 0 1 [(0, 0, (1, 1)%Z)]; W 1 1 [(0, 0, (1, 1)%Z)]; W 2 1 [(0, 0, (1, 1)%Z)]]).
Proof. exact T_case. Qed.

(** C31: every entry of the matrix of counts is the number of admitted production sequences. *)
Theorem C31_every_cell : forall (N : Num) (L : NumLaws N) cdist x y o (lm : mat N) d rules,
  costs_of cdist x y lm ->
  dtw cdist x y o = Ok d -> pattern_rules (r_stepPattern d) rules -> no_marker rules -> o_open_begin o = false ->
  (r_windowFunction d = NoWindow -> r_windowArgs d = []) ->
  counts_fit rules lm (r_windowFunction d) (r_windowArgs d) ->
  exists g, countMatrix (r_N d) (r_M d) (r_openBegin d) (r_stepPattern d) (r_windowFunction d) (r_windowArgs d) = Ok g /\
    nr g = nr lm /\ nc g = nc lm /\
    forall i j, i < nr lm -> j < nc lm -> exists c,
      numbers (admitted rules lm (r_windowFunction d) (r_windowArgs d) (i, j)) c /\
      mget g i j = Some (ofZ (Z.of_nat c)).
Proof. exact (fun N L  => @count_cells N L). Qed.
Print Assumptions C31_every_cell.

(** C31: the count returned. *)
Theorem C31_closed : forall (N : Num) (L : NumLaws N) cdist x y o (lm : mat N) d rules,
  costs_of cdist x y lm ->
  dtw cdist x y o = Ok d -> pattern_rules (r_stepPattern d) rules -> no_marker rules ->
  o_open_begin o = false -> o_open_end o = false ->
  (r_windowFunction d = NoWindow -> r_windowArgs d = []) ->
  counts_fit rules lm (r_windowFunction d) (r_windowArgs d) ->
  exists c, numbers (admitted rules lm (r_windowFunction d) (r_windowArgs d) (nr lm - 1, nc lm - 1)) c /\
    countPaths d = Ok (Z.of_nat c).
Proof. exact (fun N L  => @count_closed N L). Qed.
Print Assumptions C31_closed.

Theorem C31_open_end : forall (N : Num) (L : NumLaws N) cdist x y o (lm : mat N) d rules,
  costs_of cdist x y lm ->
  dtw cdist x y o = Ok d -> pattern_rules (r_stepPattern d) rules -> no_marker rules ->
  o_open_begin o = false -> o_open_end o = true ->
  (r_windowFunction d = NoWindow -> r_windowArgs d = []) ->
  counts_fit rules lm (r_windowFunction d) (r_windowArgs d) ->
  (forall c, numbers (fun ks => exists j, j < nc lm /\
     admitted rules lm (r_windowFunction d) (r_windowArgs d) (nr lm - 1, j) ks) c -> (Z.of_nat c <= 2 ^ 53)%Z) ->
  exists c, numbers (fun ks => exists j, j < nc lm /\
     admitted rules lm (r_windowFunction d) (r_windowArgs d) (nr lm - 1, j) ks) c /\
    countPaths d = Ok (Z.of_nat c).
Proof. exact (fun N L  => @count_open_end N L). Qed.
Print Assumptions C31_open_end.

(** C31: the counts are exact for (number of productions + 1)^(N+M) <= 2^53. *)
Theorem C31_counts_fit : forall (N : Num) rules (lm : mat N) w kw,
  forallb (@valid_rule N) rules = true ->
  window_callable w kw (nr lm) (nc lm) ->
  ((Z.of_nat (List.length rules) + 1) ^ (Z.of_nat (nr lm) + Z.of_nat (nc lm)) <= 2 ^ 53)%Z ->
  counts_fit rules lm w kw.
Proof. exact (fun N  => @counts_fit_small N). Qed.
Print Assumptions C31_counts_fit.

(** C31: the condition on the weights holds for every predefined pattern but one. *)
Theorem C31_named_patterns : forall (N : Num) (L : NumLaws N) k l,
  lookup k predefined = Some l ->
  k <> "_symmetricVelichkoZagoruyko" -> @no_marker N (productions l).
Proof. exact (fun N L  => @named_no_marker N L). Qed.
Print Assumptions C31_named_patterns.

Example C31_case : succeeds mA (oKeep "symmetric2") "symmetric2" NoWindow (fun d => count_is 25 d).
Proof. exact exCount. Qed.

Example C31_case_open_end : succeeds mA (named "asymmetric" WTNone [] true false true false) "asymmetric" NoWindow (fun d => count_is 8 d).
Proof. exact exCountEnd. Qed.

Example C31_case_window : succeeds mA (named "symmetric2" (WTName "sakoechiba") (ws 1) true false false false) "symmetric2" SakoeChiba
   (fun d => count_is 15 d).
Proof. exact exCountSC. Qed.

Example C31_case_fit : counts_fit (@productions NumF (match lookup "symmetric2" predefined with Some l => l | None => [] end)) mA NoWindow [].
Proof. exact fit_case. Qed.

(** C32: an alignment is found if and only if the number of admitted paths is positive. *)
Theorem C32_found_iff_exact : forall cdist x y o (lm : mat NumQ) sp rules w c,
  well_posed cdist x y o lm sp rules w -> o_open_begin o = false -> o_open_end o = false ->
  all_finite lm -> finite_weights rules ->
  numbers (admitted rules lm w (o_window_args o) (nr lm - 1, nc lm - 1)) c ->
  ((exists d, dtw cdist x y o = Ok d) <-> 0 < c).
Proof. exact found_iff_count_exact. Qed.
Print Assumptions C32_found_iff_exact.

Theorem C32_found_iff_binary64 : forall cdist x y o (lm : mat NumF) sp k l w c,
  well_posed cdist x y o lm sp (productions l) w -> o_open_begin o = false -> o_open_end o = false ->
  lookup k predefined = Some l -> moderate lm ->
  numbers (admitted (productions l) lm w (o_window_args o) (nr lm - 1, nc lm - 1)) c ->
  ((exists d, dtw cdist x y o = Ok d) <-> 0 < c).
Proof. exact found_iff_count_binary64. Qed.
Print Assumptions C32_found_iff_binary64.

Theorem C32_found_iff_fma : forall cdist x y o (lm : mat NumFMA) sp k l w c,
  well_posed cdist x y o lm sp (productions l) w -> o_open_begin o = false -> o_open_end o = false ->
  lookup k predefined = Some l -> moderate lm ->
  numbers (admitted (productions l) lm w (o_window_args o) (nr lm - 1, nc lm - 1)) c ->
  ((exists d, dtw cdist x y o = Ok d) <-> 0 < c).
Proof. exact found_iff_count_fma. Qed.
Print Assumptions C32_found_iff_fma.

(** C32: countPaths on the result of a successful closed call is positive. *)
Theorem C32_count_positive : forall (N : Num) (L : NumLaws N) cdist x y o (lm : mat N) d rules,
  costs_of cdist x y lm ->
  dtw cdist x y o = Ok d -> pattern_rules (r_stepPattern d) rules -> no_marker rules ->
  o_open_begin o = false -> o_open_end o = false ->
  (r_windowFunction d = NoWindow -> r_windowArgs d = []) ->
  counts_fit rules lm (r_windowFunction d) (r_windowArgs d) ->
  exists z, countPaths d = Ok z /\ (0 < z)%Z.
Proof. exact (fun N L  => @count_positive N L). Qed.
Print Assumptions C32_count_positive.

Example C32_case : succeeds mA (oKeep "symmetric2") "symmetric2" NoWindow (fun d => count_is 25 d).
Proof. exact exCount. Qed.

(** C33: window_args without a window: dtw() ignores them, countPaths raises. *)
Theorem C33_window_args : forall (N : Num) (L : NumLaws N) (d : DTW N) rules,
  pattern_rules (r_stepPattern d) rules ->
  r_windowFunction d = NoWindow -> r_windowArgs d <> [] -> r_openBegin d = false ->
  0 < r_N d -> 0 < r_M d -> 1 < r_N d * r_M d ->
  countPaths d = Raise TypeError.
Proof. exact (fun N L  => @count_no_window_args N L). Qed.
Print Assumptions C33_window_args.

Theorem C33_window_args_case : succeeds mA (named "symmetric2" WTNone (ws 1) true false false false) "symmetric2" NoWindow
   (fun d => count_raises TypeError d).
Proof. exact exArgs. Qed.

(** C33: a weight that truncates to -1. *)
Theorem C33_weight_marker_exact : @velichko_claim NumQ.
Proof. exact velichko_exact. Qed.
Print Assumptions C33_weight_marker_exact.

Theorem C33_weight_marker_binary64 : @velichko_claim NumF.
Proof. exact velichko_binary64. Qed.
Print Assumptions C33_weight_marker_binary64.

Theorem C33_weight_marker_fma : @velichko_claim NumFMA.
Proof. exact velichko_fma. Qed.
Print Assumptions C33_weight_marker_fma.

Theorem C33_weight_marker_case : succeeds mA (named "_symmetricVelichkoZagoruyko" WTNone [] true false false false) "_symmetricVelichkoZagoruyko" NoWindow
   (fun d => count_raises (ValueError "cannot convert float NaN to integer") d).
Proof. exact exVel. Qed.

(** C33: open begin: what is counted (counted_open) ... *)
Theorem C33_open_begin : forall (N : Num) (L : NumLaws N) cdist x y o (lm : mat N) d rules,
  costs_of cdist x y lm -> 0 < nr lm ->
  dtw cdist x y o = Ok d -> pattern_rules (r_stepPattern d) rules -> no_marker rules ->
  o_open_begin o = true -> o_open_end o = false ->
  window_callable (r_windowFunction d) (r_windowArgs d) (nr lm) (nc lm) ->
  (forall i j c, i < nr lm -> j < nc lm ->
     numbers (counted_open rules lm (r_windowFunction d) (r_windowArgs d) (i, j)) c -> (Z.of_nat c <= 2 ^ 53)%Z) ->
  exists c, numbers (counted_open rules lm (r_windowFunction d) (r_windowArgs d) (nr lm - 1, nc lm - 1)) c /\
    countPaths d = Ok (Z.of_nat c).
Proof. exact (fun N L  => @count_open_begin N L). Qed.
Print Assumptions C33_open_begin.

(** ... is not the number of paths of the problem that was solved: 1 instead of 3 here. *)
Theorem C33_open_begin_differs : succeeds m13 (named "asymmetric" WTNone [] true false false true) "asymmetric" NoWindow (fun d => count_is 1 d) /\
  numbers (admitted_open asym_rules m13 NoWindow [] (end_cell true m13 (nc m13 - 1))) 3.
Proof. exact open_mismatch. Qed.

(** ... and may be 0 although dtw() found a path. *)
Theorem C33_open_begin_window : succeeds (ints 2 3 [1;1;1;1;1;1]%Z : mat NumF) (named "asymmetric" (WTName "sakoechiba") (ws 0) true false false true)
    "asymmetric" SakoeChiba (fun d => count_is 0 d && align_is [0;1]%Z [1;2]%Z [1;2]%Z d).
Proof. exact open_window_mismatch. Qed.
