(** Properties6.v - C34 to C36: warp and warpArea.

    Only theorem statements, each closed by a lemma proved elsewhere, and concrete cases
    that meet their hypotheses.  See Properties1.v for the arithmetic [N] and [NumLaws]. *)
From Coq Require Import QArith Qcanon Qcabs.
From Verif Require Import Base Num StepPattern Window Core Backtrack Dtw Spec Api Tables Vocab Terms.
From Verif Require Import NumQ NumQLaws NumF NumFLaws.
From Verif Require Import CoreProof DtwProof ApiThms Thm1 Thm3 Thm10 Derived Examples Warp WarpSpec Laws2 Thm16 Thm17 Thm18 Examples4.
Open Scope string_scope.
Open Scope list_scope.
Open Scope nat_scope.

(** C34: entry k is the mean, rounded down, of the source indices matched to k.  [warp_size_ok] bounds the
    size so that the sums of indices are exact in binary64. *)
Theorem C34_means : forall (N : Num) (L : NumLaws N) cdist x y o (lm : mat N) d rules ref,
  costs_of cdist x y lm ->
  dtw cdist x y o = Ok d -> pattern_rules (r_stepPattern d) rules ->
  o_distance_only o = false -> o_open_begin o = false -> warp_size_ok lm d ->
  exists mp l, r_map d = Some mp /\ warp d ref = Ok l /\
    List.length l = (if ref then nr lm else r_jmin d + 1) /\
    forall k, k < List.length l -> exists v, nth_error l k = Some v /\
      let s := matched (source_of ref (index1 mp) (index2 mp)) (target_of ref (index1 mp) (index2 mp)) (Z.of_nat k) in
      (s <> [] -> v = mean s) /\ (s = [] -> v = INT64_MIN).
Proof. exact (fun N L  => @warp_closed N L). Qed.
Print Assumptions C34_means.

(** C34: without gaps the result is a non-decreasing vector of valid source indices. *)
Theorem C34_usable : forall (N : Num) (L : NumLaws N) cdist x y o (lm : mat N) d rules ref,
  costs_of cdist x y lm ->
  dtw cdist x y o = Ok d -> pattern_rules (r_stepPattern d) rules ->
  o_distance_only o = false -> o_open_begin o = false -> warp_size_ok lm d ->
  gapless ref rules ->
  exists mp l, r_map d = Some mp /\ warp d ref = Ok l /\
    List.length l = (if ref then nr lm else r_jmin d + 1) /\
    within 0 (Z.of_nat (if ref then nc lm else nr lm)) l /\ nondecreasing l /\
    forall k, k < List.length l ->
      nth_error l k = Some (mean (matched (source_of ref (index1 mp) (index2 mp))
                                          (target_of ref (index1 mp) (index2 mp)) (Z.of_nat k))).
Proof. exact (fun N L  => @warp_gapless N L). Qed.
Print Assumptions C34_usable.

(** C34: the predefined patterns without gaps, by name. *)
Theorem C34_named : forall (N : Num) (L : NumLaws N) cdist x y o (lm : mat N) d k ref,
  costs_of cdist x y lm ->
  dtw cdist x y o = Ok d -> lookup k pattern_table = Some (r_stepPattern d) -> In k (gapless_names ref) ->
  o_distance_only o = false -> o_open_begin o = false -> warp_size_ok lm d ->
  exists mp l, r_map d = Some mp /\ warp d ref = Ok l /\
    List.length l = (if ref then nr lm else r_jmin d + 1) /\
    within 0 (Z.of_nat (if ref then nc lm else nr lm)) l /\ nondecreasing l /\
    forall k, k < List.length l ->
      nth_error l k = Some (mean (matched (source_of ref (index1 mp) (index2 mp))
                                          (target_of ref (index1 mp) (index2 mp)) (Z.of_nat k))).
Proof. exact (fun N L  => @warp_named N L). Qed.
Print Assumptions C34_named.

(** C34: one match per query index: the image of each. *)
Theorem C34_single_valued : forall (N : Num) (L : NumLaws N) cdist x y o (lm : mat N) d rules mp,
  costs_of cdist x y lm ->
  dtw cdist x y o = Ok d -> pattern_rules (r_stepPattern d) rules ->
  o_distance_only o = false -> o_open_begin o = false -> warp_size_ok lm d ->
  r_map d = Some mp -> index1 mp = map Z.of_nat (seq 0 (nr lm)) ->
  warp d true = Ok (index2 mp).
Proof. exact (fun N L  => @warp_function N L). Qed.
Print Assumptions C34_single_valued.

(** C34: patterns that advance the query one by one, whatever the size and the begin mode. *)
Theorem C34_row_by_row : forall (N : Num) (L : NumLaws N) cdist x y o (lm : mat N) d rules,
  costs_of cdist x y lm ->
  dtw cdist x y o = Ok d -> pattern_rules (r_stepPattern d) rules ->
  o_distance_only o = false -> 0 < nr lm -> row_by_row rules ->
  exists mp, r_map d = Some mp /\ warp d true = Ok (index2 mp).
Proof. exact (fun N L  => @warp_row_by_row N L). Qed.
Print Assumptions C34_row_by_row.

(** C34: open begin. *)
Theorem C34_open_begin : forall (N : Num) (L : NumLaws N) cdist x y o (lm : mat N) d rules ref,
  costs_of cdist x y lm ->
  dtw cdist x y o = Ok d -> pattern_rules (r_stepPattern d) rules ->
  o_distance_only o = false -> o_open_begin o = true -> 0 < nr lm -> leaves_row rules -> warp_size_ok lm d ->
  exists mp l, r_map d = Some mp /\ warp d ref = Ok l /\
    List.length l = (if ref then nr lm else r_jmin d + 1) /\
    let src := source_of ref (index1 mp) (index2 mp) in
    let tgt := target_of ref (index1 mp) (index2 mp) in
    forall k, k < List.length l -> exists v, nth_error l k = Some v /\
      (In (Z.of_nat k) tgt -> v = mean (matched src tgt (Z.of_nat k))) /\
      (~ In (Z.of_nat k) tgt -> In 0%Z tgt -> v = INT64_MIN) /\
      (~ In (Z.of_nat k) tgt -> ~ In 0%Z tgt -> first_is v src).
Proof. exact (fun N L  => @warp_open N L). Qed.
Print Assumptions C34_open_begin.

(** C34, C36: a distance_only result has no alignment to warp. *)
Theorem C34_needs_alignment : forall (N : Num) (d : DTW N) ref,
  r_map d = None ->
  warp d ref = Raise AttributeError /\ warpArea d = Raise AttributeError.
Proof. exact (fun N  => @warp_needs_alignment N). Qed.
Print Assumptions C34_needs_alignment.

Example C34_case : succeeds m5 (oKeep "symmetricP1") "symmetricP1" NoWindow
  (fun d => warp_is false [0;1;2;4;4]%Z d && warp_is true [0;1;2;2;3]%Z d && area_is 1000 d &&
    ((Z.of_nat (List.length (mx (r_stepPattern d))) + 1) * (Z.of_nat (nr m5 + nc m5) * Z.of_nat (nr m5 + nc m5)) <? 2 ^ 53)%Z).
Proof. exact warp_ties_case. Qed.

Example C34_case_names : In "symmetricP1" (gapless_names true) /\ In "symmetricP1" (gapless_names false) /\
  In "asymmetric" (gapless_names true) /\ ~ In "asymmetric" (gapless_names false).
Proof. exact gapless_case. Qed.

Example C34_case_open : succeeds mTail (named "asymmetric" WTNone [] true false true true) "asymmetric" NoWindow
  (fun d => warp_is false [0;0;0;0;2]%Z d && warp_is true [2;4;4;4]%Z d && area_is 6000 d).
Proof. exact warp_open_case. Qed.

Example C34_case_distance_only : succeeds mA (named "symmetric2" WTNone [] true true false false) "symmetric2" NoWindow
  (fun d => match r_map d with None => true | _ => false end).
Proof. exact area_distonly_case. Qed.

(** C35: a gap is not interpolated: the entry is the smallest 64-bit integer.  (C34_means says this of
    every gap of every closed-begin alignment.) *)
Theorem C35_refuted : succeeds mA (oKeep "asymmetric") "asymmetric" NoWindow
  (fun d => align_is [0;1;2]%Z [0;1;3]%Z [2;3]%Z d && warp_is false [0; 1; -9223372036854775808; 2]%Z d && warp_is true [0;1;3]%Z d && area_is 500 d).
Proof. exact warp_gap_case. Qed.

(** C36: warpArea is the sum over query indices of the distance between the curve and the diagonal, each
    term computed in the arithmetic at hand ([curve_value], [diagonal_value]). *)
Theorem C36_sum : forall (N : Num) (L : NumLaws N) (LL : NumLaws2 N) cdist x y o (lm : mat N) d rules,
  costs_of cdist x y lm ->
  dtw cdist x y o = Ok d -> pattern_rules (r_stepPattern d) rules ->
  o_distance_only o = false -> o_open_begin o = false ->
  exists mp ts, r_map d = Some mp /\ warpArea d = Ok (np_sum ts) /\
    area_terms (index1 mp) (index2 mp) (nr lm) (nc lm) ts.
Proof. exact (fun N L LL => @area_closed N L LL). Qed.
Print Assumptions C36_sum.

(** C36: in exact arithmetic, with the curve and the diagonal as rational functions. *)
Theorem C36_exact : forall cdist x y o (lm : mat NumQ) d rules,
  costs_of cdist x y lm ->
  dtw cdist x y o = Ok d -> pattern_rules (r_stepPattern d) rules ->
  o_distance_only o = false -> o_open_begin o = false ->
  exists mp qs, r_map d = Some mp /\ List.length qs = nr lm /\
    (forall i q, nth_error qs i = Some q -> curve_point (index1 mp) (index2 mp) (Z.of_nat i) q) /\
    warpArea d = Ok (XFin (qc_sum (map (fun p => Qcabs (snd p - diagonal_point (nr lm) (nc lm) (fst p)))
                                       (combine (seq 0 (nr lm)) qs)))).
Proof. exact area_exact. Qed.
Print Assumptions C36_exact.

(** C36: single-valued alignments, open begin included. *)
Theorem C36_row_by_row : forall (N : Num) (L : NumLaws N) (LL : NumLaws2 N) cdist x y o (lm : mat N) d rules,
  costs_of cdist x y lm ->
  dtw cdist x y o = Ok d -> pattern_rules (r_stepPattern d) rules ->
  o_distance_only o = false -> 0 < nr lm -> row_by_row rules ->
  exists mp ts, r_map d = Some mp /\ warpArea d = Ok (np_sum ts) /\ List.length ts = nr lm /\
    forall i, i < nr lm -> exists j, nth_error (index2 mp) i = Some j /\
      nth_error ts i = Some (vabs (sub (ofZ j) (diagonal_value (Z.of_nat (nr lm)) (Z.of_nat (nc lm)) (Z.of_nat i)))).
Proof. exact (fun N L LL => @area_row_by_row N L LL). Qed.
Print Assumptions C36_row_by_row.

(** C36. *)
Theorem C36_nonneg : forall (N : Num) (L : NumLaws N) (LL : NumLaws2 N) cdist x y o (lm : mat N) d rules,
  costs_of cdist x y lm ->
  dtw cdist x y o = Ok d -> pattern_rules (r_stepPattern d) rules ->
  o_distance_only o = false -> o_open_begin o = false ->
  exists a, warpArea d = Ok a /\ leb (ofZ 0) a = true.
Proof. exact (fun N L LL => @area_nonneg N L LL). Qed.
Print Assumptions C36_nonneg.

(** C36: the identity alignment of equal lengths. *)
Theorem C36_identity : forall (N : Num) (L : NumLaws N) (LL : NumLaws2 N) cdist x y o (lm : mat N) d rules mp,
  costs_of cdist x y lm ->
  dtw cdist x y o = Ok d -> pattern_rules (r_stepPattern d) rules ->
  o_distance_only o = false -> o_open_begin o = false -> nr lm = nc lm ->
  r_map d = Some mp -> index2 mp = index1 mp -> index1 mp = map Z.of_nat (seq 0 (nr lm)) ->
  warpArea d = Ok (ofZ 0).
Proof. exact (fun N L LL => @area_identity N L LL). Qed.
Print Assumptions C36_identity.

Example C36_case_identity : succeeds mSq (oKeep "symmetric2") "symmetric2" NoWindow
  (fun d => align_is [0;1;2]%Z [0;1;2]%Z [1;1]%Z d && area_is 0 d).
Proof. exact area_identity_case. Qed.

Example C36_case : succeeds m5 (oKeep "symmetricP1") "symmetricP1" NoWindow
  (fun d => warp_is false [0;1;2;4;4]%Z d && warp_is true [0;1;2;2;3]%Z d && area_is 1000 d &&
    ((Z.of_nat (List.length (mx (r_stepPattern d))) + 1) * (Z.of_nat (nr m5 + nc m5) * Z.of_nat (nr m5 + nc m5)) <? 2 ^ 53)%Z).
Proof. exact warp_ties_case. Qed.

Example C36_case_gap : succeeds mSkip (oKeep "typeIIa") "typeIIa" NoWindow
  (fun d => match r_map d with Some mp => zlist_eqb (index1 mp) [0;2;3;4]%Z && zlist_eqb (index2 mp) [0;1;2;3]%Z | None => false end
            && area_is 1000 d && warp_is true [0; -9223372036854775808; 1; 2; 3]%Z d).
Proof. exact area_gap_case. Qed.

Example C36_case_row : succeeds mA (oKeep "asymmetric") "asymmetric" NoWindow
  (fun d => align_is [0;1;2]%Z [0;1;3]%Z [2;3]%Z d && warp_is false [0; 1; -9223372036854775808; 2]%Z d && warp_is true [0;1;3]%Z d && area_is 500 d).
Proof. exact warp_gap_case. Qed.

(** The laws used are those of exact rationals, of binary64 and of binary64 with fused multiply-add. *)
Theorem C36_arithmetic : NumLaws2 NumQ /\ NumLaws2 NumF /\ NumLaws2 NumFMA.
Proof. exact (conj NumQ_laws2 (conj NumF_laws2 NumFMA_laws2)). Qed.
Print Assumptions C36_arithmetic.
