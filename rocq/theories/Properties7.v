(** Properties7.v - C18, C45 to C49: kept fields, plots, command line.

    Only theorem statements, each closed by a lemma proved elsewhere, and concrete cases
    that meet their hypotheses.  See Properties1.v for the arithmetic [N] and [NumLaws]. *)
From Verif Require Import Base Num StepPattern Window Core Backtrack Dtw Spec Api Tables Vocab Terms.
From Verif Require Import NumQ NumQLaws NumF NumFLaws.
From Verif Require Import CoreProof DtwProof ApiThms Thm1 Thm3 Thm4 Thm10 Derived Examples Examples3 Warp WarpSpec Laws2 Plot PlotSpec Laws3 Thm19 Thm20 Examples5.
Open Scope string_scope.
Open Scope list_scope.
Open Scope nat_scope.

(** C18: what keep_internals keeps: the local costs, the cumulative costs with the distance at the end point,
    and the two series (as columns) of a two-argument call. *)
Theorem C18_kept_fields : forall (N : Num) (L : NumLaws N) cdist x y o (lm : mat N) d rules,
  costs_of cdist x y lm ->
  dtw cdist x y o = Ok d -> pattern_rules (r_stepPattern d) rules -> o_keep_internals o = true ->
  r_localCostMatrix d = Some lm /\
  (exists cm dm, r_costMatrix d = Some cm /\ nr cm = nr lm /\ nc cm = nc lm /\ wf_mat cm /\
    r_directionMatrix d = Some dm /\ nr dm = nr lm /\ nc dm = nc lm /\ wf_mat dm /\
    (0 < nr lm -> mget cm (nr lm - 1) (r_jmin d) = Some (r_distance d))) /\
  match y with
  | None => r_query d = None /\ r_reference d = None
  | Some y => exists xm ym, matrix_of (nd_val x) = Some xm /\ matrix_of (nd_val y) = Some ym /\
                r_query d = Some (Nd2 xm) /\ r_reference d = Some (Nd2 ym)
  end.
Proof. exact (fun N L  => @kept_fields N L). Qed.
Print Assumptions C18_kept_fields.

Example C18_case_fields : checkOk kept_run (fun d => match dtwPlotDensity d true with
  | Ok t => match mget (de_cost t) 3 4, mget (de_cost t) 0 0 with
            | Some v, Some w => eqb v (div (ofZ 6) (ofZ 9)) && eqb v (r_normalizedDistance d) && eqb w (ofZ 0)
            | _, _ => false end
  | _ => false end) = true.
Proof. exact density_case. Qed.

(** C45: every cell is normalized like the distance of an alignment ending there; at the end point the plot
    shows normalizedDistance. *)
Theorem C45_density : forall (N : Num) (L : NumLaws N) cdist x y o (lm : mat N) d rules,
  costs_of cdist x y lm ->
  dtw cdist x y o = Ok d -> pattern_rules (r_stepPattern d) rules -> o_keep_internals o = true ->
  o_distance_only o = false -> hint (r_stepPattern d) <> "NA" -> 0 < nr lm ->
  exists mp cm g, r_map d = Some mp /\ r_costMatrix d = Some cm /\
    dtwPlotDensity d true = Ok (mkDensity g (combine (index1 mp) (index2 mp))) /\
    nr g = nr lm /\ nc g = nc lm /\
    (forall i j v, mget cm i j = Some v -> mget g i j = Some (normalized (hint (r_stepPattern d)) (i + 1) j v)) /\
    mget g (nr lm - 1) (r_jmin d) = Some (r_normalizedDistance d).
Proof. exact (fun N L  => @density_normalized N L). Qed.
Print Assumptions C45_density.

(** C45: without normalize, the cumulative costs. *)
Theorem C45_plain : forall (N : Num) (L : NumLaws N) cdist x y o (lm : mat N) d rules,
  costs_of cdist x y lm ->
  dtw cdist x y o = Ok d -> pattern_rules (r_stepPattern d) rules -> o_keep_internals o = true ->
  o_distance_only o = false ->
  exists mp cm, r_map d = Some mp /\ r_costMatrix d = Some cm /\
    dtwPlotDensity d false = Ok (mkDensity cm (combine (index1 mp) (index2 mp))).
Proof. exact (fun N L  => @density_plain N L). Qed.
Print Assumptions C45_plain.

(** C45. *)
Theorem C45_rejects : forall (N : Num) (d : DTW N) normalize,
  (r_costMatrix d = None ->
     dtwPlotDensity d normalize = Raise (ValueError "dtwPlotDensity requires dtw internals (set keep.internals=True on dtw() call)")) /\
  (r_costMatrix d <> None -> hint (r_stepPattern d) = "NA" ->
     dtwPlotDensity d true = Raise (ValueError "Step pattern has no normalization")).
Proof. exact (fun N  => @density_rejects N). Qed.
Print Assumptions C45_rejects.

Example C45_case : checkOk kept_run (fun d => match dtwPlotDensity d true with
  | Ok t => match mget (de_cost t) 3 4, mget (de_cost t) 0 0 with
            | Some v, Some w => eqb v (div (ofZ 6) (ofZ 9)) && eqb v (r_normalizedDistance d) && eqb w (ofZ 0)
            | _, _ => false end
  | _ => false end) = true.
Proof. exact density_case. Qed.

Example C45_case_NA : checkOk (run mA (oKeep "symmetric1")) (fun d =>
  String.eqb (hint (r_stepPattern d)) "NA" && match r_costMatrix d with Some _ => true | _ => false end &&
  match dtwPlotDensity d true with Raise (ValueError s) => String.eqb s "Step pattern has no normalization" | _ => false end) = true.
Proof. exact density_na_case. Qed.

(** C46: the two-way plot of a two-argument call with keep_internals: both series, and guides joining
    matched points of the two curves ([twoway_drawing], [guides]). *)
Theorem C46_twoway : forall (N : Num) (L : NumLaws N) (LL : NumLaws2 N) (L3 : NumLaws3 N) cdist x y o (lm : mat N) d rules n m xs ys offset a,
  costs_of cdist x (Some y) lm ->
  dtw cdist x (Some y) o = Ok d -> pattern_rules (r_stepPattern d) rules ->
  o_keep_internals o = true -> o_distance_only o = false ->
  (o_open_begin o = true -> (0 < nr lm)%nat /\ leaves_row rules) ->
  matrix_of (nd_val x) = Some (Mat n 1 xs) -> matrix_of (nd_val y) = Some (Mat m 1 ys) ->
  nr lm = List.length xs -> nc lm = List.length ys ->
  exists mp, r_map d = Some mp /\
    (servable 50 a (Z.of_nat (List.length (index1 mp))) ->
     exists l t, guides 50 a (Z.of_nat (List.length (index1 mp))) l /\
       dtwPlotTwoWay d None None offset a = Ok t /\ twoway_drawing mp xs ys offset l t).
Proof. exact (fun N L LL => @twoway_result N L LL). Qed.
Print Assumptions C46_twoway.

(** C46: the same for series passed to the plot, or kept in the object. *)
Theorem C46_twoway_given : forall (N : Num) (L : NumLaws N) (LL : NumLaws2 N) (L3 : NumLaws3 N) (d : DTW N) mp xts yts xs ys offset a,
  r_map d = Some mp ->
  index1 mp <> [] -> List.length (index1 mp) = List.length (index2 mp) ->
  within 0 (Z.of_nat (List.length xs)) (index1 mp) -> within 0 (Z.of_nat (List.length ys)) (index2 mp) ->
  drawn_series d xts yts xs ys -> servable 50 a (Z.of_nat (List.length (index1 mp))) ->
  exists l t, guides 50 a (Z.of_nat (List.length (index1 mp))) l /\
    dtwPlotTwoWay d xts yts offset a = Ok t /\
    twoway_drawing mp xs ys offset l t.
Proof. exact (fun N L LL => @twoway_draws N L LL). Qed.
Print Assumptions C46_twoway_given.

(** C46: three-way plot. *)
Theorem C46_threeway : forall (N : Num) (L : NumLaws N) (LL : NumLaws2 N) cdist x y o (lm : mat N) d rules a,
  costs_of cdist x (Some y) lm ->
  dtw cdist x (Some y) o = Ok d -> pattern_rules (r_stepPattern d) rules ->
  o_keep_internals o = true -> o_distance_only o = false ->
  (o_open_begin o = true -> (0 < nr lm)%nat /\ leaves_row rules) ->
  exists mp xm ym, r_map d = Some mp /\ matrix_of (nd_val x) = Some xm /\ matrix_of (nd_val y) = Some ym /\
    (servable3 a (Z.of_nat (List.length (index1 mp))) ->
     exists l t, guides3 a (Z.of_nat (List.length (index1 mp))) l /\
       dtwPlotThreeWay d None None a = Ok t /\ threeway_drawing mp (Nd2 xm) (Nd2 ym) l t).
Proof. exact (fun N L LL => @threeway_result N L LL). Qed.
Print Assumptions C46_threeway.

(** C46: a negative number of guides. *)
Theorem C46_negative : forall (N : Num) (d : DTW N) mp xts yts xs ys offset k,
  r_map d = Some mp -> drawn_series d xts yts xs ys -> (k < 0)%Z ->
  dtwPlotTwoWay d xts yts offset (MatchCount k) = Raise (ValueError "Number of samples must be non-negative.").
Proof. exact (fun N  => @negative_guides N). Qed.
Print Assumptions C46_negative.

(** C46: a requested position that is not on the curve. *)
Theorem C46_outside_twoway : forall (N : Num) (d : DTW N) mp xts yts xs ys offset l p,
  r_map d = Some mp ->
  List.length (index1 mp) = List.length (index2 mp) ->
  within 0 (Z.of_nat (List.length xs)) (index1 mp) -> within 0 (Z.of_nat (List.length ys)) (index2 mp) ->
  drawn_series d xts yts xs ys -> In p l -> ~ (- Z.of_nat (List.length (index1 mp)) <= p < Z.of_nat (List.length (index1 mp)))%Z ->
  dtwPlotTwoWay d xts yts offset (MatchList l) = Raise IndexError.
Proof. exact (fun N  => @twoway_outside N). Qed.
Print Assumptions C46_outside_twoway.

(** C46: the same in the three-way plot. *)
Theorem C46_outside_threeway : forall (N : Num) (d : DTW N) mp xts yts x y l p,
  r_map d = Some mp ->
  List.length (index1 mp) = List.length (index2 mp) -> plot_series d xts yts = Ok (x, y) ->
  In p l -> ~ (- Z.of_nat (List.length (index1 mp)) <= p < Z.of_nat (List.length (index1 mp)))%Z ->
  dtwPlotThreeWay d xts yts (MatchList l) = Raise IndexError.
Proof. exact (fun N  => @threeway_outside N). Qed.
Print Assumptions C46_outside_threeway.

Example C46_case : checkOk kept_run
  (fun d => align_is [0;1;2;2;3;3]%Z [0;1;1;2;3;4]%Z [1;3;2;1;2]%Z d &&
     twoway_is (MatchCount 3) 10 [(0,1);(1,3);(2,4);(3,9)]%Z [(0,11);(1,13);(2,17);(3,18);(4,19)]%Z
       [((0,1),(0,11));((2,4),(1,13));((3,9),(4,19))]%Z d) = true.
Proof. exact twoway_case. Qed.

Example C46_case_hypotheses : (exists lm, costs_of city qs (Some rs) lm /\ nr lm = 4 /\ nc lm = 5) /\
  matrix_of (nd_val qs) = Some (Mat 4 1 (map ofZ [1;3;4;9]%Z)) /\
  matrix_of (nd_val rs) = Some (Mat 5 1 (map ofZ [1;3;7;8;9]%Z)) /\
  servable 50 (MatchCount 3) 6 /\ servable 50 MatchNone 6 /\ servable3 (MatchList [0;5;-1]%Z) 6.
Proof. exact twoway_hyps. Qed.

Example C46_case_default : checkOk kept_run (fun d => match dtwPlotTwoWay d None None (ofZ 0) MatchNone with
  | Ok t => (List.length (tw_guides t) =? 50) && match tw_right_axis t with None => true | _ => false end | _ => false end) = true.
Proof. exact twoway_default_case. Qed.

Example C46_case_threeway : checkOk kept_run (fun d => match dtwPlotThreeWay d None None (MatchList [0;-1]%Z) with
  | Ok t => lst_eqb zz_eqb (th_curve t) [(0,0);(1,1);(2,1);(2,2);(3,3);(3,4)]%Z &&
            lst_eqb (fun p q => zz_eqb (fst p) (fst q) && zz_eqb (snd p) (snd q)) (th_guides t)
              [((0,0),(0,0));((0,0),(0,0));((3,0),(3,4));((0,4),(3,4))]%Z
  | _ => false end) = true.
Proof. exact threeway_case. Qed.

Example C46_case_outside : checkOk kept_run (fun d =>
  match dtwPlotThreeWay d None None (MatchList [0;6]%Z) with Raise IndexError => true | _ => false end &&
  match dtwPlotTwoWay d None None (ofZ 0) (MatchList [-7;1]%Z) with Raise IndexError => true | _ => false end) = true.
Proof. exact outside_case. Qed.

(** C46: positions are not always the exact integer parts. *)
Example C46_case_rounding : match @linspace_int NumF 2 99 with Ok l => nth_error l 49 | _ => None end = Some 0%Z /\ (49 * (3 - 1) / (99 - 1) = 1)%Z.
Proof. exact guide_rounding_case. Qed.

(** C47: the four plot types; every other string, abbreviations included, is rejected. *)
Theorem C47_types : forall (N : Num) (d : DTW N) type a,
  (type = "alignment" -> dtwPlot d type a = omap DrawAlignment (dtwPlotAlignment d)) /\
  (type = "twoway" -> dtwPlot d type a = omap DrawTwoWay (dtwPlotTwoWay d (a_xts a) (a_yts a) (a_offset a) (a_match a))) /\
  (type = "threeway" -> dtwPlot d type a = omap DrawThreeWay (dtwPlotThreeWay d (a_xts a) (a_yts a) (a_match a))) /\
  (type = "density" -> dtwPlot d type a = omap DrawDensity (dtwPlotDensity d (a_normalize a))) /\
  (~ In type ["alignment"; "twoway"; "threeway"; "density"] ->
     dtwPlot d type a = Raise (ValueError ("Unknown plot type: " ++ type)%string)).
Proof. exact (fun N  => @plot_types N). Qed.
Print Assumptions C47_types.

(** C47: the alignment plot is the warping curve. *)
Theorem C47_alignment : forall (N : Num) (L : NumLaws N) cdist x y o (lm : mat N) d rules a,
  costs_of cdist x y lm ->
  dtw cdist x y o = Ok d -> pattern_rules (r_stepPattern d) rules -> o_distance_only o = false ->
  (o_open_begin o = true -> (0 < nr lm)%nat /\ leaves_row rules) ->
  exists mp c, r_map d = Some mp /\ dtwPlot d "alignment" a = Ok (DrawAlignment c) /\ warping_curve mp c.
Proof. exact (fun N L  => @alignment_plot N L). Qed.
Print Assumptions C47_alignment.

(** C47: a distance_only result cannot be plotted. *)
Theorem C47_need_alignment : forall (N : Num) (d : DTW N) type a,
  r_map d = None -> forall g, dtwPlot d type a <> Ok g.
Proof. exact (fun N  => @plots_need_alignment N). Qed.
Print Assumptions C47_need_alignment.

Example C47_case : ~ In "two" ["alignment"; "twoway"; "threeway"; "density"].
Proof. exact abbreviation_case. Qed.

(** C48. *)
Theorem C48_required : forall (N : Num) (d : DTW N) xts yts,
  (xts = None \/ yts = None) -> (r_query d = None \/ r_reference d = None) ->
  (forall offset a, dtwPlotTwoWay d xts yts offset a = Raise (ValueError "Original timeseries are required")) /\
  (forall a, dtwPlotThreeWay d xts yts a = Raise (ValueError "Original timeseries are required")).
Proof. exact (fun N  => @series_required N). Qed.
Print Assumptions C48_required.

(** C48: a call with a cost matrix keeps no series. *)
Theorem C48_matrix_call : forall (N : Num) (L : NumLaws N) cdist x o (lm : mat N) d rules,
  costs_of cdist x None lm ->
  dtw cdist x None o = Ok d -> pattern_rules (r_stepPattern d) rules ->
  r_query d = None /\ r_reference d = None.
Proof. exact (fun N L  => @matrix_call_no_series N L). Qed.
Print Assumptions C48_matrix_call.

(** C48: a series passed alone is ignored. *)
Theorem C48_lone_series : forall (N : Num) (d : DTW N) x offset a,
  dtwPlotTwoWay d (Some x) None offset a = dtwPlotTwoWay d None None offset a /\
  dtwPlotTwoWay d None (Some x) offset a = dtwPlotTwoWay d None None offset a /\
  dtwPlotThreeWay d (Some x) None a = dtwPlotThreeWay d None None a /\
  dtwPlotThreeWay d None (Some x) a = dtwPlotThreeWay d None None a.
Proof. exact (fun N  => @lone_series_ignored N). Qed.
Print Assumptions C48_lone_series.

(** C48: one-dimensional vectors raise IndexError. *)
Theorem C48_vectors : forall (N : Num) (d : DTW N) xs y offset a,
  dtwPlotTwoWay d (Some (Nd1 xs)) (Some y) offset a = Raise IndexError.
Proof. exact (fun N  => @vectors_rejected N). Qed.
Print Assumptions C48_vectors.

(** C48. *)
Theorem C48_multivariate : forall (N : Num) (d : DTW N) n k xs y offset a,
  k <> 1%nat ->
  dtwPlotTwoWay d (Some (Nd2 (Mat n k xs))) (Some y) offset a =
  Raise (ValueError "Only single-variate timeseries can be plotted in the two-way style").
Proof. exact (fun N  => @multivariate_rejected N). Qed.
Print Assumptions C48_multivariate.

Example C48_case : checkOk (run mA (oKeep "symmetric2")) (fun d =>
  match dtwPlotTwoWay d (Some (Nd2 (Mat 3 1 (map ofZ [1;2;3]%Z)))) None (ofZ 0) MatchNone with
  | Raise (ValueError s) => String.eqb s "Original timeseries are required" | _ => false end) = true.
Proof. exact matrix_plot_case. Qed.

(** C49: what the command line tool prints. *)
Theorem C49_cli : forall (N : Num) euclidean q r sp v,
  main2 euclidean q r sp = Ok v <->
  exists (d : DTW N) mp, dtw euclidean q (Some r) (mkOpts (SPName sp) WTNone [] false false false false) = Ok d /\
    r_map d = Some mp /\ v = (r_normalizedDistance d, r_distance d, index1 mp, index2 mp).
Proof. exact (fun N  => @cli_is_api N). Qed.
Print Assumptions C49_cli.

Example C49_case : cli_is "symmetric2" (div (ofZ 6) (ofZ 9)) (ofZ 6) [0;1;2;2;3;3]%Z [0;1;1;2;3;4]%Z = true.
Proof. exact cli_case. Qed.

(** The laws used are those of exact rationals, of binary64 and of binary64 with fused multiply-add. *)
Theorem C46_arithmetic : NumLaws3 NumQ /\ NumLaws3 NumF /\ NumLaws3 NumFMA.
Proof. exact (conj NumQ_laws3 (conj NumF_laws3 NumFMA_laws3)). Qed.
Print Assumptions C46_arithmetic.
