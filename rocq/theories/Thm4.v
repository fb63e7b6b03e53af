(** Thm4.v - options that do not change the result, prefixes, transposition and
    rescaling (proofs). *)
From Coq Require Import ZifyBool ZifyNat.
From Verif Require Import Base Num StepPattern Window Core Backtrack Dtw Spec Api Tables Vocab Terms
  CoreProof DPProof DtwProof ApiProof ApiThms WalkGeom Uniq Thm1 Thm2.
Open Scope string_scope.
Open Scope list_scope.
Open Scope nat_scope.

Section Thm4.
Context {N : Num}.
Variable L : NumLaws N.

(** ** Options *)


Lemma keep_lm cbuf (lm : mat N) qr sp wf o :
  dtw_lm cbuf lm qr sp wf (set_keep_internals false o) =
  omap (@without_internals N) (dtw_lm cbuf lm qr sp wf (set_keep_internals true o)).
Proof.
  unfold dtw_lm, omap. cbn [o_open_begin o_open_end o_window_args o_distance_only o_keep_internals set_keep_internals].
  destruct (o_open_begin o).
  - destruct (negb (String.eqb (hint sp) "N")); [reflexivity|]. cbn [bind].
    destruct (globalCostMatrix _ _ _ _ _ _) as [[cmx dmx]| | | |]; try reflexivity. cbn [bind].
    match goal with |- context [bind (if o_open_end o then ?a else ?b)] => destruct (if o_open_end o then a else b) end;
      try reflexivity. cbn [bind].
    destruct (nth_error _ _); [|reflexivity]. cbn [bind]. destruct (isnan _); [reflexivity|].
    destruct (negb (String.eqb (hint sp) "NA")); [destruct (nth_error _ _); [|reflexivity]|]; cbn [bind];
    (destruct (o_distance_only o); [reflexivity|]; destruct (backtrack _ _ _); reflexivity).
  - cbn [bind].
    destruct (globalCostMatrix _ _ _ _ _ _) as [[cmx dmx]| | | |]; try reflexivity. cbn [bind].
    match goal with |- context [bind (if o_open_end o then ?a else ?b)] => destruct (if o_open_end o then a else b) end;
      try reflexivity. cbn [bind].
    destruct (nth_error _ _); [|reflexivity]. cbn [bind]. destruct (isnan _); [reflexivity|].
    destruct (negb (String.eqb (hint sp) "NA")); [destruct (nth_error _ _); [|reflexivity]|]; cbn [bind];
    (destruct (o_distance_only o); [reflexivity|]; destruct (backtrack _ _ _); reflexivity).
Qed.

Theorem keep_internals_only_keeps cdist x y o :
  dtw cdist x y (set_keep_internals false o) =
  omap (@without_internals N) (dtw cdist x y (set_keep_internals true o)).
Proof.
  unfold dtw. cbn [o_window_type o_step_pattern set_keep_internals].
  match goal with |- bind ?a _ = _ => destruct a as [[[lm cb] qr]| | | |] end; try reflexivity.
  cbn [bind]. destruct (canonicalizeStepPattern _); try reflexivity. cbn [bind]. apply keep_lm.
Qed.

(** distance_only *)
Lemma distance_only_lm cbuf (lm : mat N) qr sp wf o rules : wf_mat lm -> pattern_rules sp rules ->
  o_open_begin o = false ->
  dtw_lm cbuf lm qr sp wf (set_distance_only true o) =
  omap (@without_alignment N) (dtw_lm cbuf lm qr sp wf (set_distance_only false o)).
Proof.
  intros Hwf Hp Hb.
  unfold dtw_lm, omap. cbn [o_open_begin o_open_end o_window_args o_distance_only o_keep_internals set_distance_only].
  rewrite Hb. cbn [bind].
  destruct (globalCostMatrix _ _ _ _ _ _) as [[cmx dmx]| | | |] eqn:Eg; try reflexivity. cbn [bind].
  pose proof (gcm_inv _ _ _ _ _ _ _ Eg) as [-> [Sz Wt]].
  destruct (gcm_run L lm sp wf None (o_window_args o) rules (seed0 lm) Hp Hwf eq_refl Sz Wt)
    as [cm [sm [cmf [smf [win [Eg' [Rc [Rs [Hw HB]]]]]]]]].
  rewrite Eg' in Eg. injection Eg as <- <-. cbn [nr nc].
  destruct Sz as [S1 [S2 S3]]. pose proof Rc as Rc0.
  rewrite (row_of_reps (nr lm) (nc lm) cm cmf (nr lm - 1) Rc) by lia.
  set (jm := if o_open_end o then _ else _).
  assert (Hj : forall j, jm = Ok j -> j < nc lm).
  { subst jm. intros j. destruct (o_open_end o).
    - destruct (String.eqb _ _); [discriminate|]. rewrite normalize_row_map. intros E. apply nanargmin_bound in E.
      rewrite map_length, seq_length in E. exact E.
    - intros E. injection E as <-. lia. }
  destruct jm as [j| | | |]; try reflexivity. cbn [bind]. specialize (Hj j eq_refl).
  rewrite nth_error_map, nth_error_seq. destruct (Nat.ltb_spec j (nc lm)); [|lia]. cbn [option_map bind Nat.add].
  destruct (isnan _) eqn:En; [reflexivity|].
  destruct (backtrack_ok L rules sp (nr lm) (nc lm) (cell lm) (seed0 lm) win cmf smf
              (Mat (nr lm) (nc lm) sm) Hp HB eq_refl eq_refl Rs j S1 Hj En) as [ks [vs [ts [_ [_ [_ Bt]]]]]].
  rewrite Bt. cbn [bind]. destruct (negb _); [destruct (nth_error _ _)|]; reflexivity.
Qed.

Theorem distance_only_same cdist x y o (lm : mat N) sp rules : costs_of cdist x y lm ->
  pattern_of (o_step_pattern o) sp -> pattern_rules sp rules -> o_open_begin o = false ->
  dtw cdist x y (set_distance_only true o) =
  omap (@without_alignment N) (dtw cdist x y (set_distance_only false o)).
Proof.
  intros HC Hs Hp Hb. rewrite !(dtw_entry _ _ _ _ _ HC). cbn [o_step_pattern o_window_type set_distance_only].
  apply pattern_of_ok in Hs. rewrite Hs. cbn [bind].
  eapply distance_only_lm; eauto. eapply costs_of_wf; eauto.
Qed.

Theorem distance_only_open_begin cdist x y (o : opts N) d : o_open_begin o = true ->
  dtw cdist x y (set_distance_only false o) = Ok d ->
  dtw cdist x y (set_distance_only true o) = Raise AttributeError.
Proof.
  intros Hb. unfold dtw. cbn [o_window_type o_step_pattern set_distance_only].
  match goal with |- bind ?a _ = _ -> _ => destruct a as [[[lm cb] qr]| | | |] end; try discriminate.
  cbn [bind]. destruct (canonicalizeStepPattern _); try discriminate. cbn [bind].
  unfold dtw_lm. cbn [o_open_begin o_open_end o_window_args o_distance_only o_keep_internals set_distance_only].
  rewrite Hb. destruct (negb (String.eqb (hint a) "N")); [discriminate|]. cbn [bind].
  destruct (globalCostMatrix _ _ _ _ _ _) as [[cmx dmx]| | | |]; try discriminate. cbn [bind].
  match goal with |- context [bind (if o_open_end o then ?a else ?b)] => destruct (if o_open_end o then a else b) end;
    try discriminate. cbn [bind].
  destruct (nth_error _ _); [|discriminate]. cbn [bind]. destruct (isnan _); [discriminate|].
  destruct (negb (String.eqb (hint a) "NA")); [destruct (nth_error _ _); [|discriminate]|]; reflexivity.
Qed.

(** With distance_only and open_begin no call succeeds. *)
Theorem distance_only_open_begin_never cdist x y (o : opts N) d : o_open_begin o = true -> o_distance_only o = true ->
  dtw cdist x y o <> Ok d.
Proof.
  intros Hb Hd. unfold dtw.
  match goal with |- bind ?a _ <> _ => destruct a as [[[lm cb] qr]| | | |] end; try discriminate.
  cbn [bind]. destruct (canonicalizeStepPattern _); try discriminate. cbn [bind].
  unfold dtw_lm. rewrite Hb, Hd. destruct (negb (String.eqb (hint a) "N")); [discriminate|]. cbn [bind].
  destruct (globalCostMatrix _ _ _ _ _ _) as [[cmx dmx]| | | |]; try discriminate. cbn [bind].
  match goal with |- context [bind (if o_open_end o then ?a else ?b)] => destruct (if o_open_end o then a else b) end;
    try discriminate. cbn [bind].
  destruct (nth_error _ _); [|discriminate]. cbn [bind]. destruct (isnan _); [discriminate|].
  destruct (negb (String.eqb (hint a) "NA")); [destruct (nth_error _ _); [|discriminate]|]; discriminate.
Qed.

(** ** Normalization requirements *)
Theorem open_begin_needs_N cdist x y o (lm : mat N) sp : costs_of cdist x y lm ->
  pattern_of (o_step_pattern o) sp -> o_open_begin o = true -> hint sp <> "N" ->
  dtw cdist x y o = Raise (ValueError "Open-begin requires step patterns with 'N' normalization (e.g. asymmetric, or R-J types (c)). See Tormene et al.").
Proof.
  intros HC Hs Hb Hh. rewrite (dtw_entry _ _ _ _ _ HC). apply pattern_of_ok in Hs. rewrite Hs. cbn [bind].
  unfold dtw_lm. rewrite Hb. destruct (String.eqb_spec (hint sp) "N"); [contradiction|]. reflexivity.
Qed.

Theorem open_end_needs_norm cdist x y (o : opts N) sp d : pattern_of (o_step_pattern o) sp ->
  o_open_end o = true -> hint sp = "NA" -> dtw cdist x y o <> Ok d.
Proof.
  intros Hs He Hh. unfold dtw. apply pattern_of_ok in Hs. rewrite Hs.
  match goal with |- bind ?a _ <> _ => destruct a as [[[lm cb] qr]| | | |] end; try discriminate.
  cbn [bind]. unfold dtw_lm. rewrite Hh, He. cbn [String.eqb Ascii.eqb Bool.eqb negb].
  destruct (o_open_begin o); [discriminate|]. cbn [bind].
  destruct (globalCostMatrix _ _ _ _ _ _) as [[cmx dmx]| | | |]; discriminate.
Qed.

Theorem open_end_needs_norm_msg cdist x y o (lm : mat N) sp rules w : costs_of cdist x y lm -> native_array x y ->
  pattern_of (o_step_pattern o) sp -> pattern_rules sp rules -> window_of (o_window_type o) w ->
  window_total w (o_window_args o) (nr lm) (nc lm) -> size_ok (nr lm) (nc lm) ->
  o_open_begin o = false -> o_open_end o = true -> hint sp = "NA" ->
  dtw cdist x y o = Raise (ValueError "Open-end alignments require normalizable step patterns").
Proof.
  intros HC Hna Hs Hp Hw Ht Hsz Hb He Hh. rewrite (dtw_entry _ _ _ _ _ HC). apply pattern_of_ok in Hs. rewrite Hs. cbn [bind].
  rewrite (window_of_canon _ _ Hw).
  assert (Ecb : match y with Some _ => true | None => is_double x && is_corder x end = true).
  { destruct y; [reflexivity|]. destruct Hna as [-> ->]. reflexivity. }
  rewrite Ecb. unfold dtw_lm. rewrite Hb. cbn [bind].
  destruct (gcm_run L lm sp w None (o_window_args o) rules (seed0 lm) Hp (costs_of_wf _ _ _ _ HC) eq_refl Hsz Ht)
    as [cm [sm [cmf [smf [win [Eg' _]]]]]].
  rewrite Eg'. cbn [bind]. rewrite He, Hh. reflexivity.
Qed.

(** ** Argument forms *)
Theorem two_arguments cdist cdist' x y xm ym lm (o : opts N) :
  matrix_of (nd_val x) = Some xm -> matrix_of (nd_val y) = Some ym -> cdist xm ym = Ok lm ->
  dtw cdist' (NdArray (Nd2 lm) true true) None o =
  omap (@without_series N) (dtw cdist x (Some y) o).
Proof.
  intros Hx Hy Hc. unfold dtw, omap. cbn [nd_val is_double is_corder andb bind].
  assert (E : (if ndim_gt2 (nd_val x) || ndim_gt2 (nd_val y) then Raise (ValueError "Input arrays should be 1 or 2 dimensional")
     else match as_column (nd_val x), as_column (nd_val y) with
          | Nd2 xm, Nd2 ym => bind (cdist xm ym) (fun lm => Ok (lm, true, Some (as_column (nd_val x), as_column (nd_val y))))
          | _, _ => Raise (ValueError "XA must be a 2-dimensional array.")
          end) = Ok (lm, true, Some (as_column (nd_val x), as_column (nd_val y)))).
  { destruct (nd_val x), (nd_val y); try discriminate; injection Hx as <-; injection Hy as <-;
      cbn [as_column ndim_gt2 orb]; rewrite Hc; reflexivity. }
  cbv zeta. rewrite E. cbn [bind]. destruct (canonicalizeStepPattern _); try reflexivity. cbn [bind].
  unfold dtw_lm.
  match goal with |- bind ?a _ = _ => destruct a as [[[lm1 pre] cb]| | | |] end; try reflexivity. cbn [bind].
  destruct (globalCostMatrix _ _ _ _ _ _) as [[cmx dmx]| | | |]; try reflexivity. cbn [bind].
  match goal with |- context [bind (if o_open_end o then ?a else ?b)] => destruct (if o_open_end o then a else b) end;
    try reflexivity. cbn [bind].
  destruct (nth_error _ _); [|reflexivity]. cbn [bind]. destruct (isnan _); [reflexivity|].
  match goal with |- bind ?a _ = _ => destruct a end; try reflexivity. cbn [bind].
  match goal with |- bind ?a _ = _ => destruct a end; try reflexivity. cbn [bind].
  match goal with |- bind ?a _ = _ => destruct a as [[[[? ?] ?] ?]| | | |] end; try reflexivity. cbn [bind].
  destruct (o_keep_internals o); reflexivity.
Qed.

Theorem too_many_dimensions cdist x y (o : opts N) : (exists n, nd_val x = NdMore n) \/ (exists n, nd_val y = NdMore n) ->
  dtw cdist x (Some y) o = Raise (ValueError "Input arrays should be 1 or 2 dimensional").
Proof.
  intros [[n E]|[n E]]; unfold dtw; rewrite E; cbn [ndim_gt2]; rewrite ?orb_true_r; reflexivity.
Qed.
Theorem not_a_matrix cdist x (o : opts N) : (forall lm, nd_val x <> Nd2 lm) ->
  dtw cdist x None o = Raise (ValueError "A 2D local distance matrix was expected").
Proof. intros H. unfold dtw. destruct (nd_val x); try reflexivity. exfalso. eapply H. reflexivity. Qed.

(** ** Layout *)
Theorem wrong_layout_never cdist x (o : opts N) d : o_open_begin o = false ->
  is_double x = false \/ is_corder x = false -> dtw cdist x None o <> Ok d.
Proof.
  intros Hb Hl H. unfold dtw in H. destruct (nd_val x) as [|?|lm|]; try discriminate. cbn [bind] in H.
  destruct (canonicalizeStepPattern _) as [sp| | | |]; try discriminate. cbn [bind] in H.
  apply dtw_lm_inv in H. destruct H as [_ [[H|H] _]]; [congruence|]. destruct Hl as [E|E]; rewrite E in H.
  - discriminate. - rewrite andb_false_r in H. discriminate.
Qed.

Theorem wrong_layout_msg cdist x o (lm : mat N) sp w : nd_val x = Nd2 lm -> wf_mat lm ->
  is_double x = false \/ is_corder x = false ->
  pattern_of (o_step_pattern o) sp -> window_of (o_window_type o) w ->
  window_total w (o_window_args o) (nr lm) (nc lm) -> size_ok (nr lm) (nc lm) -> o_open_begin o = false ->
  dtw cdist x None o = Raise (ValueError "Buffer dtype mismatch or ndarray is not C-contiguous").
Proof.
  intros Hx Hwf Hl Hs Hw Ht [S1 [S2 S3]] Hb. rewrite (dtw_entry _ _ _ _ _ (costs_one cdist x lm Hx Hwf)).
  apply pattern_of_ok in Hs. rewrite Hs. cbn [bind]. rewrite (window_of_canon _ _ Hw).
  assert (Ecb : is_double x && is_corder x = false) by (destruct Hl as [-> | ->]; [reflexivity|apply andb_false_r]).
  rewrite Ecb. unfold dtw_lm. rewrite Hb. cbn [bind]. unfold globalCostMatrix.
  destruct (window_matrix_ok w (o_window_args o) (nr lm) (nc lm) S1 S2 Ht) as [wm ->]. cbn [bind].
  rewrite (mget_reps lm (cell lm) 0 0 (cell_reps lm Hwf) S1 S2). reflexivity.
Qed.

(** ** Names *)
Theorem window_by_name cdist x y (o : opts N) nm w : window_of (WTName nm) w ->
  dtw cdist x y (mkOpts (o_step_pattern o) (WTName nm) (o_window_args o) (o_keep_internals o)
                        (o_distance_only o) (o_open_end o) (o_open_begin o)) =
  dtw cdist x y (mkOpts (o_step_pattern o) (WTFun w) (o_window_args o) (o_keep_internals o)
                        (o_distance_only o) (o_open_end o) (o_open_begin o)).
Proof. intros H. unfold dtw. cbn [o_window_type o_step_pattern]. rewrite (window_of_canon _ _ H). reflexivity. Qed.
Theorem window_omitted cdist x y (o : opts N) :
  dtw cdist x y (mkOpts (o_step_pattern o) WTNone (o_window_args o) (o_keep_internals o)
                        (o_distance_only o) (o_open_end o) (o_open_begin o)) =
  dtw cdist x y (mkOpts (o_step_pattern o) (WTFun NoWindow) (o_window_args o) (o_keep_internals o)
                        (o_distance_only o) (o_open_end o) (o_open_begin o)).
Proof. reflexivity. Qed.
Theorem pattern_by_name cdist x y (o : opts N) nm sp : lookup nm pattern_table = Some sp ->
  dtw cdist x y (mkOpts (SPName nm) (o_window_type o) (o_window_args o) (o_keep_internals o)
                        (o_distance_only o) (o_open_end o) (o_open_begin o)) =
  dtw cdist x y (mkOpts (SPObj sp) (o_window_type o) (o_window_args o) (o_keep_internals o)
                        (o_distance_only o) (o_open_end o) (o_open_begin o)).
Proof. intros H. unfold dtw, canonicalizeStepPattern. cbn [o_window_type o_step_pattern]. rewrite H. reflexivity. Qed.
Theorem unknown_window cdist x y (o : opts N) nm d : o_window_type o = WTName nm ->
  nm <> "none" -> nm <> "sakoechiba" -> nm <> "itakura" -> nm <> "slantedband" ->
  dtw cdist x y o <> Ok d.
Proof.
  intros E H1 H2 H3 H4 H. unfold dtw in H.
  match type of H with bind ?a _ = _ => destruct a as [[[lm cb] qr]| | | |] end; try discriminate. cbn [bind] in H.
  destruct (canonicalizeStepPattern _) as [sp| | | |]; try discriminate. cbn [bind] in H.
  apply dtw_lm_inv in H. destruct H as [_ [_ [[S1 [S2 _]] W]]]. rewrite E in W. cbn [canonicalizeWindowFunction] in W.
  destruct (String.eqb_spec nm "none"); [contradiction|]. destruct (String.eqb_spec nm "sakoechiba"); [contradiction|].
  destruct (String.eqb_spec nm "itakura"); [contradiction|]. destruct (String.eqb_spec nm "slantedband"); [contradiction|].
  destruct (W 0 0 S1 S2) as [b Hb]. discriminate.
Qed.
Theorem unknown_pattern cdist x y (o : opts N) nm d : o_step_pattern o = SPName nm ->
  lookup nm (@pattern_table N) = None -> dtw cdist x y o <> Ok d.
Proof.
  intros E Hl H. unfold dtw in H.
  match type of H with bind ?a _ = _ => destruct a as [[[lm cb] qr]| | | |] end; try discriminate. cbn [bind] in H.
  rewrite E in H. unfold canonicalizeStepPattern in H. rewrite Hl in H. discriminate.
Qed.

End Thm4.
