(** Thm8.v - windows: equivalent windows, Sakoe-Chiba, Itakura, slanted band (proofs). *)
From Coq Require Import ZifyBool ZifyNat.
From Verif Require Import Base Num StepPattern Window Core Backtrack Dtw Spec Api Tables Vocab Terms
  CoreProof DPProof DtwProof ApiProof ApiThms WalkGeom Uniq Thm1 Thm2 Thm4 Thm5 Thm6 Thm7.
Open Scope string_scope.
Open Scope list_scope.
Open Scope nat_scope.

Section Thm8.
Context {N : Num}.
Variable L : NumLaws N.


Definition same_cells (w1 : winfun N) (kw1 : kwargs N) (w2 : winfun N) (kw2 : kwargs N) (n m : nat) : Prop :=
  forall i j, i < n -> j < m -> (in_window w1 kw1 n m i j <-> in_window w2 kw2 n m i j).

(** Windows admitting the same cells give the same result. *)
Theorem same_cells_same_result cdist x y o (lm : mat N) sp rules w t2 kw2 w2 :
  well_posed cdist x y o lm sp rules w ->
  window_of t2 w2 -> window_total w2 kw2 (rows_used (o_open_begin o) lm) (nc lm) ->
  same_cells w (o_window_args o) w2 kw2 (rows_used (o_open_begin o) lm) (nc lm) ->
  dtw cdist x y (set_window o t2 kw2) =
  omap (fun d => relabel_window d w2 kw2) (dtw cdist x y o).
Proof.
  intros WP Hw2 Ht2 HS. pose proof WP as WP0. destruct WP0 as [w1 w2' w3 w4 w5 w6 w7 w8 w9 w10].
  assert (WP' : well_posed cdist x y (set_window o t2 kw2) lm sp rules w2) by (constructor; auto).
  destruct (wp_finish_any L _ _ _ _ _ _ _ _ WP) as [cm [dm [cmf [smf [win [E [Rc [Rs [Hw HB]]]]]]]]].
  destruct (wp_finish_any L _ _ _ _ _ _ _ _ WP') as [cm' [dm' [cmf' [smf' [win' [E' [Rc' [Rs' [Hw' HB']]]]]]]]].
  change (p_lm (set_window o t2 kw2) lm) with (p_lm o lm) in *.
  change (p_seed (set_window o t2 kw2) lm) with (p_seed o lm) in *.
  change (o_window_args (set_window o t2 kw2)) with kw2 in *.
  assert (EQ : forall i j, i < nr (p_lm o lm) -> j < nc lm -> cmf i j = cmf' i j /\ smf i j = smf' i j).
  { intros i j Hi Hj. apply (bellman_unique L rules (nr (p_lm o lm)) (nc lm) (cell (p_lm o lm)) (p_seed o lm) win cmf smf
       (cell (p_lm o lm)) (p_seed o lm) win' cmf' smf'); auto; [apply w4|].
    intros a b Ha Hb. split; [reflexivity|]. split; [reflexivity|].
    apply Bool.eq_iff_eq_true. rewrite (Hw a b Ha Hb), (Hw' a b Ha Hb). rewrite rows_used_p in HS. apply HS; assumption. }
  assert (Hpos : 0 < nr (p_lm o lm) /\ 0 < nc lm) by (rewrite rows_used_p in w8; split; apply w8).
  assert (Ecm : cm' = cm).
  { eapply reps_inj; [exact Rc'|exact Rc|]. intros a b Ha Hb. symmetry. apply EQ; assumption. }
  assert (Edm : dm' = dm).
  { eapply reps_inj; [exact Rs'|exact Rs|]. intros a b Ha Hb. symmetry. apply EQ; assumption. }
  subst cm' dm'. rewrite E, E'. unfold finish_any.
  change (choose (set_window o t2 kw2)) with (choose o).
  assert (Ech : choose o (hint sp) (nr lm) (nc lm) (cmf' (nr (p_lm o lm) - 1)) =
                choose o (hint sp) (nr lm) (nc lm) (cmf (nr (p_lm o lm) - 1))).
  { unfold choose. destruct (o_open_end o); [|reflexivity]. destruct (String.eqb _ _); [reflexivity|].
    f_equal. apply map_ext_in. intros j Hj. apply in_seq in Hj. f_equal. symmetry. apply EQ; lia. }
  rewrite Ech. destruct (choose o (hint sp) (nr lm) (nc lm) (cmf (nr (p_lm o lm) - 1))) as [jm| | | |] eqn:Ej;
    cbn [bind omap]; try reflexivity.
  assert (Hjm : jm < nc lm) by (eapply choose_bound; [apply Hpos|exact Ej]).
  destruct (EQ (nr (p_lm o lm) - 1) jm ltac:(lia) Hjm) as [<- _].
  destruct (isnan _); [reflexivity|].
  change (o_distance_only (set_window o t2 kw2)) with (o_distance_only o).
  change (o_open_begin (set_window o t2 kw2)) with (o_open_begin o).
  destruct (if o_distance_only o then _ else _) as [mp| | | |]; cbn [bind omap]; try reflexivity.
  destruct (_ && _); reflexivity.
Qed.

(** ** A window that rejects the final corner *)
Theorem corner_excluded cdist x y o (lm : mat N) sp rules w :
  well_posed cdist x y o lm sp rules w -> o_open_end o = false -> o_open_begin o = false ->
  ~ (nr lm = 1 /\ nc lm = 1) ->
  ~ in_window w (o_window_args o) (nr lm) (nc lm) (nr lm - 1) (nc lm - 1) ->
  dtw cdist x y o = Raise no_path.
Proof.
  intros WP He Hb H11 Hw.
  destruct (dtw_closed_end_iff L _ _ _ _ _ _ _ _ WP He) as [[H _]|[d [_ [_ [_ [ks [vs [ts [c [W U]]]]]]]]]]; [exact H|].
  rewrite Hb in W. unfold admissible, end_cell in W. exfalso.
  pose proof (wp_query _ _ _ _ _ _ _ _ WP) as Q1. pose proof (wp_size _ _ _ _ _ _ _ _ WP) as [_ [Q2 _]].
  unfold closed_walk in W. remember (nr lm - 1, nc lm - 1) as q eqn:Eq.
  destruct W as [i j c0 Hs Hi Hj|ks vs ts i0 j0 c k r W Hk Hi Hj Ha]; injection Eq as E1 E2;
    [|rewrite E1, E2 in Ha; contradiction].
  rewrite E1, E2 in Hs. unfold closed_source in Hs. destruct (Nat.eqb_spec (nr lm - 1) 0), (Nat.eqb_spec (nc lm - 1) 0); try discriminate.
  apply H11. lia.
Qed.

(** ** Sakoe-Chiba *)

Lemma in_band (ws : N) n m i j : in_window SakoeChiba (band ws) n m i j <->
  leb (ofZ (Z.abs (Z.of_nat j - Z.of_nat i))) ws = true.
Proof.
  unfold in_window, band. cbn [call_window]. change (String.eqb "window_size" "window_size") with true. cbv iota.
  unfold sakoeChibaWindow. split; [intros H; injection H; auto|intros ->; reflexivity].
Qed.

Lemma sakoe_total (ws : N) n m : @window_total N SakoeChiba (band ws) n m.
Proof. unfold window_total. intros. eexists. reflexivity. Qed.

Lemma le_ws a b (ws : N) : (0 <= a <= b)%Z -> (b <= 2 ^ 53)%Z -> leb (ofZ b) ws = true -> leb (ofZ a) ws = true.
Proof.
  intros H1 H2 H. apply (law_le_trans _ L _ (ofZ b)); [|exact H]. rewrite (law_le_ofZ _ L); lia.
Qed.

Theorem sakoe_points cdist x y o (lm : mat N) d rules ws : costs_of cdist x y lm ->
  dtw cdist x y o = Ok d -> pattern_rules (r_stepPattern d) rules ->
  o_distance_only o = false -> o_open_begin o = false ->
  r_windowFunction d = SakoeChiba -> r_windowArgs d = band ws -> leb (ofZ 0) ws = true ->
  exists mp, r_map d = Some mp /\
  forall t i j, nth_error (index1s mp) t = Some i -> nth_error (index2s mp) t = Some j ->
    leb (ofZ (Z.abs (j - i))) ws = true.
Proof.
  intros HC H Hp Hd Hb Hf Ha H0.
  destruct (window_closed L _ _ _ _ _ _ _ HC H Hp Hd Hb) as [mp [Em Hw]].
  destruct (monotone_closed L _ _ _ _ _ _ _ HC H Hp Hd Hb) as [mp' [Em' M]].
  rewrite Em in Em'. injection Em' as <-. exists mp. split; [exact Em|].
  destruct M as [_ [_ [_ [_ [_ [M1 [M2 [_ [_ [_ [_ [_ [_ [M3 [M4 _]]]]]]]]]]]]]]].
  intros [|t] i j Hi Hj.
  - unfold first_is in M1, M2. rewrite M1 in Hi. rewrite M2 in Hj. injection Hi as <-. injection Hj as <-. exact H0.
  - specialize (Hw t i j Hi Hj). rewrite Hf, Ha in Hw. apply in_band in Hw.
    apply nth_error_In in Hi. apply nth_error_In in Hj. specialize (M3 _ Hi). specialize (M4 _ Hj).
    rewrite !Z2Nat.id in Hw by lia. exact Hw.
Qed.

Theorem sakoe_too_narrow cdist x y o (lm : mat N) sp rules ws :
  well_posed cdist x y o lm sp rules SakoeChiba -> o_open_end o = false -> o_open_begin o = false ->
  o_window_args o = band ws -> leb (ofZ 0) ws = true ->
  leb (ofZ (Z.abs (Z.of_nat (nc lm) - Z.of_nat (nr lm)))) ws = false ->
  dtw cdist x y o = Raise no_path.
Proof.
  intros WP He Hb Ha H0 Hn. eapply corner_excluded; eauto.
  - intros [E1 E2]. rewrite E1, E2 in Hn. change (Z.abs (Z.of_nat 1 - Z.of_nat 1)) with 0%Z in Hn. congruence.
  - rewrite Ha, in_band. pose proof (wp_query _ _ _ _ _ _ _ _ WP) as Q1. pose proof (wp_size _ _ _ _ _ _ _ _ WP) as [_ [Q2 _]].
    replace (Z.of_nat (nc lm - 1) - Z.of_nat (nr lm - 1))%Z with (Z.of_nat (nc lm) - Z.of_nat (nr lm))%Z by lia. congruence.
Qed.

Theorem sakoe_wide cdist x y o (lm : mat N) sp rules ws :
  well_posed cdist x y o lm sp rules NoWindow -> o_window_args o = [] ->
  leb (ofZ (Z.max (Z.of_nat (nr lm)) (Z.of_nat (nc lm)))) ws = true ->
  dtw cdist x y (set_window o (WTName "sakoechiba") (band ws)) =
  omap (fun d => relabel_window d SakoeChiba (band ws)) (dtw cdist x y o).
Proof.
  intros WP Ha Hm. eapply same_cells_same_result; [exact WP|constructor|apply sakoe_total|].
  intros i j Hi Hj. rewrite in_band. unfold in_window. split; [intros _|auto].
  pose proof (wp_small _ _ _ _ _ _ _ _ WP) as [S1 S2]. unfold rows_used in Hi.
  apply (le_ws _ (Z.max (Z.of_nat (nr lm)) (Z.of_nat (nc lm)))); [| |exact Hm].
  - clear Hm WP. destruct (o_open_begin o); lia.
  - change (2 ^ 53)%Z with 9007199254740992%Z. change (2 ^ 40)%Z with 1099511627776%Z in *. clear -S1 S2. lia.
Qed.

(** ** Itakura *)
Lemma Ok_inj {A} (a b : A) : Ok a = Ok b -> a = b.
Proof. congruence. Qed.
Lemma itakura_corner n m : 0 < n -> 0 < m ->
  (@in_window N Itakura [] n m (n - 1) (m - 1) <-> (m - 1 < 2 * (n - 1) /\ n - 1 <= 2 * (m - 1))).
Proof.
  intros Hn Hm. unfold in_window. cbn [call_window]. unfold itakuraWindow.
  split.
  - intros H1. apply Ok_inj in H1. rewrite !andb_true_iff, !Z.ltb_lt, !Z.leb_le in H1. lia.
  - intros H. f_equal. rewrite !andb_true_iff, !Z.ltb_lt, !Z.leb_le. lia.
Qed.

Theorem itakura_corner_excluded cdist x y o (lm : mat N) sp rules :
  well_posed cdist x y o lm sp rules Itakura -> o_open_end o = false -> o_open_begin o = false ->
  o_window_args o = [] -> ~ (nr lm = 1 /\ nc lm = 1) ->
  ~ (nc lm - 1 < 2 * (nr lm - 1) /\ nr lm - 1 <= 2 * (nc lm - 1)) ->
  dtw cdist x y o = Raise no_path.
Proof.
  intros WP He Hb Ha H11 Hn. eapply corner_excluded; eauto.
  rewrite Ha, itakura_corner; [exact Hn|apply WP|]. pose proof (wp_size _ _ _ _ _ _ _ _ WP) as [_ [Q2 _]]. exact Q2.
Qed.

(** Every point of the alignment except the first lies in the parallelogram. *)
Theorem itakura_points cdist x y o (lm : mat N) d rules : costs_of cdist x y lm ->
  dtw cdist x y o = Ok d -> pattern_rules (r_stepPattern d) rules ->
  o_distance_only o = false -> o_open_begin o = false -> r_windowFunction d = Itakura -> r_windowArgs d = [] ->
  exists mp, r_map d = Some mp /\
  forall t i j, nth_error (index1s mp) (S t) = Some i -> nth_error (index2s mp) (S t) = Some j ->
    (j < 2 * i /\ i <= 2 * j /\
     Z.of_nat (nr lm) - 1 - 2 * (Z.of_nat (nc lm) - j) <= i /\ Z.of_nat (nc lm) - 1 - 2 * (Z.of_nat (nr lm) - i) < j)%Z.
Proof.
  intros HC H Hp Hd Hb Hf Ha.
  destruct (window_closed L _ _ _ _ _ _ _ HC H Hp Hd Hb) as [mp [Em Hw]].
  destruct (monotone_closed L _ _ _ _ _ _ _ HC H Hp Hd Hb) as [mp' [Em' M]].
  rewrite Em in Em'. injection Em' as <-. exists mp. split; [exact Em|].
  destruct M as [_ [_ [_ [_ [_ [M1 [M2 [_ [_ [_ [_ [_ [_ [M3 [M4 _]]]]]]]]]]]]]]].
  intros t i j Hi Hj.
  specialize (Hw t i j Hi Hj). rewrite Hf, Ha in Hw.
  apply nth_error_In in Hi. apply nth_error_In in Hj. specialize (M3 _ Hi). specialize (M4 _ Hj).
  unfold in_window in Hw. cbn [call_window] in Hw. unfold itakuraWindow in Hw. apply Ok_inj in Hw. rename Hw into Hw'.
  rewrite !Z2Nat.id in Hw' by lia. rewrite !andb_true_iff, !Z.ltb_lt, !Z.leb_le in Hw'. lia.
Qed.

(** ** Slanted band *)
Lemma in_slanted (ws : N) n m i j : in_window SlantedBand (band ws) n m i j <->
  leb (vabs (sub (ofZ (Z.of_nat j)) (div (ofZ (Z.of_nat i * Z.of_nat m)) (ofZ (Z.of_nat n))))) ws = true.
Proof.
  unfold in_window, band. cbn [call_window]. change (String.eqb "window_size" "window_size") with true. cbv iota.
  unfold slantedBandWindow. split; [intros H; injection H; auto|intros ->; reflexivity].
Qed.

End Thm8.
