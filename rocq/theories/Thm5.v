(** Thm5.v - prefixes, transposition, rescaling (proofs). *)
From Coq Require Import ZifyBool ZifyNat.
From Verif Require Import Base Num StepPattern Window Core Backtrack Dtw Spec Api Tables Vocab Terms
  CoreProof DPProof DtwProof ApiProof ApiThms WalkGeom Uniq Thm1 Thm2 Thm4.
Open Scope string_scope.
Open Scope list_scope.
Open Scope nat_scope.

Section Thm5.
Context {N : Num}.
Variable L : NumLaws N.

Lemma reps_inj {A} n m (l l' : list A) f f' : reps n m l f -> reps n m l' f' ->
  (forall i j, i < n -> j < m -> f i j = f' i j) -> l = l'.
Proof.
  intros [Hl H] [Hl' H'] E. apply nth_error_ext. intros k.
  destruct (Nat.lt_ge_cases k (n * m)) as [Hk|Hk].
  - assert (0 < m) by nia.
    pose proof (Nat.div_mod k m ltac:(lia)) as D. pose proof (Nat.mod_upper_bound k m ltac:(lia)) as B.
    set (i := k / m) in *. set (j := k mod m) in *.
    assert (i < n) by nia. replace k with (i * m + j) by lia.
    rewrite H, H', E by assumption. reflexivity.
  - rewrite (proj2 (nth_error_None l k)), (proj2 (nth_error_None l' k)) by lia. reflexivity.
Qed.

Lemma reps_map {A} n m (f : nat -> nat -> A) : reps n m (map (fun ij => f (fst ij) (snd ij)) (indices n m)) f.
Proof.
  split; [rewrite map_length; apply indices_length|]. intros i j Hi Hj.
  rewrite nth_error_map, indices_nth by assumption. reflexivity.
Qed.

(** the whole run after the cost matrix is known (closed begin) *)
Definition finish (o : opts N) (lm : mat N) (qr : option (nd N * nd N)) (sp : steppat N) (wf : winfun N)
  (cmx : mat N) (dmx : mat Z) (last : nat -> N) : out (DTW N) :=
  jmin <- choose o (hint sp) (nr lm) (nc lm) last ;;
  if isnan (last jmin) then Raise no_path else
  mp <- (if o_distance_only o then Ok None
         else mp <- backtrack sp dmx (Z.of_nat jmin) ;; Ok (Some mp)) ;;
  Ok (result o lm qr sp wf jmin (last jmin) mp cmx dmx).

Lemma dtw_lm_finish (lm : mat N) qr sp wf o cm dm cmf :
  o_open_begin o = false -> 0 < nr lm -> 0 < nc lm ->
  globalCostMatrix true lm sp wf None (o_window_args o) = Ok (Mat (nr lm) (nc lm) cm, Mat (nr lm) (nc lm) dm) ->
  reps (nr lm) (nc lm) cm cmf ->
  dtw_lm true lm qr sp wf o =
  finish o lm qr sp wf (Mat (nr lm) (nc lm) cm) (Mat (nr lm) (nc lm) dm) (cmf (nr lm - 1)).
Proof.
  intros Hb Hn Hm Hg Hc.
  destruct (dtw_lm_cases true lm qr sp wf o) as [[H _]|[_ ->]]; [congruence|].
  rewrite Hb, Hg. cbn [bind nr nc andb]. rewrite (row_of_reps (nr lm) (nc lm) cm cmf (nr lm - 1) Hc) by lia.
  rewrite normalize_row_map. unfold finish, choose.
  set (jm := if o_open_end o then _ else _).
  assert (Hj : forall j, jm = Ok j -> j < nc lm).
  { subst jm. intros j. destruct (o_open_end o).
    - destruct (String.eqb _ _); [discriminate|]. intros E. apply nanargmin_bound in E.
      rewrite map_length, seq_length in E. exact E.
    - intros E. injection E as <-. lia. }
  destruct jm as [j| | | |]; try reflexivity. cbn [bind]. specialize (Hj j eq_refl).
  rewrite !nth_error_map, nth_error_seq. destruct (Nat.ltb_spec j (nc lm)); [|lia]. cbn [option_map bind Nat.add].
  destruct (isnan _); [reflexivity|]. unfold result. rewrite Hb.
  destruct (String.eqb (hint sp) "NA") eqn:Eh; cbn [negb bind].
  - destruct (if o_distance_only o then _ else _); reflexivity.
  - unfold nrm. rewrite Eh. destruct (if o_distance_only o then _ else _); reflexivity.
Qed.

Lemma wp_finish cdist x y o (lm : mat N) sp rules w : well_posed cdist x y o lm sp rules w ->
  o_open_begin o = false ->
  exists cm dm cmf smf win, dtw cdist x y o =
    finish o lm (qr_of x y) sp w (Mat (nr lm) (nc lm) cm) (Mat (nr lm) (nc lm) dm) (cmf (nr lm - 1)) /\
    reps (nr lm) (nc lm) cm cmf /\ reps (nr lm) (nc lm) dm smf /\
    win_spec w (o_window_args o) (nr lm) (nc lm) win /\
    bellman rules (nr lm) (nc lm) (cell lm) (seed0 lm) win cmf smf.
Proof.
  intros [HC Hna Hs Hp Hw Ht Hq Hsz Hb He] Hob. unfold rows_used in *. rewrite Hob in *.
  pose proof (costs_of_wf _ _ _ _ HC) as Hwf.
  destruct (gcm_run L lm sp w None (o_window_args o) rules (seed0 lm) Hp Hwf eq_refl Hsz Ht)
    as [cm [sm [cmf [smf [win [Eg' [Rc [Rs [Hws HB]]]]]]]]].
  exists cm, sm, cmf, smf, win. split; [|auto].
  rewrite (dtw_entry _ _ _ _ _ HC). apply pattern_of_ok in Hs. rewrite Hs. cbn [bind].
  rewrite (window_of_canon _ _ Hw).
  assert (Ecb : match y with Some _ => true | None => is_double x && is_corder x end = true).
  { destruct Hna as [Hna|Hna]; [congruence|]. destruct y; [reflexivity|]. destruct Hna as [-> ->]. reflexivity. }
  rewrite Ecb. apply dtw_lm_finish; auto; apply Hsz.
Qed.

(** Well-posedness of successful calls *)
Lemma ok_well_posed cdist x y o (lm : mat N) d rules : costs_of cdist x y lm ->
  dtw cdist x y o = Ok d -> pattern_rules (r_stepPattern d) rules -> 0 < nr lm ->
  well_posed cdist x y o lm (r_stepPattern d) rules (r_windowFunction d).
Proof.
  intros HC H Hp Hq. destruct (dtw_ok_inv L _ _ _ _ _ _ _ HC H Hp) as [F1 [F2 [F3 [F4 _]]]].
  destruct (dtw_fields L _ _ _ _ _ _ _ HC H Hp) as [_ [_ [_ [_ [G5 [_ [_ [_ [_ [_ [G11 [G12 _]]]]]]]]]]]].
  assert (Ew : r_windowFunction d = canonicalizeWindowFunction (o_window_type o)).
  { symmetry. apply window_of_canon. exact G5. }
  assert (Hna : o_open_begin o = true \/ native_array x y).
  { rewrite (dtw_entry _ _ _ _ _ HC) in H. apply pattern_of_ok in F1. rewrite F1 in H. cbn [bind] in H.
    apply dtw_lm_inv in H. destruct H as [_ [[Hb|Hb] _]]; [left; exact Hb|right].
    destruct y; cbn; [exact I|]. apply andb_prop. exact Hb. }
  rewrite <- rows_used_p in F3, F4. rewrite <- Ew in F4.
  constructor; auto.
Qed.

(** ** Prefixes *)
Lemma leading_wf (lm : mat N) n m : wf_mat (leading lm n m).
Proof. unfold wf_mat, leading. cbn [dat nr nc]. rewrite map_length. apply indices_length. Qed.
Lemma leading_cell (lm : mat N) n m i j : i < n -> j < m -> cell (leading lm n m) i j = cell lm i j.
Proof.
  intros Hi Hj. unfold cell at 1. rewrite (mget_reps (leading lm n m) (cell lm)); auto.
  unfold leading. cbn [nr nc dat]. apply reps_map.
Qed.

Lemma win_unique (w : winfun N) kw n m n' m' win win' i j : ignores_sizes w kw ->
  win_spec w kw n m win -> win_spec w kw n' m' win' ->
  i < n -> j < m -> i < n' -> j < m' -> win i j = win' i j.
Proof.
  intros Hig H H' Hi Hj Hi' Hj'. specialize (H i j Hi Hj). specialize (H' i j Hi' Hj').
  assert (E : in_window w kw n m i j <-> in_window w kw n' m' i j).
  { unfold in_window, ignores_sizes in *. destruct w; try tauto;
      rewrite (Hig (Z.of_nat i) (Z.of_nat j) (Z.of_nat n) (Z.of_nat m) (Z.of_nat n') (Z.of_nat m')); tauto. }
  apply Bool.eq_iff_eq_true. tauto.
Qed.

Lemma total_ignores (w : winfun N) kw n m n' m' : ignores_sizes w kw -> n' <= n -> m' <= m ->
  window_total w kw n m -> window_total w kw n' m'.
Proof.
  intros Hig Hn Hm H. unfold window_total, ignores_sizes in *. destruct w; auto; intros i j Hi Hj;
    rewrite (Hig _ _ (Z.of_nat n') (Z.of_nat m') (Z.of_nat n) (Z.of_nat m)); apply H; lia.
Qed.


Theorem prefix_matrices cdist x y o (lm : mat N) d rules o' n m :
  costs_of cdist x y lm -> dtw cdist x y o = Ok d -> pattern_rules (r_stepPattern d) rules ->
  o_keep_internals o = true -> o_open_begin o = false ->
  ignores_sizes (r_windowFunction d) (r_windowArgs d) ->
  same_problem o o' -> 0 < n <= nr lm -> 0 < m <= nc lm ->
  exists cm dm, r_costMatrix d = Some cm /\ r_directionMatrix d = Some dm /\
  forall cdist' d', dtw cdist' (NdArray (Nd2 (leading lm n m)) true true) None o' = Ok d' ->
    o_keep_internals o' = true ->
    exists cm' dm', r_costMatrix d' = Some cm' /\ r_directionMatrix d' = Some dm' /\
      forall i j, i < n -> j < m -> mget cm' i j = mget cm i j /\ mget dm' i j = mget dm i j.
Proof.
  intros HC H Hp Hk Hb Hig [S1 [S2 [S3 S4]]] Hn Hm.
  assert (WP := ok_well_posed _ _ _ _ _ _ _ HC H Hp ltac:(lia)).
  assert (Ekw : r_windowArgs d = o_window_args o) by apply (dtw_fields L _ _ _ _ _ _ _ HC H Hp).
  destruct (wp_finish _ _ _ _ _ _ _ _ WP Hb) as [cm [dm [cmf [smf [win [E [Rc [Rs [Hw HB]]]]]]]]].
  rewrite E in H. unfold finish in H. destruct (choose _ _ _ _ _) as [jm| | | |]; try discriminate. cbn [bind] in H.
  destruct (isnan _); [discriminate|].
  destruct (if o_distance_only o then _ else _) as [mp| | | |]; try discriminate. cbn [bind] in H. injection H as Ed.
  assert (Ec : r_costMatrix d = Some (Mat (nr lm) (nc lm) cm) /\ r_directionMatrix d = Some (Mat (nr lm) (nc lm) dm)).
  { rewrite <- Ed. unfold result. cbn. rewrite Hk, Hb. auto. }
  destruct Ec as [Ec1 Ec2]. rewrite Ec1, Ec2. exists (Mat (nr lm) (nc lm) cm), (Mat (nr lm) (nc lm) dm).
  split; [reflexivity|]. split; [reflexivity|]. intros cdist' d' H' Hk'.
  set (lm' := leading lm n m) in *.
  assert (HC' : costs_of cdist' (NdArray (Nd2 lm') true true) None lm') by (constructor; [reflexivity|apply leading_wf]).
  assert (Hsp : r_stepPattern d' = r_stepPattern d).
  { destruct WP as [_ _ Hs _ _ _ _ _ _ _]. apply pattern_of_ok in Hs.
    rewrite (dtw_entry _ _ _ _ _ HC'), S1, Hs in H'. cbn [bind] in H'.
    clear -H'. unfold dtw_lm in H'.
    match type of H' with bind ?a _ = _ => destruct a as [[[? ?] ?]| | | |] end; try discriminate. cbn [bind] in H'.
    match type of H' with bind ?a _ = _ => destruct a as [[? ?]| | | |] end; try discriminate. cbn [bind] in H'.
    match type of H' with bind ?a _ = _ => destruct a as [?| | | |] end; try discriminate. cbn [bind] in H'.
    match type of H' with bind ?a _ = _ => destruct a as [?| | | |] end; try discriminate. cbn [bind] in H'.
    destruct (isnan _); [discriminate|].
    match type of H' with bind ?a _ = _ => destruct a as [?| | | |] end; try discriminate. cbn [bind] in H'.
    match type of H' with bind ?a _ = _ => destruct a as [?| | | |] end; try discriminate. cbn [bind] in H'.
    match type of H' with bind ?a _ = _ => destruct a as [[[[? ?] ?] ?]| | | |] end; try discriminate. cbn [bind] in H'.
    injection H' as <-. reflexivity. }
  assert (Hp' : pattern_rules (r_stepPattern d') rules) by (rewrite Hsp; exact Hp).
  assert (WP' := ok_well_posed _ _ _ _ _ _ _ HC' H' Hp' ltac:(subst lm'; cbn; lia)).
  assert (Hb' : o_open_begin o' = false) by congruence.
  assert (Ew : r_windowFunction d' = r_windowFunction d).
  { pose proof (wp_window _ _ _ _ _ _ _ _ WP) as W1. pose proof (wp_window _ _ _ _ _ _ _ _ WP') as W2.
    rewrite S2 in W2. apply window_of_canon in W1. apply window_of_canon in W2. congruence. }
  destruct (wp_finish _ _ _ _ _ _ _ _ WP' Hb') as [cm' [dm' [cmf' [smf' [win' [E' [Rc' [Rs' [Hw' HB']]]]]]]]].
  rewrite E' in H'. unfold finish in H'. destruct (choose _ _ _ _ _) as [jm'| | | |]; try discriminate. cbn [bind] in H'.
  destruct (isnan _); [discriminate|].
  destruct (if o_distance_only o' then _ else _) as [mp'| | | |]; try discriminate. cbn [bind] in H'. injection H' as Ed'.
  assert (Ec' : r_costMatrix d' = Some (Mat (nr lm') (nc lm') cm') /\ r_directionMatrix d' = Some (Mat (nr lm') (nc lm') dm')).
  { rewrite <- Ed'. unfold result. cbn. rewrite Hk', Hb'. auto. }
  destruct Ec' as [-> ->]. exists (Mat (nr lm') (nc lm') cm'), (Mat (nr lm') (nc lm') dm').
  split; [reflexivity|]. split; [reflexivity|]. intros i j Hi Hj.
  subst lm'. cbn [nr nc leading] in *.
  rewrite (mget_reps (Mat n m cm') cmf'), (mget_reps (Mat (nr lm) (nc lm) cm) cmf),
          (mget_reps (Mat n m dm') smf'), (mget_reps (Mat (nr lm) (nc lm) dm) smf); cbn [nr nc dat]; auto; try lia.
  destruct (bellman_unique L rules n m (cell (leading lm n m)) (seed0 (leading lm n m)) win' cmf' smf'
              (cell lm) (seed0 lm) win cmf smf) with (i := i) (j := j) as [-> ->]; auto; [apply Hp| |].
  - intros a b Ha Hb0. rewrite leading_cell by assumption. split; [reflexivity|]. split.
    + unfold seed0. rewrite leading_cell by lia. reflexivity.
    + rewrite Ew, S3 in Hw'. rewrite Ekw in Hig. eapply win_unique; [exact Hig|exact Hw'|exact Hw| | | |]; lia.
  - apply (bellman_prefix rules (nr lm) (nc lm)); [lia|lia|exact HB].
Qed.

(** costMatrix[i,j] is the distance of the prefixes. *)
Theorem prefix_distance cdist x y o (lm : mat N) d rules o' cdist' :
  costs_of cdist x y lm -> dtw cdist x y o = Ok d -> pattern_rules (r_stepPattern d) rules ->
  o_keep_internals o = true -> o_open_begin o = false ->
  ignores_sizes (r_windowFunction d) (r_windowArgs d) ->
  same_problem o o' -> o_open_end o' = false ->
  exists cm, r_costMatrix d = Some cm /\
  forall i j, i < nr lm -> j < nc lm -> exists v, mget cm i j = Some v /\
    match dtw cdist' (NdArray (Nd2 (leading lm (i + 1) (j + 1))) true true) None o' with
    | Ok d' => isnan v = false /\ r_distance d' = v
    | Raise e => isnan v = true /\ e = no_path
    | _ => False
    end.
Proof.
  intros HC H Hp Hk Hb Hig [S1 [S2 [S3 S4]]] He'.
  assert (Hq : 0 < nr lm).
  { destruct (dtw_ok_inv L _ _ _ _ _ _ _ HC H Hp) as [_ [_ [[Sz _] _]]].
    unfold p_lm in Sz. rewrite Hb in Sz. exact Sz. }
  assert (WP := ok_well_posed _ _ _ _ _ _ _ HC H Hp Hq).
  assert (Ekw : r_windowArgs d = o_window_args o) by apply (dtw_fields L _ _ _ _ _ _ _ HC H Hp).
  destruct (wp_finish _ _ _ _ _ _ _ _ WP Hb) as [cm [dm [cmf [smf [win [E [Rc [Rs [Hw HB]]]]]]]]].
  rewrite E in H. unfold finish in H. destruct (choose _ _ _ _ _) as [jm| | | |]; try discriminate. cbn [bind] in H.
  destruct (isnan _); [discriminate|].
  destruct (if o_distance_only o then _ else _) as [mp| | | |]; try discriminate. cbn [bind] in H. injection H as Ed.
  assert (Ec1 : r_costMatrix d = Some (Mat (nr lm) (nc lm) cm)).
  { rewrite <- Ed. unfold result. cbn. rewrite Hk, Hb. auto. }
  rewrite Ec1. exists (Mat (nr lm) (nc lm) cm). split; [reflexivity|]. intros i j Hi Hj.
  exists (cmf i j). split; [apply mget_reps; assumption|].
  set (lm' := leading lm (i + 1) (j + 1)).
  assert (Hb' : o_open_begin o' = false) by congruence.
  assert (WP' : well_posed cdist' (NdArray (Nd2 lm') true true) None o' lm' (r_stepPattern d) rules (r_windowFunction d)).
  { destruct WP as [w1 w2 w3 w4 w5 w6 w7 w8 w9 w10]. unfold rows_used in *. rewrite Hb in *.
    constructor; unfold rows_used; rewrite ?Hb', ?S1, ?S2, ?S3; auto.
    - constructor; [reflexivity|apply leading_wf].
    - right. split; reflexivity.
    - subst lm'. cbn [nr nc leading]. rewrite Ekw in Hig. eapply total_ignores; [exact Hig| | |exact w6]; lia.
    - subst lm'. cbn [nr leading]. lia.
    - subst lm'. cbn [nr nc leading]. destruct w8 as [A [B C]]. split; [lia|]. split; [lia|]. nia.
    - discriminate.
    - rewrite He'. discriminate. }
  destruct (wp_finish _ _ _ _ _ _ _ _ WP' Hb') as [cm' [dm' [cmf' [smf' [win' [E' [Rc' [Rs' [Hw' HB']]]]]]]]].
  assert (Hp' : pattern_rules (r_stepPattern d) rules) by exact Hp.
  assert (Ev : cmf' (nr lm' - 1) (nc lm' - 1) = cmf i j).
  { subst lm'. cbn [nr nc leading] in *. rewrite !Nat.add_sub.
    destruct (bellman_unique L rules (i + 1) (j + 1) (cell (leading lm (i + 1) (j + 1))) (seed0 (leading lm (i + 1) (j + 1))) win' cmf' smf'
              (cell lm) (seed0 lm) win cmf smf) with (i := i) (j := j) as [-> _]; auto; try lia; [apply Hp| |].
    - intros a b Ha Hb0. rewrite leading_cell by assumption. split; [reflexivity|]. split.
      + unfold seed0. rewrite leading_cell by lia. reflexivity.
      + rewrite S3 in Hw'. rewrite Ekw in Hig. eapply win_unique; [exact Hig|exact Hw'|exact Hw| | | |]; lia.
    - apply (bellman_prefix rules (nr lm) (nc lm)); [lia|lia|exact HB]. }
  rewrite E'. unfold finish, choose. rewrite He'. cbn [bind]. rewrite Ev.
  destruct (isnan (cmf i j)) eqn:En; [auto|].
  destruct (o_distance_only o'); cbn [bind]; [split; [reflexivity|reflexivity]|].
  assert (Hn0 : 0 < nr lm' /\ 0 < nc lm') by (subst lm'; cbn; lia).
  destruct (backtrack_ok L rules (r_stepPattern d) (nr lm') (nc lm') (cell lm') (seed0 lm') win' cmf' smf'
              (Mat (nr lm') (nc lm') dm') Hp HB' eq_refl eq_refl Rs' (nc lm' - 1)) as [ks [vs [ts [_ [_ [_ Bt]]]]]].
  { lia. } { lia. } { rewrite Ev. exact En. }
  rewrite Bt. cbn [bind]. split; reflexivity.
Qed.

End Thm5.
