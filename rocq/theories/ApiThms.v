(** ApiThms.v - the main facts about dtw(), in the vocabulary of Spec.v and Api.v. *)
From Coq Require Import ZifyBool ZifyNat.
From Verif Require Import Base Num StepPattern Window Core Backtrack Dtw Spec Api CoreProof DPProof DtwProof ApiProof.
Open Scope string_scope.
Open Scope list_scope.
Open Scope nat_scope.

Section ApiThms.
Context {N : Num}.
Variable L : NumLaws N.

Lemma rows_used_p o (lm : mat N) : rows_used (o_open_begin o) lm = nr (p_lm o lm).
Proof. rewrite p_lm_nr. reflexivity. Qed.

Lemma window_of_canon t (w : winfun N) : window_of t w -> canonicalizeWindowFunction t = w.
Proof. destruct 1; reflexivity. Qed.

Lemma canon_window_of (t : wtype N) kw n m : 0 < n -> 0 < m ->
  window_total (canonicalizeWindowFunction t) kw n m -> window_of t (canonicalizeWindowFunction t).
Proof.
  intros Hn Hm H. destruct t as [|s|w']; [constructor| |constructor].
  unfold canonicalizeWindowFunction in *.
  destruct (String.eqb_spec s "none"); [subst; constructor|].
  destruct (String.eqb_spec s "sakoechiba"); [subst; constructor|].
  destruct (String.eqb_spec s "itakura"); [subst; constructor|].
  destruct (String.eqb_spec s "slantedband"); [subst; constructor|].
  destruct (H 0 0 Hn Hm) as [b C]. discriminate.
Qed.

(** ** Fields that echo the arguments *)
Theorem dtw_fields cdist x y o (lm : mat N) d rules : costs_of cdist x y lm ->
  dtw cdist x y o = Ok d -> pattern_rules (r_stepPattern d) rules ->
  r_N d = nr lm /\ r_M d = nc lm /\ r_openEnd d = o_open_end o /\ r_openBegin d = o_open_begin o /\
  window_of (o_window_type o) (r_windowFunction d) /\ r_windowArgs d = o_window_args o /\
  pattern_of (o_step_pattern o) (r_stepPattern d) /\
  r_jmin d < nc lm /\ (o_open_end o = false -> r_jmin d = nc lm - 1) /\
  r_normalizedDistance d =
    (if String.eqb (hint (r_stepPattern d)) "NA" then nan
     else normalized (hint (r_stepPattern d)) (r_N d) (r_jmin d) (r_distance d)) /\
  (o_open_begin o = true -> hint (r_stepPattern d) = "N" /\ o_distance_only o = false) /\
  (o_open_end o = true -> hint (r_stepPattern d) <> "NA") /\
  (o_distance_only o = true <-> r_map d = None).
Proof.
  intros HC H Hp. destruct (dtw_ok_inv L _ _ _ _ _ _ _ HC H Hp) as [P [OB [Sz [Wt Q]]]].
  destruct Q as [cmx [dmx [cmf [smf [win [ks [vs [ts [jmin [S [Ec [Hj [Hn [W [U [Hl E]]]]]]]]]]]]]]]].
  remember (r_stepPattern d) as sp eqn:Esp.
  rewrite E. cbn [result r_N r_M r_openEnd r_openBegin r_windowFunction r_windowArgs r_stepPattern r_jmin
      r_distance r_normalizedDistance r_map].
  split; [reflexivity|]. split; [reflexivity|]. split; [reflexivity|]. split; [reflexivity|].
  split. { destruct Sz as [A [B C]]. eapply canon_window_of; [exact A|exact B|exact Wt]. }
  split; [reflexivity|]. split; [exact P|]. split; [exact Hj|].
  split. { intros Eo. unfold choose in Ec. rewrite Eo in Ec. inversion Ec. reflexivity. }
  split; [reflexivity|]. split; [exact OB|].
  split. { intros Eo C. unfold choose in Ec. rewrite Eo, C in Ec. discriminate. }
  destruct (o_distance_only o); split; congruence.
Qed.

(** ** Optimality *)
Theorem dtw_best cdist x y o (lm : mat N) d rules : costs_of cdist x y lm ->
  dtw cdist x y o = Ok d -> pattern_rules (r_stepPattern d) rules ->
  best_to (o_open_begin o) rules lm (r_windowFunction d) (r_windowArgs d) (r_jmin d) (r_distance d).
Proof.
  intros HC H Hp. destruct (dtw_ok_inv L _ _ _ _ _ _ _ HC H Hp) as [P [OB [Sz [Wt Q]]]].
  destruct Q as [cmx [dmx [cmf [smf [win [ks [vs [ts [jmin [S [Ec [Hj [Hn [W [U [Hl E]]]]]]]]]]]]]]]].
  remember (r_stepPattern d) as sp eqn:Esp. rewrite E. cbn [result r_windowFunction r_windowArgs r_jmin r_distance].
  eapply (p_best L o lm rules _ win); try eassumption; try apply S. apply Hp.
Qed.

(** ** The alignment attains the distance *)

Lemma walk_first (rules : list (rule N)) cost n m source allowed ks vs ts q c :
  walk rules cost n m source allowed ks vs ts q c ->
  exists p c0 vs' ts', vs = p :: vs' /\ ts = p :: ts' /\ source (fst p) (snd p) = Some c0 /\
    fst p < n /\ snd p < m.
Proof.
  induction 1 as [i j c Hs Hi Hj | ks vs ts i0 j0 c k r Hw IH Hk Hi Hj Ha].
  - exists (i, j), c, [], []. auto.
  - destruct IH as [p [c0 [vs' [ts' [-> [-> H]]]]]].
    exists p, c0. eexists. eexists. split; [reflexivity|]. split; [reflexivity|]. exact H.
Qed.

Lemma shift_describes (ks : list nat) (vs' ts' : list point) p :
  describes_open (shift_mapping (mapping_of ks (p :: vs') (p :: ts'))) ks (p :: vs') (p :: ts').
Proof.
  exists p, vs', ts'. unfold shift_mapping, mapping_of. cbn [index1 index2 index1s index2s stepsTaken map tl].
  repeat split; rewrite map_map; apply map_ext; intros a; unfold query_ix, query_ix_open; lia.
Qed.

Theorem dtw_alignment cdist x y o (lm : mat N) d rules : costs_of cdist x y lm ->
  dtw cdist x y o = Ok d -> pattern_rules (r_stepPattern d) rules -> o_distance_only o = false ->
  exists mp ks vs ts, r_map d = Some mp /\
    admissible (o_open_begin o) rules lm (r_windowFunction d) (r_windowArgs d) ks vs ts
               (end_cell (o_open_begin o) lm (r_jmin d)) (r_distance d) /\
    usable ks (r_distance d) /\
    List.length ks <= rows_used (o_open_begin o) lm - 1 + r_jmin d /\
    (if o_open_begin o then describes_open mp ks vs ts else describes mp ks vs ts).
Proof.
  intros HC H Hp Hd. destruct (dtw_ok_inv L _ _ _ _ _ _ _ HC H Hp) as [P [OB [Sz [Wt Q]]]].
  destruct Q as [cmx [dmx [cmf [smf [win [ks [vs [ts [jmin [S [Ec [Hj [Hn [W [U [Hl E]]]]]]]]]]]]]]]].
  remember (r_stepPattern d) as sp eqn:Esp. rewrite Hd in E. rewrite E.
  cbn [result r_windowFunction r_windowArgs r_jmin r_distance r_map].
  eexists. exists ks, vs, ts. split; [reflexivity|].
  split. { rewrite <- p_end. eapply p_walk_adm; [exact L|apply S|apply Hp|exact W]. }
  split; [exact U|]. split; [rewrite rows_used_p; exact Hl|].
  destruct (o_open_begin o).
  - destruct (walk_first _ _ _ _ _ _ _ _ _ _ _ W) as [p [c0 [vs' [ts' [-> [-> _]]]]]]. apply shift_describes.
  - repeat split; reflexivity.
Qed.

(** ** When it succeeds *)
Lemma wp_run cdist x y o (lm : mat N) sp rules w : well_posed cdist x y o lm sp rules w ->
  exists cmx dmx cmf smf win, solution o lm sp w rules cmx dmx cmf smf win /\
    let last := cmf (nr (p_lm o lm) - 1) in
    match choose o (hint sp) (nr lm) (nc lm) last with
    | Ok jmin =>
        jmin < nc lm /\
        if isnan (last jmin) then dtw cdist x y o = Raise no_path
        else exists mp, dtw cdist x y o =
            Ok (result o lm (qr_of x y) sp w jmin (last jmin) mp cmx dmx) /\
            (mp = None <-> o_distance_only o = true)
    | Raise e => dtw cdist x y o = Raise e
    | _ => False
    end.
Proof.
  intros [H1 H2 H3 H4 H5 H6 H7 H8 H9 H10].
  rewrite rows_used_p in *. apply window_of_canon in H5. apply pattern_of_ok in H3.
  rewrite (dtw_entry _ _ _ _ _ H1), H3, H5. cbn [bind].
  set (cb := match y with None => _ | Some _ => true end).
  destruct (dtw_lm_run L cb lm (qr_of x y) sp w o rules H4 (costs_of_wf _ _ _ _ H1)) as [cmx [dmx [cmf [smf [win [S R]]]]]]; auto.
  { apply H9. }
  { destruct H2 as [H2|H2]; [left; exact H2|right]. unfold cb. destruct y; [reflexivity|].
    cbn in H2. destruct H2 as [-> ->]. reflexivity. }
  exists cmx, dmx, cmf, smf, win. split; [exact S|]. cbv zeta in *.
  destruct (choose _ _ _ _ _) as [jmin|e| | |]; auto.
  destruct R as [Hj R]. split; [exact Hj|].
  destruct (isnan (cmf (nr (p_lm o lm) - 1) jmin)); [exact R|].
  destruct R as [ks [vs [ts [W [U [Hl E]]]]]].
  eexists. split.
  - rewrite E. destruct (o_open_begin o && o_distance_only o) eqn:Eod.
    + apply Bool.andb_true_iff in Eod. destruct Eod as [E1 E2]. destruct (H9 E1). congruence.
    + reflexivity.
  - destruct (o_distance_only o); split; congruence.
Qed.

Theorem dtw_closed_end_iff cdist x y o (lm : mat N) sp rules w :
  well_posed cdist x y o lm sp rules w -> o_open_end o = false ->
  (dtw cdist x y o = Raise no_path /\
   unreachable (o_open_begin o) rules lm w (o_window_args o) (nc lm - 1)) \/
  (exists d, dtw cdist x y o = Ok d /\ r_stepPattern d = sp /\ r_windowFunction d = w /\
   exists ks vs ts c, admissible (o_open_begin o) rules lm w (o_window_args o) ks vs ts
                        (end_cell (o_open_begin o) lm (nc lm - 1)) c /\ usable ks c).
Proof.
  intros WP Eo. destruct (wp_run _ _ _ _ _ _ _ _ WP) as [cmx [dmx [cmf [smf [win [S R]]]]]].
  cbv zeta in R. unfold choose in R. rewrite Eo in R. destruct R as [Hj R].
  pose proof (wp_size _ _ _ _ _ _ _ _ WP) as Hsz. rewrite rows_used_p in Hsz.
  destruct (wp_rules _ _ _ _ _ _ _ _ WP) as [_ [_ [Hv _]]].
  destruct (p_best L o lm rules w win ltac:(apply S) Hv sp cmx dmx cmf smf (nc lm - 1) Hsz S Hj) as [B1 B2].
  destruct (isnan (cmf (nr (p_lm o lm) - 1) (nc lm - 1))) eqn:En.
  - left. auto.
  - right. destruct R as [mp [E _]]. eexists. split; [exact E|]. split; [reflexivity|]. split; [reflexivity|].
    destruct (B1 eq_refl) as [[ks [vs [ts HW]]] _]. exists ks, vs, ts. eexists. exact HW.
Qed.

Theorem dtw_open_end_iff cdist x y o (lm : mat N) sp rules w :
  well_posed cdist x y o lm sp rules w -> o_open_end o = true ->
  (dtw cdist x y o = Raise (ValueError "All-NaN slice encountered") /\
   forall j, j < nc lm -> unreachable (o_open_begin o) rules lm w (o_window_args o) j) \/
  (exists d, dtw cdist x y o = Ok d /\ r_stepPattern d = sp /\ r_windowFunction d = w /\
   exists j ks vs ts c, j < nc lm /\
     admissible (o_open_begin o) rules lm w (o_window_args o) ks vs ts
                (end_cell (o_open_begin o) lm j) c /\ usable ks c).
Proof.
  intros WP Eo. destruct (wp_run _ _ _ _ _ _ _ _ WP) as [cmx [dmx [cmf [smf [win [S R]]]]]].
  cbv zeta in R.
  pose proof (wp_size _ _ _ _ _ _ _ _ WP) as Hsz. rewrite rows_used_p in Hsz.
  destruct (wp_rules _ _ _ _ _ _ _ _ WP) as [_ [_ [Hv _]]].
  pose proof (wp_end _ _ _ _ _ _ _ _ WP Eo) as Hna. pose proof (wp_query _ _ _ _ _ _ _ _ WP) as Hq.
  assert (B : forall j, j < nc lm -> _) by
    (intros j Hj; exact (p_best L o lm rules w win ltac:(apply S) Hv sp cmx dmx cmf smf j Hsz S Hj)).
  destruct (forallb (fun j => isnan (cmf (nr (p_lm o lm) - 1) j)) (seq 0 (nc lm))) eqn:Ea.
  - left. rewrite forallb_forall in Ea.
    assert (An : forall j, j < nc lm -> isnan (cmf (nr (p_lm o lm) - 1) j) = true).
    { intros j Hj. apply Ea. apply in_seq. lia. }
    rewrite (choose_open_fail L o lm rules sp cmf Hv Hsz Hq Eo Hna An) in R. split; [exact R|].
    intros j Hj. apply (B j Hj). apply An. exact Hj.
  - right.
    assert (exists j, j < nc lm /\ isnan (cmf (nr (p_lm o lm) - 1) j) = false) as [j [Hj Hjn]].
    { clear -Ea. remember (cmf (nr (p_lm o lm) - 1)) as f. clear -Ea.
      assert (G : forall s n, forallb (fun j => isnan (f j)) (seq s n) = false -> exists j, j < s + n /\ isnan (f j) = false).
      { intros s n. revert s. induction n as [|n IH]; intros s H; [discriminate|]. simpl in H.
        destruct (isnan (f s)) eqn:E.
        - destruct (IH (S s) H) as [j [Hj Hn]]. exists j. split; [lia|exact Hn].
        - exists s. split; [lia|exact E]. }
      apply (G 0). exact Ea. }
    destruct (choose_open_total L o lm rules sp cmf Hv Hsz Hq Eo Hna j Hj Hjn) as [jmin Ec]. rewrite Ec in R.
    destruct R as [Hjm R].
    destruct (choose_open_spec L o lm rules w win sp cmx dmx cmf smf Hv S Hsz Hq Eo Hna jmin Ec) as [Hnn _].
    rewrite Hnn in R. destruct R as [mp [E _]]. eexists. split; [exact E|].
    split; [reflexivity|]. split; [reflexivity|].
    destruct (B j Hj) as [B1 _]. destruct (B1 Hjn) as [[ks [vs [ts HW]]] _].
    exists j, ks, vs, ts. eexists. split; [exact Hj|]. exact HW.
Qed.

(** ** Open end *)
Theorem dtw_open_end_best cdist x y o (lm : mat N) d rules : costs_of cdist x y lm ->
  dtw cdist x y o = Ok d -> pattern_rules (r_stepPattern d) rules -> o_open_end o = true -> 0 < nr lm ->
  forall j c, j < nc lm ->
    best_to (o_open_begin o) rules lm (r_windowFunction d) (r_windowArgs d) j c ->
    leb (r_normalizedDistance d) (normalized (hint (r_stepPattern d)) (nr lm) j c) = true /\
    (j < r_jmin d -> ltb (r_normalizedDistance d) (normalized (hint (r_stepPattern d)) (nr lm) j c) = true).
Proof.
  intros HC H Hp Eo Hq j c Hj Hb.
  destruct (dtw_ok_inv L _ _ _ _ _ _ _ HC H Hp) as [P [OB [Sz [Wt Q]]]].
  destruct Q as [cmx [dmx [cmf [smf [win [ks [vs [ts [jmin [S [Ec [Hjm [Hn [W [U [Hl E]]]]]]]]]]]]]]]].
  remember (r_stepPattern d) as sp eqn:Esp. rewrite E in *.
  cbn [result r_windowFunction r_windowArgs r_jmin r_distance r_normalizedDistance] in *.
  assert (Hna : hint sp <> "NA"). { intros C. unfold choose in Ec. rewrite Eo, C in Ec. discriminate. }
  destruct (String.eqb_spec (hint sp) "NA"); [contradiction|].
  assert (Hv : forallb valid_rule rules = true) by apply Hp.
  destruct (choose_open_spec L o lm rules _ win sp cmx dmx cmf smf Hv S Sz Hq Eo Hna jmin Ec) as [_ Hc].
  destruct (p_best L o lm rules _ win ltac:(apply S) Hv sp cmx dmx cmf smf j Sz S Hj) as [B1 B2].
  destruct (isnan (cmf (nr (p_lm o lm) - 1) j)) eqn:Ej.
  { exfalso. destruct Hb as [[ks' [vs' [ts' [W' U']]]] _]. eapply (B2 eq_refl); eauto. }
  destruct (Hc j Hj Ej) as [C1 C2].
  (* both c and the matrix entry are optimal *)
  assert (Hle : leb (cmf (nr (p_lm o lm) - 1) j) c = true).
  { destruct Hb as [[ks' [vs' [ts' [W' U']]]] _]. eapply (B1 eq_refl); eauto. }
  assert (Hm : leb (normalized (hint sp) (nr lm) j (cmf (nr (p_lm o lm) - 1) j))
                   (normalized (hint sp) (nr lm) j c) = true).
  { pose proof (sz_bound o lm rules Hv Sz Hq Eo j Hj) as Hbd. unfold normalized.
    destruct (String.eqb (hint sp) "N+M"); [apply (law_div_mono _ L); [lia|exact Hle]|].
    destruct (String.eqb (hint sp) "N"); [apply (law_div_mono _ L); [lia|exact Hle]|].
    destruct (String.eqb (hint sp) "M"); [apply (law_div_mono _ L); [lia|exact Hle]|]. exact Hle. }
  split.
  - eapply (law_le_trans _ L); eauto.
  - intros Hlt. eapply (law_lt_le_trans _ L); eauto.
Qed.

(** ** The kept matrices *)

Lemma drop_padded (lm : mat N) : drop_first_row (padded lm) = lm.
Proof.
  unfold drop_first_row, padded. cbn [nr nc dat]. destruct lm as [n m l]. cbn [nr nc dat].
  replace (n + 1 - 1) with n by lia. f_equal. rewrite <- (repeat_length (@ofZ N 0) m) at 1.
  rewrite skipn_app, skipn_all, Nat.sub_diag. reflexivity.
Qed.

Section Recursion.
Variables (rules : list (rule N)) (n m : nat) (cost seed : nat -> nat -> N) (win : nat -> nat -> bool)
          (cmf : nat -> nat -> N) (smf : nat -> nat -> Z) (g : mat N).
Hypothesis HB : bellman rules n m cost seed win cmf smf.
Hypothesis Hg : nr g = n /\ nc g = m /\ reps n m (dat g) cmf.

Lemma g_get i j : i < n -> j < m -> mget g i j = Some (cmf i j).
Proof.
  intros Hi Hj. destruct Hg as [A [B C]]. subst n m. apply mget_reps; assumption.
Qed.
Lemma g_get_inv i j c : mget g i j = Some c -> i < n /\ j < m /\ c = cmf i j.
Proof.
  intros H. unfold mget in H. destruct Hg as [A [B C]]. subst n m.
  destruct (Nat.ltb_spec i (nr g)), (Nat.ltb_spec j (nc g)); try discriminate. cbn [andb] in H.
  split; [assumption|]. split; [assumption|]. destruct C as [_ C]. rewrite C in H by assumption. congruence.
Qed.

Lemma recursion_at i j : i < n -> j < m -> isnan (seed i j) = true ->
  (win i j = true -> best_proposal rules cost g i j (cmf i j) (smf i j)) /\
  (win i j = false -> isnan (cmf i j) = true /\ smf i j = INT_MIN).
Proof.
  intros Hi Hj Hs. pose proof (HB i j Hi Hj) as C. unfold cell_eq in C. rewrite Hs in C. cbn [negb] in C.
  destruct (win i j); cbn [negb] in C.
  2:{ split; [discriminate|]. intros _. destruct C as [-> ->]. auto. }
  split; [intros _|discriminate].
  destruct C as [l [a [[Hlen Hc] [Hf D]]]].
  assert (Pr : forall k v, proposes rules cost g i j k v -> exists k', k = S k' /\ nth_error l k' = Some v).
  { intros k v Hv. destruct Hv as [k r i0 j0 c Hk Ei Ej Hget].
    destruct k as [|k']; [discriminate|]. cbn [rule_no] in Hk.
    destruct (Hc k' r Hk) as [v [Hv1 Hv2]]. exists k'. split; [reflexivity|].
    apply g_get_inv in Hget. destruct Hget as [_ [_ ->]].
    unfold cand_is in Hv2.
    replace (Nat.leb (r_di r) i && Nat.leb (r_dj r) j)%bool with true in Hv2 by lia.
    replace (i - r_di r) with i0 in Hv2 by lia. replace (j - r_dj r) with j0 in Hv2 by lia.
    rewrite Hv1, Hv2. reflexivity. }
  destruct D as [[-> [D1 D2]]|[k [-> [Hk D2]]]].
  - right. split.
    + destruct Hf as [[_ Hf]|[k [x [E _]]]]; [|lia].
      intros k v Hv G. destruct (Pr k v Hv) as [k' [-> Hk']]. eapply Hf; eauto.
    + rewrite D1, D2. auto.
  - left. exists (S k).
    destruct Hf as [[E _]|[k0 [x [E [Hx [Gx [Hmin Hfst]]]]]]]; [lia|].
    assert (k0 = k) by lia. subst k0. rewrite Hk in Hx. inversion Hx; subst x. clear Hx.
    assert (Hkl : k < List.length rules). { rewrite <- Hlen. apply nth_error_Some. congruence. }
    destruct (nth_error rules k) as [r|] eqn:Er; [|apply nth_error_None in Er; lia].
    destruct (Hc k r Er) as [v [Hv1 Hv2]]. rewrite Hk in Hv1. inversion Hv1; subst v. clear Hv1.
    unfold cand_is in Hv2. destruct (Nat.leb (r_di r) i && Nat.leb (r_dj r) j)%bool eqn:Ele.
    2:{ apply (law_good_not_nan _ L) in Gx. congruence. }
    split.
    { rewrite Hv2. eapply propose with (i0 := i - r_di r) (j0 := j - r_dj r); [exact Er|lia|lia|].
      apply g_get; lia. }
    split; [exact Gx|]. split; [lia|].
    intros k' v' Hp' G'. destruct (Pr k' v' Hp') as [k'' [-> Hk'']]. split.
    + eapply Hmin; eauto.
    + intros Hlt. eapply Hfst; eauto. lia.
Qed.
End Recursion.

(** closed begin *)
Theorem dtw_matrices_closed cdist x y o (lm : mat N) d rules : costs_of cdist x y lm ->
  dtw cdist x y o = Ok d -> pattern_rules (r_stepPattern d) rules ->
  o_keep_internals o = true -> o_open_begin o = false ->
  r_localCostMatrix d = Some lm /\
  exists cm dm, r_costMatrix d = Some cm /\ r_directionMatrix d = Some dm /\
    nr cm = nr lm /\ nc cm = nc lm /\ nr dm = nr lm /\ nc dm = nc lm /\
    (mget cm 0 0 = mget lm 0 0 /\ mget dm 0 0 = Some INT_MIN) /\
    (forall i j, i < nr lm -> j < nc lm -> exists v s, mget cm i j = Some v /\ mget dm i j = Some s /\
       ((i, j) <> (0, 0) ->
        (in_window (r_windowFunction d) (r_windowArgs d) (nr lm) (nc lm) i j ->
           best_proposal rules (cell lm) cm i j v s) /\
        (~ in_window (r_windowFunction d) (r_windowArgs d) (nr lm) (nc lm) i j ->
           isnan v = true /\ s = INT_MIN)) /\
       (isnan v = false -> closed_optimum rules lm (r_windowFunction d) (r_windowArgs d) (i, j) v) /\
       (isnan v = true -> forall ks vs ts c,
           closed_walk rules lm (r_windowFunction d) (r_windowArgs d) ks vs ts (i, j) c -> ~ usable ks c)) /\
    mget cm (nr lm - 1) (r_jmin d) = Some (r_distance d).
Proof.
  intros HC H Hp Hk Hb.
  destruct (dtw_ok_inv L _ _ _ _ _ _ _ HC H Hp) as [P [OB [Sz [Wt Q]]]].
  destruct Q as [cmx [dmx [cmf [smf [win [ks [vs [ts [jmin [S [Ec [Hjm [Hn [W [U [Hl E]]]]]]]]]]]]]]]].
  remember (r_stepPattern d) as sp eqn:Esp. rewrite E in *.
  cbn [result r_windowFunction r_windowArgs r_jmin r_distance r_normalizedDistance
       r_localCostMatrix r_costMatrix r_directionMatrix] in *.
  rewrite Hk, Hb. split; [reflexivity|]. exists cmx, dmx. split; [reflexivity|]. split; [reflexivity|].
  assert (Hlm : p_lm o lm = lm) by (unfold p_lm; rewrite Hb; reflexivity).
  assert (Hsd : p_seed o lm = seed0 lm) by (unfold p_seed; rewrite Hb; reflexivity).
  pose proof (fun ks vs ts q c => p_walk_adm L o lm rules _ win (sol_win _ _ _ _ _ _ _ _ _ _ S) ltac:(apply Hp) ks vs ts q c) as PA.
  pose proof (fun ks vs ts q c => adm_p_walk L o lm rules _ win (sol_win _ _ _ _ _ _ _ _ _ _ S) ltac:(apply Hp) ks vs ts q c) as AP.
  destruct S as [[D1 [D2 [D3 D4]]] Hcm Hsm Hwin HB]. unfold p_walk in *. rewrite Hlm, ?Hsd in *.
  split; [exact D1|]. split; [exact D2|]. split; [exact D3|]. split; [exact D4|].
  destruct Sz as [Sn [Sm Ss]].
  assert (Gc : forall i j, i < nr lm -> j < nc lm -> mget cmx i j = Some (cmf i j)).
  { intros i j Hi Hj. apply mget_reps; [rewrite D1, D2; exact Hcm|lia|lia]. }
  assert (Gd : forall i j, i < nr lm -> j < nc lm -> mget dmx i j = Some (smf i j)).
  { intros i j Hi Hj. apply mget_reps; [rewrite D3, D4; exact Hsm|lia|lia]. }
  assert (Hv : forallb valid_rule rules = true) by apply Hp.
  assert (Hcell : cell lm 0 0 = cmf 0 0 /\ isnan (cmf 0 0) = false /\ smf 0 0 = INT_MIN).
  { (* the source is not NaN since a walk starts there *)
    destruct (walk_first _ _ _ _ _ _ _ _ _ _ _ W) as [p [c0 [vs' [ts' [_ [_ [Hs _]]]]]]].
    unfold src, seed0 in Hs.
    destruct ((fst p =? 0) && (snd p =? 0)); [|rewrite (law_nan _ L) in Hs; discriminate].
    destruct (isnan (cell lm 0 0)) eqn:E0; [discriminate|].
    pose proof (HB 0 0 Sn Sm) as C. unfold cell_eq, seed0 in C. cbn [Nat.eqb andb] in C.
    rewrite E0 in C. cbn [negb] in C. destruct C as [C1 C2]. rewrite C1, C2. auto. }
  split.
  { destruct Hcell as [C1 [_ C3]]. rewrite Gc, Gd by assumption. rewrite <- C1, C3. split; [|reflexivity].
    symmetry. apply mget_reps; [apply cell_reps, (costs_of_wf _ _ _ _ HC)|assumption|assumption]. }
  split.
  - intros i j Hi Hj. exists (cmf i j), (smf i j). split; [apply Gc; assumption|]. split; [apply Gd; assumption|].
    split.
    + intros Hne.
      assert (Hs0 : isnan (seed0 lm i j) = true).
      { unfold seed0. destruct (Nat.eqb_spec i 0), (Nat.eqb_spec j 0); cbn [andb]; try apply (law_nan _ L).
        subst. congruence. }
      destruct (recursion_at rules (nr lm) (nc lm) (cell lm) (seed0 lm) win cmf smf cmx HB
                 (conj D1 (conj D2 Hcm)) i j Hi Hj Hs0) as [R1 R2].
      split.
      * intros Hw. apply R1. apply Hwin; assumption.
      * intros Hw. apply R2. destruct (win i j) eqn:Ew; [|reflexivity]. exfalso. apply Hw.
        apply (Hwin i j Hi Hj). exact Ew.
    + destruct (dp_optimal L rules (nr lm) (nc lm) _ _ _ _ _ Hv HB i j Hi Hj) as [O1 O2].
      unfold admissible in PA, AP. rewrite Hb in PA, AP.
      split.
      * intros Hnn. destruct (O1 Hnn) as [[ks' [vs' [ts' [W' U']]]] Hmin]. split.
        -- exists ks', vs', ts'. split; [|exact U']. apply PA. exact W'.
        -- intros ks1 vs1 ts1 c1 W1 U1. eapply Hmin; [|exact U1]. apply AP; [exact W1|apply U1].
      * intros Hnn ks1 vs1 ts1 c1 W1 U1. eapply (O2 Hnn); [|exact U1]. apply AP; [exact W1|apply U1].
  - apply Gc; lia.
Qed.

(** open begin: the kept matrices are the rows below the virtual one *)
Theorem dtw_matrices_open cdist x y o (lm : mat N) d rules : costs_of cdist x y lm ->
  dtw cdist x y o = Ok d -> pattern_rules (r_stepPattern d) rules ->
  o_keep_internals o = true -> o_open_begin o = true ->
  r_localCostMatrix d = Some lm /\
  exists g dg, r_costMatrix d = Some (drop_first_row g) /\ r_directionMatrix d = Some (drop_first_row dg) /\
    nr g = nr lm + 1 /\ nc g = nc lm /\ nr dg = nr lm + 1 /\ nc dg = nc lm /\
    wf_mat g /\ wf_mat dg /\
    (forall j, j < nc lm -> mget g 0 j = Some (ofZ 0) /\ mget dg 0 j = Some INT_MIN) /\
    (forall i j, 1 <= i < nr lm + 1 -> j < nc lm -> exists v s, mget g i j = Some v /\ mget dg i j = Some s /\
        (in_window (r_windowFunction d) (r_windowArgs d) (nr lm + 1) (nc lm) i j ->
           best_proposal rules (cell (padded lm)) g i j v s) /\
        (~ in_window (r_windowFunction d) (r_windowArgs d) (nr lm + 1) (nc lm) i j ->
           isnan v = true /\ s = INT_MIN) /\
       (isnan v = false -> open_optimum rules lm (r_windowFunction d) (r_windowArgs d) (i, j) v) /\
       (isnan v = true -> forall ks vs ts c,
           open_walk rules lm (r_windowFunction d) (r_windowArgs d) ks vs ts (i, j) c -> ~ usable ks c)) /\
    mget g (nr lm) (r_jmin d) = Some (r_distance d).
Proof.
  intros HC H Hp Hk Hb.
  destruct (dtw_ok_inv L _ _ _ _ _ _ _ HC H Hp) as [P [OB [Sz [Wt Q]]]].
  destruct Q as [cmx [dmx [cmf [smf [win [ks [vs [ts [jmin [S [Ec [Hjm [Hn [W [U [Hl E]]]]]]]]]]]]]]]].
  remember (r_stepPattern d) as sp eqn:Esp. rewrite E in *.
  cbn [result r_windowFunction r_windowArgs r_jmin r_distance r_normalizedDistance
       r_localCostMatrix r_costMatrix r_directionMatrix] in *.
  rewrite Hk, Hb. rewrite drop_padded. split; [reflexivity|].
  exists cmx, dmx. split; [reflexivity|]. split; [reflexivity|].
  assert (Hlm : p_lm o lm = padded lm) by (unfold p_lm; rewrite Hb; reflexivity).
  assert (Hsd : p_seed o lm = pseed) by (unfold p_seed; rewrite Hb; reflexivity).
  pose proof (fun ks vs ts q c => p_walk_adm L o lm rules _ win (sol_win _ _ _ _ _ _ _ _ _ _ S) ltac:(apply Hp) ks vs ts q c) as PA.
  pose proof (fun ks vs ts q c => adm_p_walk L o lm rules _ win (sol_win _ _ _ _ _ _ _ _ _ _ S) ltac:(apply Hp) ks vs ts q c) as AP.
  destruct S as [[D1 [D2 [D3 D4]]] Hcm Hsm Hwin HB]. unfold p_walk in *. rewrite Hlm, ?Hsd in *.
  change (nr (padded lm)) with (nr lm + 1) in *.
  split; [exact D1|]. split; [exact D2|]. split; [exact D3|]. split; [exact D4|].
  split. { unfold wf_mat. rewrite D1, D2. apply Hcm. }
  split. { unfold wf_mat. rewrite D3, D4. apply Hsm. }
  destruct Sz as [Sn [Sm Ss]].
  assert (Gc : forall i j, i < nr lm + 1 -> j < nc lm -> mget cmx i j = Some (cmf i j)).
  { intros i j Hi Hj. apply mget_reps; [rewrite D1, D2; exact Hcm|lia|lia]. }
  assert (Gd : forall i j, i < nr lm + 1 -> j < nc lm -> mget dmx i j = Some (smf i j)).
  { intros i j Hi Hj. apply mget_reps; [rewrite D3, D4; exact Hsm|lia|lia]. }
  assert (Hv : forallb valid_rule rules = true) by apply Hp.
  split.
  { intros j Hj. rewrite Gc, Gd by lia.
    pose proof (HB 0 j ltac:(lia) Hj) as C. unfold cell_eq, pseed in C. cbn [Nat.eqb] in C.
    rewrite (zero_not_nan L) in C. cbn [negb] in C. destruct C as [-> ->]. auto. }
  split.
  - intros i j Hi Hj. exists (cmf i j), (smf i j). split; [apply Gc; lia|]. split; [apply Gd; lia|].
    assert (Hs0 : isnan (@pseed N i j) = true).
    { unfold pseed. destruct (Nat.eqb_spec i 0); [lia|]. apply (law_nan _ L). }
    destruct (recursion_at rules (nr lm + 1) (nc lm) (cell (padded lm)) pseed win cmf smf cmx HB
                 (conj D1 (conj D2 Hcm)) i j ltac:(lia) Hj Hs0) as [R1 R2].
    split. { intros Hw. apply R1. apply Hwin; [lia|assumption|exact Hw]. }
    split. { intros Hw. apply R2. destruct (win i j) eqn:Ew; [|reflexivity]. exfalso. apply Hw.
        apply (Hwin i j ltac:(lia) Hj). exact Ew. }
    destruct (dp_optimal L rules (nr lm + 1) (nc lm) _ _ _ _ _ Hv HB i j ltac:(lia) Hj) as [O1 O2].
    unfold admissible in PA, AP. rewrite Hb in PA, AP.
      split.
      * intros Hnn. destruct (O1 Hnn) as [[ks' [vs' [ts' [W' U']]]] Hmin]. split.
        -- exists ks', vs', ts'. split; [|exact U']. apply PA. exact W'.
        -- intros ks1 vs1 ts1 c1 W1 U1. eapply Hmin; [|exact U1]. apply AP; [exact W1|apply U1].
      * intros Hnn ks1 vs1 ts1 c1 W1 U1. eapply (O2 Hnn); [|exact U1]. apply AP; [exact W1|apply U1].
  - replace (nr lm) with (nr lm + 1 - 1) at 1 by lia. apply Gc; lia.
Qed.

End ApiThms.
