(** ApiProof.v - from the internal description of dtw() to the specification. *)
From Coq Require Import ZifyBool ZifyNat.
From Verif Require Import Base Num StepPattern Window Core Backtrack Dtw Spec Api CoreProof DPProof DtwProof.
Open Scope string_scope.
Open Scope list_scope.
Open Scope nat_scope.

Section ApiProof.
Context {N : Num}.
Variable L : NumLaws N.

Lemma zero_not_nan : isnan (@ofZ N 0) = false.
Proof. apply (law_fin_not_nan _ L). apply (law_fin_ofZ _ L). lia. Qed.

(** ** Walks of the solved problem are the walks of the specification *)
Section Conv.
Variables (o : opts N) (lm : mat N) (rules : list (rule N)) (wf : winfun N) (win : nat -> nat -> bool).
Hypothesis Hwin : win_spec wf (o_window_args o) (nr (p_lm o lm)) (nc lm) win.
Hypothesis Hval : forallb valid_rule rules = true.

Notation adm := (admissible (o_open_begin o) rules lm wf (o_window_args o)).

Lemma p_walk_adm ks vs ts q c : p_walk o lm rules win ks vs ts q c -> adm ks vs ts q c.
Proof.
  unfold p_walk, admissible, p_lm, p_seed, win_spec, p_lm in *.
  destruct (o_open_begin o); cbn [nr padded] in *.
  - unfold open_walk. apply walk_mono.
    + intros i j c0 _ _. unfold src, pseed, open_source.
      destruct (Nat.eqb i 0).
      * rewrite zero_not_nan. auto.
      * rewrite (law_nan _ L). discriminate.
    + intros i j Hi Hj [H1 H2]. split; [|apply Hwin; auto].
      unfold pseed in H1. destruct (Nat.eqb_spec i 0); [|lia]. rewrite zero_not_nan in H1. discriminate.
  - unfold closed_walk. apply walk_mono.
    + intros i j c0 _ _. unfold src, seed0, closed_source. destruct ((i =? 0) && (j =? 0)).
      * destruct (isnan (cell lm 0 0)); [discriminate|auto].
      * rewrite (law_nan _ L). discriminate.
    + intros i j Hi Hj [_ H2]. apply Hwin; auto.
Qed.

Lemma adm_p_walk ks vs ts q c : adm ks vs ts q c -> isnan c = false -> p_walk o lm rules win ks vs ts q c.
Proof.
  unfold p_walk, admissible, p_lm, p_seed, win_spec, p_lm in *.
  destruct (o_open_begin o); cbn [nr padded] in *.
  - intros H _. revert H. unfold open_walk. apply walk_mono.
    + intros i j c0 _ _. unfold src, pseed, open_source.
      destruct (Nat.eqb i 0); [|discriminate]. rewrite zero_not_nan. auto.
    + intros i j Hi Hj [H1 H2]. split; [|apply Hwin; auto].
      unfold pseed. destruct (Nat.eqb_spec i 0); [lia|]. apply (law_nan _ L).
  - unfold closed_walk. induction 1 as [i j c Hs Hi Hj | ks vs ts i0 j0 c k r Hw IH Hk Hi Hj Ha]; intros Hc.
    + constructor; auto. unfold src, seed0. unfold closed_source in Hs.
      destruct ((i =? 0) && (j =? 0)); [|discriminate]. inversion Hs; subst. rewrite Hc. reflexivity.
    + assert (Hc0 : isnan c = false).
      { destruct (isnan c) eqn:E; [|reflexivity]. rewrite (charge_nan L) in Hc by exact E. discriminate. }
      econstructor; eauto. split; [|apply Hwin; auto].
      unfold seed0. apply rule_no_in in Hk. rewrite forallb_forall in Hval. specialize (Hval _ Hk).
      unfold valid_rule in Hval.
      destruct (Nat.eqb_spec (i0 + r_di r) 0), (Nat.eqb_spec (j0 + r_dj r) 0); cbn [andb]; try apply (law_nan _ L).
      lia.
Qed.

Lemma p_end j : (nr (p_lm o lm) - 1, j) = end_cell (o_open_begin o) lm j.
Proof using Type.
  clear Hval. unfold end_cell. rewrite p_lm_nr. destruct (o_open_begin o); f_equal. lia.
Qed.

Lemma p_best sp cmx dmx cmf smf j : size_ok (nr (p_lm o lm)) (nc lm) ->
  solution o lm sp wf rules cmx dmx cmf smf win -> j < nc lm ->
  (isnan (cmf (nr (p_lm o lm) - 1) j) = false ->
   best_to (o_open_begin o) rules lm wf (o_window_args o) j (cmf (nr (p_lm o lm) - 1) j)) /\
  (isnan (cmf (nr (p_lm o lm) - 1) j) = true ->
   unreachable (o_open_begin o) rules lm wf (o_window_args o) j).
Proof.
  intros [Hn [Hm _]] S Hj. destruct S as [_ _ _ _ HB].
  destruct (dp_optimal L rules (nr (p_lm o lm)) (nc lm) _ _ _ _ _ Hval HB (nr (p_lm o lm) - 1) j) as [D1 D2].
  { lia. } { exact Hj. }
  rewrite p_end in D1, D2.
  split.
  - intros E. destruct (D1 E) as [[ks [vs [ts [W U]]]] Hmin]. split.
    + exists ks, vs, ts. split; [|exact U]. apply p_walk_adm. exact W.
    + intros ks' vs' ts' c' W' U'. eapply Hmin; [|exact U']. apply adm_p_walk; [exact W'|apply U'].
  - intros E ks vs ts c W U. eapply D2; eauto. apply adm_p_walk; [exact W|apply U].
Qed.

End Conv.

(** ** Entering dtw() *)

Definition qr_of (x : ndarray N) (y : option (ndarray N)) : option (nd N * nd N) :=
  match y with
  | None => None
  | Some y => Some (as_column (nd_val x), as_column (nd_val y))
  end.

Lemma dtw_entry cdist x y o lm : costs_of cdist x y lm ->
  dtw cdist x y o =
   (sp <- canonicalizeStepPattern (o_step_pattern o) ;;
    dtw_lm (match y with None => is_double x && is_corder x | Some _ => true end)
           lm (qr_of x y) sp (canonicalizeWindowFunction (o_window_type o)) o).
Proof.
  intros H. destruct H as [lm Hx Hw | y xm ym lm Hx Hy Hc Hw]; unfold dtw.
  - rewrite Hx. reflexivity.
  - unfold qr_of. destruct (nd_val x), (nd_val y); try discriminate; cbn in Hx, Hy;
      inversion Hx; inversion Hy; subst; cbn [ndim_gt2 orb as_column]; rewrite Hc; reflexivity.
Qed.

Lemma costs_of_wf cdist x y (lm : mat N) : costs_of cdist x y lm -> wf_mat lm.
Proof. destruct 1; assumption. Qed.

Lemma pattern_of_ok s (sp : steppat N) : pattern_of s sp <-> canonicalizeStepPattern s = Ok sp.
Proof.
  split.
  - destruct 1 as [|k s H]; unfold canonicalizeStepPattern; [reflexivity|]. rewrite H. reflexivity.
  - destruct s as [s|k]; unfold canonicalizeStepPattern.
    + intros E. inversion E; subst. constructor.
    + destruct (lookup k pattern_table) eqn:E; [|discriminate]. intros E'. inversion E'; subst. constructor. exact E.
Qed.

(** Everything known about a successful call. *)
Lemma dtw_ok_inv cdist x y o lm d rules : costs_of cdist x y lm ->
  dtw cdist x y o = Ok d -> pattern_rules (r_stepPattern d) rules ->
  let sp := r_stepPattern d in
  let wf := canonicalizeWindowFunction (o_window_type o) in
  pattern_of (o_step_pattern o) sp /\
  (o_open_begin o = true -> hint sp = "N" /\ o_distance_only o = false) /\
  size_ok (nr (p_lm o lm)) (nc lm) /\
  window_total wf (o_window_args o) (nr (p_lm o lm)) (nc lm) /\
  exists cmx dmx cmf smf win ks vs ts jmin,
    let v := cmf (nr (p_lm o lm) - 1) jmin in
    solution o lm sp wf rules cmx dmx cmf smf win /\
    choose o (hint sp) (nr lm) (nc lm) (cmf (nr (p_lm o lm) - 1)) = Ok jmin /\
    jmin < nc lm /\ isnan v = false /\
    p_walk o lm rules win ks vs ts (nr (p_lm o lm) - 1, jmin) v /\ usable ks v /\
    List.length ks <= nr (p_lm o lm) - 1 + jmin /\
    d = result o lm (qr_of x y) sp wf jmin v
          (if o_distance_only o then None
           else Some (if o_open_begin o then shift_mapping (mapping_of ks vs ts)
                      else mapping_of ks vs ts)) cmx dmx.
Proof.
  intros HC H Hp. rewrite (dtw_entry _ _ _ _ _ HC) in H.
  destruct (canonicalizeStepPattern (o_step_pattern o)) as [sp| | | |] eqn:Es; try discriminate.
  cbn [bind] in H. set (wf := canonicalizeWindowFunction (o_window_type o)) in *.
  set (cb := match y with None => _ | Some _ => true end) in *.
  destruct (dtw_lm_inv _ _ _ _ _ _ _ H) as [H1 [H2 [H3 H4]]].
  assert (Esp : r_stepPattern d = sp).
  { destruct (dtw_lm_cases cb lm (qr_of x y) sp wf o) as [[_ [_ E]]|[_ E]]; rewrite E in H; [discriminate|].
    destruct (globalCostMatrix _ _ _ _ _ _) as [[cmx dmx]| | | |]; try discriminate. cbn [bind] in H.
    set (jm := if o_open_end o then _ else _) in H. destruct jm as [jmin| | | |]; try discriminate. cbn [bind] in H.
    set (ds := match nth_error _ _ with Some v => Ok v | None => Raise IndexError end) in H.
    destruct ds as [distance| | | |]; try discriminate. cbn [bind] in H.
    destruct (isnan distance); [discriminate|].
    set (ndd := if negb _ then _ else Ok nan) in H. destruct ndd as [nd| | | |]; try discriminate. cbn [bind] in H.
    set (m0 := if o_distance_only o then Ok None else _) in H. destruct m0 as [mp| | | |]; try discriminate.
    cbn [bind] in H. destruct (o_open_begin o && o_distance_only o); [discriminate|].
    inversion H; subst. reflexivity. }
  rewrite Esp in *. cbv zeta. split; [apply pattern_of_ok; exact Es|].
  destruct (dtw_lm_run L cb lm (qr_of x y) sp wf o rules Hp (costs_of_wf _ _ _ _ HC) H1 H2 H3 H4)
    as [cmx [dmx [cmf [smf [win [S R]]]]]]. cbv zeta in R.
  destruct (choose o (hint sp) (nr lm) (nc lm) (cmf (nr (p_lm o lm) - 1))) as [jmin|e| | |] eqn:Ec; try contradiction.
  2: { rewrite R in H. discriminate. }
  destruct R as [Hj R]. destruct (isnan (cmf (nr (p_lm o lm) - 1) jmin)) eqn:En.
  { rewrite R in H. discriminate. }
  destruct R as [ks [vs [ts [W [U [Hl R]]]]]]. rewrite R in H.
  destruct (o_open_begin o && o_distance_only o) eqn:Eod; [discriminate|].
  split. { intros E. split; [auto|]. rewrite E in Eod. exact Eod. }
  split; [exact H3|]. split; [exact H4|].
  exists cmx, dmx, cmf, smf, win, ks, vs, ts, jmin.
  split; [exact S|]. split; [exact Ec|]. split; [exact Hj|]. split; [exact En|].
  split; [exact W|]. split; [exact U|]. split; [exact Hl|]. inversion H. reflexivity.
Qed.

(** ** The choice of the end column *)

Lemma lt_asym (x y : N) : ltb x y = true -> ltb y x = false.
Proof.
  intros H. destruct (ltb y x) eqn:E; [|reflexivity].
  pose proof (law_lt_trans _ L _ _ _ H E) as C. rewrite (law_lt_irrefl _ L) in C. discriminate.
Qed.

Lemma np_argmin_from_spec (l : list N) i b bv : isnan bv = false -> Forall (fun x => isnan x = false) l ->
  (np_argmin_from l i b bv = b /\ forall k x, nth_error l k = Some x -> ltb x bv = false) \/
  (exists k x, np_argmin_from l i b bv = i + k /\ nth_error l k = Some x /\ ltb x bv = true /\
     (forall k' y, nth_error l k' = Some y -> ltb y x = false) /\
     (forall k' y, k' < k -> nth_error l k' = Some y -> ltb x y = true)).
Proof.
  revert i b bv. induction l as [|x xs IH]; intros i b bv Hbv Hl.
  { left. split; [reflexivity|]. intros [|k] y E; discriminate. }
  inversion Hl as [|? ? Hx Hxs]; subst. simpl. destruct (ltb x bv) eqn:E.
  - right. destruct (IH (i + 1) i x Hx Hxs) as [[R H]|[k [y [R [Hk [Hy [H1 H2]]]]]]].
    + exists 0, x. rewrite R. split; [lia|]. split; [reflexivity|]. split; [exact E|]. split.
      * intros [|k'] z Hz; simpl in Hz; [|eapply H; eauto].
        inversion Hz; subst. apply (law_lt_irrefl _ L).
      * intros k' z Hk'. lia.
    + exists (S k), y. rewrite R. split; [lia|]. split; [exact Hk|].
      split; [eapply (law_lt_trans _ L); eauto|]. split.
      * intros [|k'] z Hz; simpl in Hz; [|eapply H1; eauto]. inversion Hz; subst. apply lt_asym. exact Hy.
      * intros [|k'] z Hk' Hz; simpl in Hz; [inversion Hz; subst; exact Hy|]. eapply (H2 k'); eauto. lia.
  - destruct (IH (i + 1) b bv Hbv Hxs) as [[R H]|[k [y [R [Hk [Hy [H1 H2]]]]]]].
    + left. split; [exact R|]. intros [|k] z Hz; simpl in Hz; [inversion Hz; subst; exact E|]. eapply H; eauto.
    + right. exists (S k), y. rewrite R. split; [lia|]. split; [exact Hk|]. split; [exact Hy|].
      assert (Hyx : ltb y x = true).
      { eapply (law_lt_le_trans _ L); [exact Hy|]. apply (law_not_lt_le _ L); assumption. }
      split.
      * intros [|k'] z Hz; simpl in Hz; [|eapply H1; eauto]. inversion Hz; subst. apply lt_asym. exact Hyx.
      * intros [|k'] z Hk' Hz; simpl in Hz; [inversion Hz; subst; exact Hyx|]. eapply (H2 k'); eauto. lia.
Qed.

Definition denan (x : N) : N := if isnan x then pinf else x.
Lemma denan_ok x : isnan (denan x) = false.
Proof. unfold denan. destruct (isnan x) eqn:E; [apply (law_pinf_nan _ L)|exact E]. Qed.

Lemma nanargmin_spec (l : list N) j : nanargmin l = Ok j ->
  (exists k x, nth_error l k = Some x /\ isnan x = false) /\
  exists v, nth_error l j = Some v /\
    (forall k x, nth_error l k = Some x -> leb (denan v) (denan x) = true) /\
    (forall k x, k < j -> nth_error l k = Some x -> ltb (denan v) (denan x) = true).
Proof.
  unfold nanargmin. destruct (forallb isnan l) eqn:Ea; [discriminate|].
  destruct (map (fun x => if isnan x then pinf else x) l) as [|x xs] eqn:E; [discriminate|].
  change (map denan l = x :: xs) in E.
  intros H. inversion H as [H']. clear H.
  split.
  { clear -Ea. induction l as [|a l IH]; [discriminate|]. simpl in Ea. destruct (isnan a) eqn:En.
    - destruct (IH Ea) as [k [x [Hk Hx]]]. exists (S k), x. auto.
    - exists 0, a. auto. }
  assert (Hall : Forall (fun z => isnan z = false) (x :: xs)).
  { rewrite <- E. apply Forall_map, Forall_forall. intros z _. apply denan_ok. }
  assert (Hx : isnan x = false) by (inversion Hall; assumption).
  assert (Hxs : Forall (fun z => isnan z = false) xs) by (inversion Hall; assumption).
  assert (Hnth : forall k z, nth_error l k = Some z -> nth_error (x :: xs) k = Some (denan z)).
  { intros k z Hz. rewrite <- E, nth_error_map, Hz. reflexivity. }
  assert (Hnn : forall k z, nth_error (x :: xs) k = Some z -> isnan z = false).
  { intros k z Hz. rewrite Forall_forall in Hall. apply Hall. eapply nth_error_In; eauto. }
  assert (Hget : forall k z, nth_error (x :: xs) k = Some z -> exists v, nth_error l k = Some v /\ denan v = z).
  { intros k z Hz. rewrite <- E, nth_error_map in Hz. destruct (nth_error l k) as [v|]; [|discriminate].
    exists v. split; [reflexivity|]. inversion Hz. reflexivity. }
  destruct (np_argmin_from_spec xs 1 0 x Hx Hxs) as [[R Hm]|[k [y [R [Hk [Hy [H1 H2]]]]]]].
  - rewrite R. destruct (Hget 0 x eq_refl) as [v [Hv Ev]]. exists v. split; [exact Hv|]. rewrite Ev. split.
    + intros [|k] z Hz; apply Hnth in Hz.
      * simpl in Hz. inversion Hz as [Hz']. apply (law_le_refl _ L). apply denan_ok.
      * apply (law_not_lt_le _ L); [apply denan_ok|exact Hx|]. simpl in Hz. eapply Hm; eauto.
    + intros k z Hk. lia.
  - rewrite R. destruct (Hget (1 + k) y Hk) as [v [Hv Ev]]. exists v. split; [exact Hv|]. rewrite Ev.
    assert (Hyn : isnan y = false) by (apply (Hnn (1 + k)); exact Hk).
    split.
    + intros [|k'] z Hz; apply Hnth in Hz; simpl in Hz.
      * inversion Hz as [Hz']. rewrite <- Hz'. apply (law_lt_le _ L). exact Hy.
      * apply (law_not_lt_le _ L); [apply denan_ok|exact Hyn|]. eapply H1; eauto.
    + intros [|k'] z Hk' Hz; apply Hnth in Hz; simpl in Hz.
      * inversion Hz as [Hz']. rewrite <- Hz'. exact Hy.
      * eapply (H2 k'); eauto. lia.
Qed.

Lemma nrm_nan norm n j (v : N) : 1 <= n -> (Z.of_nat n + Z.of_nat j + 1 <= 2 ^ 53)%Z ->
  isnan (nrm norm n j v) = isnan v.
Proof.
  intros Hn Hb. unfold nrm, normalized. destruct (String.eqb norm "NA"); [reflexivity|].
  destruct (String.eqb norm "N+M"); [apply (law_div_nan _ L); lia|].
  destruct (String.eqb norm "N"); [apply (law_div_nan _ L); lia|].
  destruct (String.eqb norm "M"); [apply (law_div_nan _ L); lia|]. reflexivity.
Qed.
Lemma nrm_good norm n j (v : N) : 1 <= n -> (Z.of_nat n + Z.of_nat j + 1 <= 2 ^ 53)%Z ->
  good v -> good (nrm norm n j v).
Proof.
  intros Hn Hb G. unfold nrm, normalized. destruct (String.eqb norm "NA"); [exact G|].
  destruct (String.eqb norm "N+M"); [apply (law_div_good _ L); [lia|exact G]|].
  destruct (String.eqb norm "N"); [apply (law_div_good _ L); [lia|exact G]|].
  destruct (String.eqb norm "M"); [apply (law_div_good _ L); [lia|exact G]|]. exact G.
Qed.

Lemma le_pinf_good (x : N) : leb pinf x = true -> ~ good x.
Proof.
  intros H G. unfold good in G. pose proof (law_le_lt_trans _ L _ _ _ H G) as C.
  rewrite (law_lt_irrefl _ L) in C. discriminate.
Qed.

Section Choose.
Variables (o : opts N) (lm : mat N) (rules : list (rule N)) (wf : winfun N) (win : nat -> nat -> bool).
Variables (sp : steppat N) (cmx : mat N) (dmx : mat Z) (cmf : nat -> nat -> N) (smf : nat -> nat -> Z).
Hypothesis Hval : forallb valid_rule rules = true.
Hypothesis HS : solution o lm sp wf rules cmx dmx cmf smf win.
Hypothesis Hsz : size_ok (nr (p_lm o lm)) (nc lm).
Hypothesis Hn : 0 < nr lm.
Hypothesis Hoe : o_open_end o = true.
Hypothesis Hna : hint sp <> "NA".
Notation last := (cmf (nr (p_lm o lm) - 1)).
Notation nv j := (normalized (hint sp) (nr lm) j (last j)).

Lemma nrm_normalized j (v : N) : nrm (hint sp) (nr lm) j v = normalized (hint sp) (nr lm) j v.
Proof. unfold nrm. destruct (String.eqb_spec (hint sp) "NA"); [contradiction|reflexivity]. Qed.

Lemma sz_bound j : j < nc lm -> (Z.of_nat (nr lm) + Z.of_nat j + 1 <= 2 ^ 53)%Z.
Proof.
  intros Hj. destruct Hsz as [A [B C]]. rewrite p_lm_nr in *. unfold INT_MAX in C.
  destruct (o_open_begin o); nia.
Qed.

Lemma choose_open : choose o (hint sp) (nr lm) (nc lm) last =
  nanargmin (map (fun j => nv j) (seq 0 (nc lm))).
Proof.
  unfold choose. rewrite Hoe. destruct (String.eqb_spec (hint sp) "NA"); [contradiction|].
  f_equal. apply map_ext. intros j. apply nrm_normalized.
Qed.

Lemma nv_nth j : j < nc lm -> nth_error (map (fun j => nv j) (seq 0 (nc lm))) j = Some (nv j).
Proof.
  intros H. rewrite nth_error_map, nth_error_seq. destruct (Nat.ltb_spec j (nc lm)); [reflexivity|lia].
Qed.
Lemma nv_nth_inv k x : nth_error (map (fun j => nv j) (seq 0 (nc lm))) k = Some x -> k < nc lm /\ x = nv k.
Proof.
  rewrite nth_error_map, nth_error_seq. destruct (Nat.ltb_spec k (nc lm)); [|discriminate].
  intros E. inversion E. split; [assumption|reflexivity].
Qed.

Lemma nv_nan j : j < nc lm -> isnan (nv j) = isnan (last j).
Proof. intros H. rewrite <- nrm_normalized. apply nrm_nan; [lia|]. apply sz_bound. exact H. Qed.

(* only a walk without steps can have a cost that is not below +infinity *)
Lemma not_good_first j : j < nc lm -> isnan (last j) = false -> ~ good (last j) -> j = 0.
Proof.
  intros Hj Hnan Hg. destruct HS as [_ _ _ _ HB].
  destruct (dp_optimal L rules (nr (p_lm o lm)) (nc lm) _ _ _ _ _ Hval HB (nr (p_lm o lm) - 1) j) as [D _].
  { destruct Hsz. lia. } { exact Hj. }
  destruct (D Hnan) as [[ks [vs [ts [W [_ U]]]]] _].
  inversion W as [i0 j0 c Hs Hi0 Hj0 | ks' vs' ts' i0 j0 c k r W' Hk]; subst.
  - unfold src, p_seed in Hs. destruct (o_open_begin o) eqn:Eb.
    + unfold pseed in Hs. destruct (Nat.eqb _ 0).
      * rewrite zero_not_nan in Hs. inversion Hs as [Hs']. exfalso. apply Hg. rewrite <- Hs'.
        apply (law_fin_good _ L). apply (law_fin_ofZ _ L). lia.
      * rewrite (law_nan _ L) in Hs. discriminate.
    + unfold seed0 in Hs. destruct (Nat.eqb_spec j 0); [assumption|].
      rewrite Bool.andb_false_r in Hs. rewrite (law_nan _ L) in Hs. discriminate.
  - exfalso. apply Hg. apply U. destruct ks'; discriminate.
Qed.

Lemma choose_open_spec jmin : choose o (hint sp) (nr lm) (nc lm) last = Ok jmin ->
  isnan (last jmin) = false /\
  forall j, j < nc lm -> isnan (last j) = false ->
    leb (nv jmin) (nv j) = true /\ (j < jmin -> ltb (nv jmin) (nv j) = true).
Proof.
  rewrite choose_open. intros H. pose proof (nanargmin_bound _ _ H) as Hb.
  rewrite map_length, seq_length in Hb.
  apply nanargmin_spec in H. destruct H as [[k0 [x0 [Hk0 Hx0]]] [v [Hv [H1 H2]]]].
  rewrite nv_nth in Hv by exact Hb. inversion Hv as [Ev]. clear Hv.
  assert (Hnn : isnan (last jmin) = false).
  { destruct (isnan (last jmin)) eqn:E; [|reflexivity]. exfalso.
    assert (Edv : denan v = pinf). { unfold denan. rewrite <- Ev, nv_nan, E by exact Hb. reflexivity. }
    rewrite Edv in *.
    destruct (nv_nth_inv _ _ Hk0) as [Hk0' ->].
    pose proof (H1 _ _ Hk0) as Q. unfold denan in Q. rewrite Hx0 in Q. apply le_pinf_good in Q.
    rewrite nv_nan in Hx0 by exact Hk0'.
    assert (k0 = 0).
    { apply not_good_first; auto. intros G. apply Q. rewrite <- nrm_normalized.
      apply nrm_good; [lia|apply sz_bound; exact Hk0'|exact G]. }
    subst k0. destruct (Nat.eq_dec jmin 0) as [->|Hne]; [congruence|].
    pose proof (H2 0 _ ltac:(lia) Hk0) as C. unfold denan in C. rewrite nv_nan, Hx0 in C by exact Hk0'.
    pose proof (law_pinf_max _ L (nv 0) ltac:(rewrite nv_nan by exact Hk0'; exact Hx0)) as C'.
    pose proof (law_lt_le_trans _ L _ _ _ C C') as C''. rewrite (law_lt_irrefl _ L) in C''. discriminate. }
  split; [exact Hnn|].
  assert (Edv : denan v = nv jmin). { unfold denan. rewrite <- Ev, nv_nan, Hnn by exact Hb. reflexivity. }
  rewrite Edv in *. intros j Hj Hjn.
  assert (Ed : denan (nv j) = nv j). { unfold denan. rewrite nv_nan, Hjn by exact Hj. reflexivity. }
  split.
  - rewrite <- Ed. eapply H1. apply nv_nth. exact Hj.
  - intros Hlt. rewrite <- Ed. eapply H2; [exact Hlt|]. apply nv_nth. exact Hj.
Qed.

Lemma choose_open_fail : (forall j, j < nc lm -> isnan (last j) = true) ->
  choose o (hint sp) (nr lm) (nc lm) last = Raise (ValueError "All-NaN slice encountered").
Proof.
  intros H. rewrite choose_open. unfold nanargmin.
  replace (forallb isnan (map (fun j => nv j) (seq 0 (nc lm)))) with true; [reflexivity|].
  symmetry. apply forallb_forall. intros x Hx. apply in_map_iff in Hx. destruct Hx as [j [<- Hj]].
  apply in_seq in Hj. rewrite nv_nan by lia. apply H. lia.
Qed.

Lemma choose_open_total j : j < nc lm -> isnan (last j) = false ->
  exists jmin, choose o (hint sp) (nr lm) (nc lm) last = Ok jmin.
Proof.
  intros Hj Hjn. rewrite choose_open. unfold nanargmin.
  destruct (forallb isnan (map (fun j => nv j) (seq 0 (nc lm)))) eqn:E.
  - rewrite forallb_forall in E. specialize (E (nv j)). rewrite nv_nan, Hjn in E by exact Hj.
    discriminate E. apply in_map_iff. exists j. split; [reflexivity|]. apply in_seq. lia.
  - destruct (map (fun x => if isnan x then pinf else x) _) eqn:E2; [|eexists; reflexivity].
    apply map_eq_nil in E2. apply map_eq_nil in E2. destruct (nc lm); [lia|discriminate].
Qed.
End Choose.

End ApiProof.
