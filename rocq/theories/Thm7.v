(** Thm7.v - symmetric patterns and rescaling (proofs). *)
From Coq Require Import ZifyBool ZifyNat.
From Verif Require Import Base Num StepPattern Window Core Backtrack Dtw Spec Api Tables Vocab Terms
  CoreProof DPProof DtwProof ApiProof ApiThms WalkGeom Uniq Thm1 Thm2 Thm4 Thm5 Thm6.
Open Scope string_scope.
Open Scope list_scope.
Open Scope nat_scope.

Section Thm7.
Context {N : Num}.
Variable L : NumLaws N.

Lemma transpose_transpose {A} (d : A) (g : mat A) : wf_mat g -> transpose d (transpose d g) = g.
Proof.
  intros Hwf. destruct g as [n m l]. unfold wf_mat in Hwf. cbn [nr nc dat] in Hwf.
  change (transpose d (transpose d (Mat n m l))) with (Mat n m (dat (transpose d (transpose d (Mat n m l))))). f_equal.
  set (f := fun i j => match nth_error l (i * m + j) with Some v => v | None => d end).
  assert (R : reps n m l f).
  { split; [exact Hwf|]. intros i j Hi Hj. subst f. cbv beta.
    destruct (nth_error l (i * m + j)) eqn:E; [reflexivity|]. apply nth_error_None in E. nia. }
  eapply reps_inj; [|exact R|reflexivity].
  pose proof (reps_transpose d n m l f R) as R1.
  change (transpose d (Mat n m l)) with (Mat m n (dat (transpose d (Mat n m l)))).
  exact (reps_transpose d m n _ _ R1).
Qed.

Lemma T_rule_T (r : rule N) : T_rule (T_rule r) = r.
Proof.
  destruct r as [a b l]. unfold T_rule. cbn [r_di r_dj r_add]. f_equal. rewrite map_map.
  rewrite <- (map_id l) at 2. apply map_ext. intros [[? ?] ?]. reflexivity.
Qed.



Lemma symmetric_pattern_step cdist x y o (lm : mat N) sp rules w x' y' o' d :
  well_posed cdist x y o lm sp rules w -> self_transposed rules ->
  o_open_begin o = false -> o_open_end o = false ->
  costs_of cdist x' y' (transpose nan lm) -> native_array x' y' ->
  o_step_pattern o' = o_step_pattern o -> o_window_type o' = o_window_type o ->
  o_window_args o' = o_window_args o -> o_open_begin o' = false -> o_open_end o' = false ->
  symmetric_window w (o_window_args o) (nr lm) (nc lm) ->
  dtw cdist x y o = Ok d ->
  exists d', dtw cdist x' y' o' = Ok d' /\ eqb (r_distance d') (r_distance d) = true.
Proof.
  intros WP Hst Hb He HC' Hn' S1 S2 S3 Hb' He' [Hwt Hws] H.
  set (oT := mkOpts (SPObj (T sp)) (o_window_type o) (o_window_args o) (o_keep_internals o) (o_distance_only o) false false).
  destruct (transposed L cdist x y o lm sp rules w cdist x' y' oT w WP Hb He HC' Hn') as [F _]; auto.
  { constructor. } { apply WP. }
  destruct (F d H) as [dT [FT [ET _]]]. clear F.
  assert (Hp' := T_pattern_rules _ _ (wp_rules _ _ _ _ _ _ _ _ WP)).
  assert (EspT : r_stepPattern dT = T sp /\ r_windowFunction dT = w).
  { pose proof (wp_window _ _ _ _ _ _ _ _ WP) as Hw. apply window_of_canon in Hw.
    rewrite (dtw_entry _ _ _ _ _ HC') in FT. cbn [oT o_step_pattern canonicalizeStepPattern bind o_window_type] in FT.
    rewrite Hw in FT. clear -FT. unfold dtw_lm in FT. cbn [oT o_open_begin o_open_end bind] in FT.
    match type of FT with bind ?a _ = _ => destruct a as [[? ?]| | | |] end; try discriminate. cbn [bind] in FT.
    match type of FT with bind ?a _ = _ => destruct a as [?| | | |] end; try discriminate. cbn [bind] in FT.
    destruct (isnan _); [discriminate|].
    match type of FT with bind ?a _ = _ => destruct a as [?| | | |] end; try discriminate. cbn [bind] in FT.
    match type of FT with bind ?a _ = _ => destruct a as [?| | | |] end; try discriminate. cbn [bind] in FT.
    injection FT as <-. split; reflexivity. }
  destruct EspT as [EspT EwT].
  assert (HpT : pattern_rules (r_stepPattern dT) (map T_rule rules)) by (rewrite EspT; exact Hp').
  pose proof WP as WP0. destruct WP0 as [w1 w2 w3 w4 w5 w6 w7 w8 w9 w10].
  unfold rows_used in *. rewrite Hb in *. destruct w8 as [Z1 [Z2 Z3]].
  assert (WP' : well_posed cdist x' y' o' (transpose nan lm) sp rules w).
  { constructor; unfold rows_used; rewrite ?Hb', ?S1, ?S2, ?S3; auto; cbn [transpose nr nc]; auto.
    - split; [lia|]. split; [lia|]. nia.
    - discriminate.
    - rewrite He'. discriminate. }
  assert (WPT : well_posed cdist x' y' oT (transpose nan lm) (T sp) (map T_rule rules) w).
  { constructor; unfold rows_used; cbn [oT o_open_begin o_open_end o_step_pattern o_window_type o_window_args transpose nr nc]; auto.
    - constructor.
    - split; [lia|]. split; [lia|]. nia.
    - discriminate.
    - discriminate. }
  destruct (dominates_closed_end L cdist x' y' x' y' oT o' _ _ dT (map T_rule rules) rules sp w HC' FT HpT WP')
    as [d' [F1 [F2 F3]]]; auto.
  { cbn [oT o_open_begin o_window_args]. rewrite EwT, S3. apply (dominates_rules L).
    intros r Hr. apply in_map_iff in Hr. destruct Hr as [r0 [<- Hr]]. apply Hst. exact Hr. }
  exists d'. split; [exact F1|]. rewrite <- ET.
  assert (Hp2 : pattern_rules (r_stepPattern d') rules) by (rewrite F2; exact w4).
  assert (Ew' : r_windowFunction d' = w).
  { destruct (dtw_closed_end_iff L _ _ _ _ _ _ _ _ WP' He') as [[F _]|[d2 [F [_ [F' _]]]]]; congruence. }
  destruct (dominates_closed_end L cdist x' y' x' y' o' oT _ _ d' rules (map T_rule rules) (T sp) w HC' F1 Hp2 WPT)
    as [dT2 [G1 [G2 G3]]]; auto.
  { cbn [oT o_open_begin o_window_args]. rewrite Hb', Ew', S3. apply (dominates_rules L).
    intros r Hr. apply in_map_iff. exists (T_rule r). split; [apply T_rule_T|apply Hst; exact Hr]. }
  rewrite FT in G1. injection G1 as <-. apply (law_le_antisym _ L); assumption.
Qed.

Theorem symmetric_pattern cdist x y o (lm : mat N) sp rules w x' y' o' :
  well_posed cdist x y o lm sp rules w -> self_transposed rules ->
  o_open_begin o = false -> o_open_end o = false ->
  costs_of cdist x' y' (transpose nan lm) -> native_array x' y' ->
  o_step_pattern o' = o_step_pattern o -> o_window_type o' = o_window_type o ->
  o_window_args o' = o_window_args o -> o_open_begin o' = false -> o_open_end o' = false ->
  symmetric_window w (o_window_args o) (nr lm) (nc lm) ->
  (forall d, dtw cdist x y o = Ok d ->
    exists d', dtw cdist x' y' o' = Ok d' /\ eqb (r_distance d') (r_distance d) = true) /\
  (dtw cdist x y o = Raise no_path -> dtw cdist x' y' o' = Raise no_path).
Proof.
  intros WP Hst Hb He HC' Hn' S1 S2 S3 Hb' He' Hws. split.
  { intros d H. eapply symmetric_pattern_step; eauto. }
  intros H. pose proof WP as WP0. destruct WP0 as [w1 w2 w3 w4 w5 w6 w7 w8 w9 w10].
  unfold rows_used in *. rewrite Hb in *. destruct w8 as [Z1 [Z2 Z3]].
  assert (WP' : well_posed cdist x' y' o' (transpose nan lm) sp rules w).
  { constructor; unfold rows_used; rewrite ?Hb', ?S1, ?S2, ?S3; auto; cbn [transpose nr nc]; auto.
    - apply Hws.
    - split; [lia|]. split; [lia|]. nia.
    - discriminate.
    - rewrite He'. discriminate. }
  destruct (dtw_closed_end_iff L _ _ _ _ _ _ _ _ WP' He') as [[F _]|[d2 [F _]]]; [exact F|]. exfalso.
  destruct (symmetric_pattern_step cdist x' y' o' (transpose nan lm) sp rules w x y o d2) as [d3 [F3 _]]; auto.
  - rewrite transpose_transpose by (eapply costs_of_wf; eauto). exact w1.
  - destruct w2 as [w2|w2]; [congruence|exact w2].
  - split; cbn [transpose nr nc].
    + rewrite S3. exact w6.
    + intros i j Hi Hj. rewrite S3. symmetry. apply Hws; assumption.
  - congruence.
Qed.

(** named patterns *)
Definition wT (r : wrule) : wrule := W (w_dj r) (w_di r) (map (fun a => (snd (fst a), fst (fst a), snd a)) (w_add r)).
Definition wrule_eqb (a b : wrule) : bool :=
  (w_di a =? w_di b) && (w_dj a =? w_dj b) &&
  (fix go l l' := match l, l' with
     | [], [] => true
     | (oi, oj, (p, q)) :: l, (oi', oj', (p', q')) :: l' =>
         (oi =? oi') && (oj =? oj') && (p =? p')%Z && (q =? q')%Z && go l l'
     | _, _ => false end) (w_add a) (w_add b).
Lemma wrule_eqb_eq a b : wrule_eqb a b = true -> a = b.
Proof.
  destruct a as [i j l], b as [i' j' l']. unfold wrule_eqb. cbn [w_di w_dj w_add]. intros H.
  apply andb_prop in H. destruct H as [H H2]. apply andb_prop in H. destruct H as [H0 H1].
  apply Nat.eqb_eq in H0. apply Nat.eqb_eq in H1. subst. f_equal.
  revert l' H2. induction l as [|[[oi oj] [p q]] l IH]; intros [|[[oi' oj'] [p' q']] l'] H; try discriminate; [reflexivity|].
  apply andb_prop in H. destruct H as [H H3]. apply andb_prop in H. destruct H as [H H4].
  apply andb_prop in H. destruct H as [H H5]. apply andb_prop in H. destruct H as [H H6].
  apply Nat.eqb_eq in H. apply Nat.eqb_eq in H6. apply Z.eqb_eq in H5. apply Z.eqb_eq in H4. subst. f_equal. apply IH. exact H3.
Qed.

Lemma T_production (r : wrule) : T_rule (@production N r) = production (wT r).
Proof.
  unfold T_rule, production, wT. cbn [r_di r_dj r_add w_di w_dj w_add]. f_equal. rewrite !map_map. reflexivity.
Qed.


Lemma symmetric_names_ok k l : In k symmetric_names -> lookup k predefined = Some l ->
  @self_transposed N (productions l).
Proof.
  intros Hk Hl.
  assert (G : forallb (fun k => match lookup k predefined with
        | Some l => forallb (fun r => existsb (wrule_eqb (wT r)) l) l | None => false end) symmetric_names = true)
    by (vm_compute; reflexivity).
  rewrite forallb_forall in G. specialize (G k Hk). rewrite Hl in G. rewrite forallb_forall in G.
  intros r Hr. unfold productions in *. apply in_map_iff in Hr. destruct Hr as [r0 [<- Hr]].
  specialize (G r0 Hr). apply existsb_exists in G. destruct G as [r1 [H1 H2]]. apply wrule_eqb_eq in H2.
  rewrite T_production, H2. apply in_map. exact H1.
Qed.

Lemma symmetric_no_window kw n m : symmetric_window (@NoWindow N) kw n m.
Proof. split; [exact I|]. intros. reflexivity. Qed.
Lemma symmetric_sakoe (ws : N) n m : symmetric_window SakoeChiba [("window_size", ws)] n m.
Proof.
  split.
  - intros i j Hi Hj. eexists. reflexivity.
  - intros i j Hi Hj. unfold in_window. cbn [call_window String.eqb Ascii.eqb Bool.eqb].
    unfold sakoeChibaWindow. replace (Z.abs (Z.of_nat i - Z.of_nat j)) with (Z.abs (Z.of_nat j - Z.of_nat i)) by lia. tauto.
Qed.

(** ** Rescaling *)
Record rescaling (h : N -> N) : Prop := mkResc {
  rs_nan : forall x, isnan (h x) = isnan x;
  rs_lt : forall x y, ltb (h x) (h y) = ltb x y;
  rs_le : forall x y, leb (h x) (h y) = leb x y;
  rs_macc : forall a w x, macc (h a) w (h x) = h (macc a w x);
  rs_div : forall x k, (1 <= k)%Z -> div (h x) (ofZ k) = h (div x (ofZ k));
  rs_pinf : h pinf = pinf;
  rs_nan0 : h nan = nan;
  rs_zero : h (ofZ 0) = ofZ 0
}.


Definition finish_any (o : opts N) (lm : mat N) (qr : option (nd N * nd N)) (sp : steppat N) (wf : winfun N)
  (cmx : mat N) (dmx : mat Z) (last : nat -> N) : out (DTW N) :=
  jmin <- choose o (hint sp) (nr lm) (nc lm) last ;;
  if isnan (last jmin) then Raise no_path else
  mp <- (if o_distance_only o then Ok None
         else mp <- backtrack sp dmx (Z.of_nat jmin) ;; Ok (Some mp)) ;;
  if o_open_begin o && o_distance_only o then Raise AttributeError else
  Ok (result o lm qr sp wf jmin (last jmin) (if o_open_begin o then option_map shift_mapping mp else mp) cmx dmx).

Definition p_seedm (o : opts N) (lm : mat N) : option (mat N) :=
  if o_open_begin o
  then Some (Mat (nr lm + 1) (nc lm) (repeat (ofZ 0) (nc lm) ++ repeat nan (nr lm * nc lm))) else None.

Lemma dtw_lm_finish_any cbuf (lm : mat N) qr sp wf o cm dm cmf :
  (o_open_begin o = true -> hint sp = "N") -> (o_open_begin o = true \/ cbuf = true) ->
  0 < nr (p_lm o lm) -> 0 < nc lm ->
  globalCostMatrix true (p_lm o lm) sp wf (p_seedm o lm) (o_window_args o) =
    Ok (Mat (nr (p_lm o lm)) (nc lm) cm, Mat (nr (p_lm o lm)) (nc lm) dm) ->
  reps (nr (p_lm o lm)) (nc lm) cm cmf ->
  dtw_lm cbuf lm qr sp wf o =
  finish_any o lm qr sp wf (Mat (nr (p_lm o lm)) (nc lm) cm) (Mat (nr (p_lm o lm)) (nc lm) dm) (cmf (nr (p_lm o lm) - 1)).
Proof.
  intros Hh Hcb Hn Hm Hg Hc.
  destruct (dtw_lm_cases cbuf lm qr sp wf o) as [[H1 [H2 _]]|[_ ->]]; [elim H2; auto|].
  assert (Eg : globalCostMatrix (if o_open_begin o then true else cbuf)
     (if o_open_begin o then Mat (nr lm + 1) (nc lm) (repeat (ofZ 0) (nc lm) ++ dat lm) else lm) sp wf
     (if o_open_begin o then Some (Mat (nr lm + 1) (nc lm) (repeat (ofZ 0) (nc lm) ++ repeat nan (nr lm * nc lm))) else None)
     (o_window_args o) = Ok (Mat (nr (p_lm o lm)) (nc lm) cm, Mat (nr (p_lm o lm)) (nc lm) dm)).
  { rewrite <- Hg. unfold p_lm, p_seedm, padded. destruct (o_open_begin o); [reflexivity|].
    destruct Hcb as [?| ->]; [discriminate|reflexivity]. }
  rewrite Eg. cbn [bind nr nc]. rewrite (row_of_reps (nr (p_lm o lm)) (nc lm) cm cmf (nr (p_lm o lm) - 1) Hc) by lia.
  rewrite normalize_row_map. unfold finish_any, choose.
  set (jm := if o_open_end o then _ else _).
  assert (Hj : forall j, jm = Ok j -> j < nc lm).
  { subst jm. intros j. destruct (o_open_end o).
    - destruct (String.eqb _ _); [discriminate|]. intros E. apply nanargmin_bound in E.
      rewrite map_length, seq_length in E. exact E.
    - intros E. injection E as <-. lia. }
  destruct jm as [j| | | |]; try reflexivity. cbn [bind]. specialize (Hj j eq_refl).
  rewrite !nth_error_map, nth_error_seq. destruct (Nat.ltb_spec j (nc lm)); [|lia]. cbn [option_map bind Nat.add].
  destruct (isnan _); [reflexivity|]. unfold result.
  destruct (String.eqb (hint sp) "NA") eqn:Eh; cbn [negb bind].
  - destruct (if o_distance_only o then _ else _) as [mp| | | |]; try reflexivity. cbn [bind].
    destruct (o_open_begin o); [|reflexivity]. destruct mp, (o_distance_only o); reflexivity.
  - unfold nrm. rewrite Eh. destruct (if o_distance_only o then _ else _) as [mp| | | |]; try reflexivity. cbn [bind].
    destruct (o_open_begin o); [|reflexivity]. destruct mp, (o_distance_only o); reflexivity.
Qed.

Lemma wp_finish_any cdist x y o (lm : mat N) sp rules w : well_posed cdist x y o lm sp rules w ->
  exists cm dm cmf smf win, dtw cdist x y o =
    finish_any o lm (qr_of x y) sp w (Mat (nr (p_lm o lm)) (nc lm) cm) (Mat (nr (p_lm o lm)) (nc lm) dm) (cmf (nr (p_lm o lm) - 1)) /\
    reps (nr (p_lm o lm)) (nc lm) cm cmf /\ reps (nr (p_lm o lm)) (nc lm) dm smf /\
    win_spec w (o_window_args o) (nr (p_lm o lm)) (nc lm) win /\
    bellman rules (nr (p_lm o lm)) (nc lm) (cell (p_lm o lm)) (p_seed o lm) win cmf smf.
Proof.
  intros [HC Hna Hs Hp Hw Ht Hq Hsz Hb He]. rewrite rows_used_p in *.
  pose proof (costs_of_wf _ _ _ _ HC) as Hwf.
  assert (Hwf' : wf_mat (p_lm o lm)) by (unfold p_lm; destruct (o_open_begin o); [apply padded_wf|]; exact Hwf).
  assert (Hss : seed_spec (p_lm o lm) (p_seedm o lm) (p_seed o lm)).
  { unfold p_lm, p_seedm, p_seed. destruct (o_open_begin o); [apply pseed_spec|reflexivity]. }
  rewrite <- (p_lm_nc o lm) in Hsz, Ht.
  destruct (gcm_run L (p_lm o lm) sp w (p_seedm o lm) (o_window_args o) rules (p_seed o lm) Hp Hwf' Hss Hsz Ht)
    as [cm [sm [cmf [smf [win [Eg' [Rc [Rs [Hws HB]]]]]]]]].
  rewrite p_lm_nc in *.
  exists cm, sm, cmf, smf, win. split; [|auto].
  rewrite (dtw_entry _ _ _ _ _ HC). apply pattern_of_ok in Hs. rewrite Hs. cbn [bind].
  rewrite (window_of_canon _ _ Hw). apply dtw_lm_finish_any; auto.
  - intros E. apply Hb. exact E.
  - destruct Hna as [Hna|Hna]; [left; exact Hna|right]. destruct y; [reflexivity|]. destruct Hna as [-> ->]. reflexivity.
  - apply Hsz.
  - apply Hsz.
Qed.

Section Scale.
Variable h : N -> N.
Hypothesis R : rescaling h.

Lemma rs_good x : good (h x) <-> good x.
Proof. unfold good. rewrite <- (rs_pinf h R) at 1. rewrite (rs_lt h R). tauto. Qed.

Lemma map_mat_wf (g : mat N) : wf_mat g -> wf_mat (map_mat h g).
Proof. unfold wf_mat, map_mat. cbn [nr nc dat]. rewrite map_length. auto. Qed.
Lemma map_mat_cell (g : mat N) i j : cell (map_mat h g) i j = h (cell g i j).
Proof.
  unfold cell, mget, map_mat. cbn [nr nc dat]. destruct (_ && _); [|symmetry; apply (rs_nan0 h R)].
  rewrite nth_error_map. destruct (nth_error _ _); [reflexivity|]. symmetry. apply (rs_nan0 h R).
Qed.

Lemma map_mat_p o (lm : mat N) : p_lm o (map_mat h lm) = map_mat h (p_lm o lm).
Proof.
  unfold p_lm. destruct (o_open_begin o); [|reflexivity]. unfold padded, map_mat. cbn [nr nc dat].
  rewrite map_app. f_equal. f_equal. clear -R. induction (nc lm); [reflexivity|]. cbn [repeat map]. rewrite (rs_zero h R). congruence.
Qed.

Lemma argmin_scale l i b v : np_argmin_from (map h l) i b (h v) = np_argmin_from l i b v.
Proof.
  revert i b v. induction l as [|x l IH]; intros i b v; [reflexivity|]. cbn [map np_argmin_from].
  rewrite (rs_lt h R). destruct (ltb x v); apply IH.
Qed.

Lemma nanargmin_scale l : nanargmin (map h l) = nanargmin l.
Proof.
  unfold nanargmin.
  assert (E : forallb isnan (map h l) = forallb isnan l).
  { induction l as [|x l IH]; [reflexivity|]. cbn [map forallb]. rewrite IH, (rs_nan h R). reflexivity. }
  rewrite E. destruct (forallb isnan l); [reflexivity|].
  assert (E2 : map (fun x => if isnan x then pinf else x) (map h l) = map h (map (fun x => if isnan x then pinf else x) l)).
  { rewrite !map_map. apply map_ext. intros x. rewrite (rs_nan h R). destruct (isnan x); [symmetry; apply (rs_pinf h R)|reflexivity]. }
  rewrite E2. destruct (map (fun x => if isnan x then pinf else x) l); [reflexivity|]. cbn [map]. rewrite argmin_scale. reflexivity.
Qed.

Lemma normalized_scale norm n j v : 0 < n -> normalized norm n j (h v) = h (normalized norm n j v).
Proof.
  intros Hn. unfold normalized. destruct (String.eqb norm "N+M"); [apply (rs_div h R); lia|].
  destruct (String.eqb norm "N"); [apply (rs_div h R); lia|].
  destruct (String.eqb norm "M"); [apply (rs_div h R); lia|reflexivity].
Qed.

Lemma choose_scale o norm n m last last' : 0 < n -> (forall j, j < m -> last' j = h (last j)) ->
  choose o norm n m last' = choose o norm n m last.
Proof.
  intros Hn E. unfold choose. destruct (o_open_end o); [|reflexivity]. destruct (String.eqb norm "NA") eqn:Ena; [reflexivity|].
  symmetry. rewrite <- nanargmin_scale. f_equal. rewrite map_map. apply map_ext_in. intros j Hj. apply in_seq in Hj.
  rewrite E by lia. unfold nrm. rewrite Ena. symmetry. apply normalized_scale. exact Hn.
Qed.

Theorem rescaled cdist x y o (lm : mat N) sp rules w cdist' x' y' :
  well_posed cdist x y o lm sp rules w ->
  costs_of cdist' x' y' (map_mat h lm) -> (o_open_begin o = true \/ native_array x' y') ->
  (forall d, dtw cdist x y o = Ok d -> exists d', dtw cdist' x' y' o = Ok d' /\
     r_distance d' = h (r_distance d) /\ r_normalizedDistance d' = h (r_normalizedDistance d) /\
     r_jmin d' = r_jmin d /\ r_map d' = r_map d /\
     r_costMatrix d' = option_map (map_mat h) (r_costMatrix d) /\
     r_directionMatrix d' = r_directionMatrix d) /\
  (forall e, dtw cdist x y o = Raise e -> dtw cdist' x' y' o = Raise e).
Proof.
  intros WP HC' Hn'. pose proof WP as WP0. destruct WP0 as [w1 w2 w3 w4 w5 w6 w7 w8 w9 w10].
  pose proof (costs_of_wf _ _ _ _ w1) as Hwf.
  assert (WP' : well_posed cdist' x' y' o (map_mat h lm) sp rules w).
  { constructor; auto. }
  destruct (wp_finish_any _ _ _ _ _ _ _ _ WP) as [cm [dm [cmf [smf [win [E [Rc [Rs [Hw HB]]]]]]]]].
  destruct (wp_finish_any _ _ _ _ _ _ _ _ WP') as [cm' [dm' [cmf' [smf' [win' [E' [Rc' [Rs' [Hw' HB']]]]]]]]].
  rewrite map_mat_p in *. cbn [map_mat nr nc] in *. fold (map_mat h (p_lm o lm)) in *.
  assert (EQ : forall i j, i < nr (p_lm o lm) -> j < nc lm -> cmf' i j = h (cmf i j) /\ smf' i j = smf i j).
  { intros i j Hi Hj.
    apply (bellman_unique L rules (nr (p_lm o lm)) (nc lm) (cell (map_mat h (p_lm o lm))) (p_seed o (map_mat h lm)) win' cmf' smf'
       (fun a b => h (cell (p_lm o lm) a b)) (fun a b => h (p_seed o lm a b)) win (fun a b => h (cmf a b)) smf);
      auto; [apply w4| |].
    - intros a b Ha Hb0. split; [apply map_mat_cell|]. split.
      + unfold p_seed. destruct (o_open_begin o).
        * unfold pseed. destruct (Nat.eqb a 0); symmetry; [apply (rs_zero h R)|apply (rs_nan0 h R)].
        * unfold seed0. destruct (_ && _); [apply map_mat_cell|symmetry; apply (rs_nan0 h R)].
      + apply Bool.eq_iff_eq_true. rewrite (Hw a b Ha Hb0), (Hw' a b Ha Hb0). reflexivity.
    - apply bellman_map; auto; try apply R. apply rs_good. }
  assert (Hpos : 0 < nr (p_lm o lm) /\ 0 < nc lm) by (rewrite rows_used_p in w8; split; apply w8).
  assert (Ecm : cm' = map h cm).
  { eapply reps_inj; [exact Rc'| |intros a b Ha Hb0; apply EQ; assumption].
    split; [rewrite map_length; apply Rc|]. intros i j Hi Hj. rewrite nth_error_map, (proj2 Rc i j Hi Hj). reflexivity. }
  assert (Edm : dm' = dm).
  { eapply reps_inj; [exact Rs'|exact Rs|]. intros a b Ha Hb0. apply EQ; assumption. }
  subst cm' dm'. rewrite E, E'. unfold finish_any. cbn [map_mat nr nc].
  rewrite (choose_scale o (hint sp) (nr lm) (nc lm) (cmf (nr (p_lm o lm) - 1)) (cmf' (nr (p_lm o lm) - 1))); [|exact w7|intros j Hj; apply EQ; lia].
  destruct (choose o (hint sp) (nr lm) (nc lm) (cmf (nr (p_lm o lm) - 1))) as [jm|e| | |] eqn:Ej; cbn [bind];
    try (split; [discriminate|intros e' Ee; try discriminate Ee; injection Ee as <-; reflexivity]).
  assert (Hjm : jm < nc lm) by (eapply choose_bound; [apply Hpos|exact Ej]).
  destruct (EQ (nr (p_lm o lm) - 1) jm ltac:(lia) Hjm) as [-> _]. rewrite (rs_nan h R).
  destruct (isnan _); [split; [discriminate|auto]|].
  destruct (if o_distance_only o then _ else _) as [mp|e| | |]; cbn [bind];
    try (split; [discriminate|intros e' Ee; try discriminate Ee; injection Ee as <-; reflexivity]).
  destruct (o_open_begin o && o_distance_only o); [split; [discriminate|auto]|].
  split; [|discriminate]. intros d Ed. injection Ed as <-. eexists. split; [reflexivity|]. unfold result.
  cbn [r_distance r_normalizedDistance r_jmin r_map r_costMatrix r_directionMatrix map_mat nr nc].
  split; [reflexivity|]. split.
  { destruct (String.eqb (hint sp) "NA"); [symmetry; apply (rs_nan0 h R)|]. apply normalized_scale. exact w7. }
  split; [reflexivity|]. split; [reflexivity|]. split; [|reflexivity].
  destruct (o_keep_internals o); [|reflexivity]. cbn [option_map]. f_equal.
  destruct (o_open_begin o); [|reflexivity]. unfold drop_first_row, map_mat. cbn [nr nc dat]. f_equal.
  rewrite skipn_map. reflexivity.
Qed.
End Scale.
End Thm7.
