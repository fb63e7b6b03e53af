(** Thm14.v - memory safety: every call with a well-formed pattern returns or raises;
    what happens for malformed patterns and oversized problems. *)
From Coq Require Import ZifyBool ZifyNat.
From Verif Require Import Base Num StepPattern Window Core Backtrack Dtw Spec Api Tables Vocab Terms
  CoreProof DPProof DtwProof ApiProof ApiThms Thm7.
Open Scope string_scope.
Open Scope list_scope.
Open Scope nat_scope.


Lemma safe_bind {A B} (r : out A) (f : A -> out B) : safe r -> (forall a, r = Ok a -> safe (f a)) -> safe (bind r f).
Proof. intros [[a ->]|[e ->]] H; [apply H; reflexivity|right; exists e; reflexivity]. Qed.
Lemma safe_ok {A} (a : A) : safe (Ok a). Proof. left. eauto. Qed.
Lemma safe_raise {A} e : safe (@Raise A e). Proof. right. eauto. Qed.
#[export] Hint Resolve safe_ok safe_raise : core.

Section Thm14.
Context {N : Num}.
Variable L : NumLaws N.


Lemma safe_call w i j n m (kw : kwargs N) : safe_window w -> safe (call_window w i j n m kw).
Proof.
  destruct w; cbn [safe_window call_window]; intros H; auto.
  - destruct kw; auto.
  - destruct kw as [|[k v] [|? ?]]; auto. destruct (String.eqb k _); auto.
  - destruct kw; auto.
  - destruct kw as [|[k v] [|? ?]]; auto. destruct (String.eqb k _); auto.
Qed.
Lemma safe_mapM {A B} (f : A -> out B) l : (forall x, safe (f x)) -> safe (mapM f l).
Proof.
  intros H. induction l as [|a l IH]; [apply safe_ok|]. cbn [mapM]. apply safe_bind; [apply H|].
  intros y _. apply safe_bind; [exact IH|]. auto.
Qed.
Lemma safe_window_matrix w n m (kw : kwargs N) : safe_window w -> safe (window_matrix w n m kw).
Proof.
  intros H. unfold window_matrix.
  assert (B : safe (bind_window w kw)).
  { destruct w, kw as [|[k v] [|? ?]]; cbn [bind_window]; auto; destruct (String.eqb k "window_size"); auto. }
  destruct w; auto; (apply safe_bind; [exact B|intros _ _]); apply safe_mapM; intros [i j]; (apply safe_bind;
    [apply safe_call; exact H|auto]).
Qed.

Lemma safe_gcm_small cbuf (lm : mat N) sp w seed kw : safe_window w ->
  cbuf = false \/ nr lm = 0 \/ nc lm = 0 ->
  safe (globalCostMatrix cbuf lm sp w seed kw).
Proof.
  intros Hw Hc. unfold globalCostMatrix. apply safe_bind; [apply safe_window_matrix; exact Hw|]. intros wm _.
  apply safe_bind.
  { destruct seed; auto. destruct (mget lm 0 0); auto. }
  intros cm _. unfold computeCM_wrapper. destruct cbuf; [|apply safe_raise]. cbn [negb].
  destruct Hc as [Hc|[Hc|Hc]]; [discriminate| |]; rewrite Hc; cbn [Nat.eqb orb]; [apply safe_raise|].
  rewrite orb_true_r. apply safe_raise.
Qed.

Lemma safe_dtw_lm cbuf (lm : mat N) qr sp rules w o : pattern_rules sp rules -> wf_mat lm -> safe_window w ->
  (Z.of_nat (rows_used (o_open_begin o) lm) * Z.of_nat (nc lm) <= INT_MAX)%Z ->
  safe (dtw_lm cbuf lm qr sp w o).
Proof.
  intros Hp Hwf Hsw Hsz.
  destruct (dtw_lm_cases cbuf lm qr sp w o) as [[_ [_ ->]]|[Hh E]]; [apply safe_raise|].
  assert (Small : (o_open_begin o = false /\ cbuf = false) \/ nr (p_lm o lm) = 0 \/ nc lm = 0 \/
      ((o_open_begin o = true \/ cbuf = true) /\ 0 < nr (p_lm o lm) /\ 0 < nc lm)).
  { destruct (o_open_begin o), cbuf; destruct (nr (p_lm o lm)); destruct (nc lm); auto 10; right; right; right; split; auto; lia. }
  destruct Small as [Sm|[Sm|[Sm|[Hcb [Hr Hc]]]]].
  { destruct Sm as [Ob Cb]. rewrite E. apply safe_bind.
    - apply safe_gcm_small; [exact Hsw|]. rewrite Ob, Cb. auto.
    - intros [cmx dmx] G. exfalso. revert G. rewrite Ob, Cb. unfold globalCostMatrix.
      destruct (window_matrix _ _ _ _) as [?| | | |]; cbn [bind]; try discriminate.
      destruct (mget lm 0 0); cbn [bind]; discriminate. }
  { unfold p_lm in Sm. rewrite E. apply safe_bind.
    - apply safe_gcm_small; [exact Hsw|]. destruct (o_open_begin o); [cbn in Sm; lia|auto].
    - intros [cmx dmx] G. exfalso. revert G. destruct (o_open_begin o); [cbn in Sm; lia|]. unfold globalCostMatrix.
      destruct (window_matrix _ _ _ _) as [?| | | |]; cbn [bind]; try discriminate.
      destruct (mget lm 0 0); cbn [bind]; [|discriminate]. unfold computeCM_wrapper. rewrite Sm. destruct cbuf; discriminate. }
  { assert (E0 : nc (if o_open_begin o then Mat (nr lm + 1) (nc lm) (repeat (@ofZ N 0) (nc lm) ++ dat lm) else lm) = 0) by (destruct (o_open_begin o); exact Sm).
    rewrite E. apply safe_bind.
    - apply safe_gcm_small; [exact Hsw|]. right. right. exact E0.
    - intros [cmx dmx] G. exfalso. revert G. unfold globalCostMatrix.
      destruct (window_matrix _ _ _ _) as [?| | | |]; cbn [bind]; try discriminate.
      match goal with |- context [bind ?a _] => destruct a as [?| | | |] end; cbn [bind]; try discriminate.
      unfold computeCM_wrapper. rewrite E0. cbn [Nat.eqb]. rewrite orb_true_r. cbn [orb]. match goal with |- context [negb ?b] => destruct (negb b) end; intros G; discriminate G. }
  assert (Hwf' : wf_mat (p_lm o lm)) by (unfold p_lm; destruct (o_open_begin o); [apply padded_wf|]; exact Hwf).
  assert (Hss : seed_spec (p_lm o lm) (p_seedm o lm) (p_seed o lm)).
  { unfold p_lm, p_seedm, p_seed. destruct (o_open_begin o); [apply pseed_spec|reflexivity]. }
  rewrite rows_used_p in Hsz.
  assert (Hsz' : size_ok (nr (p_lm o lm)) (nc (p_lm o lm))).
  { rewrite p_lm_nc. split; [exact Hr|]. split; [exact Hc|exact Hsz]. }
  destruct (safe_window_matrix w (nr (p_lm o lm)) (nc (p_lm o lm)) (o_window_args o) Hsw) as [[wm Ew]|[e Ew]].
  - pose proof (window_matrix_total _ _ _ _ _ Ew) as Ht.
    destruct (gcm_run L (p_lm o lm) sp w (p_seedm o lm) (o_window_args o) rules (p_seed o lm) Hp Hwf' Hss Hsz' Ht)
      as [cm [sm [cmf [smf [win [Eg [Rc [Rs [Hws HB]]]]]]]]].
    rewrite p_lm_nc in *.
    rewrite (dtw_lm_finish_any cbuf lm qr sp w o cm sm cmf Hh Hcb Hr Hc Eg Rc).
    unfold finish_any. apply safe_bind.
    { unfold choose. destruct (o_open_end o); auto. destruct (String.eqb _ _); auto. unfold nanargmin.
      destruct (forallb _ _); auto. destruct (map _ (map _ _)); auto. }
    intros j Hj.
    assert (Hjm : j < nc lm).
    { unfold choose in Hj. destruct (o_open_end o).
      - destruct (String.eqb _ _); [discriminate|]. apply nanargmin_bound in Hj. rewrite map_length, seq_length in Hj. exact Hj.
      - injection Hj as <-. lia. }
    destruct (isnan _) eqn:En; auto.
    apply safe_bind.
    { destruct (o_distance_only o); auto.
      destruct (backtrack_ok L rules sp (nr (p_lm o lm)) (nc lm) (cell (p_lm o lm)) (p_seed o lm) win cmf smf (Mat (nr (p_lm o lm)) (nc lm) sm) Hp HB eq_refl eq_refl Rs j Hr Hjm En)
        as [ks [vs [ts [_ [_ [_ Eb]]]]]].
      rewrite Eb. cbn [bind]. auto. }
    intros mp _. destruct (o_open_begin o && o_distance_only o); auto.
  - rewrite E. apply safe_bind; [|intros [cmx dmx] G].
    + right. exists e. unfold globalCostMatrix. unfold p_lm, padded in Ew. destruct (o_open_begin o); cbn [nr nc] in *; rewrite Ew; reflexivity.
    + exfalso. revert G. unfold globalCostMatrix. unfold p_lm, padded in Ew. destruct (o_open_begin o); cbn [nr nc] in *; rewrite Ew; discriminate.
Qed.

(** C37 *)
Theorem always_returns cdist x y (o : opts N) :
  (forall a b, safe (cdist a b)) -> (forall a b lm, cdist a b = Ok lm -> wf_mat lm) ->
  (forall lm, nd_val x = Nd2 lm -> wf_mat lm) ->
  (forall sp, pattern_of (o_step_pattern o) sp -> exists rules, pattern_rules sp rules) ->
  (forall w, o_window_type o = WTFun w -> safe_window w) ->
  (forall lm, costs_of cdist x y lm -> (Z.of_nat (rows_used (o_open_begin o) lm) * Z.of_nat (nc lm) <= INT_MAX)%Z) ->
  safe (dtw cdist x y o).
Proof.
  intros Hc Hcw Hx Hp Hw Hsz.
  assert (Hsw : safe_window (canonicalizeWindowFunction (o_window_type o))).
  { destruct (o_window_type o) as [|s|w]; cbn [canonicalizeWindowFunction]; [exact I| |apply Hw; reflexivity].
    repeat (destruct (String.eqb s _); [exact I|]). exact I. }
  assert (Main : forall lm, costs_of cdist x y lm -> safe (dtw cdist x y o)).
  { intros lm HC. rewrite (dtw_entry _ _ _ _ _ HC). apply safe_bind.
    - destruct (o_step_pattern o); cbn [canonicalizeStepPattern]; auto. destruct (lookup _ _); auto.
    - intros sp Esp.
      assert (Hps : pattern_of (o_step_pattern o) sp).
      { destruct (o_step_pattern o) as [s|k]; cbn [canonicalizeStepPattern] in Esp.
        - injection Esp as <-. constructor.
        - destruct (lookup k pattern_table) eqn:El; [|discriminate]. injection Esp as <-. constructor. exact El. }
      destruct (Hp sp Hps) as [rules Hr]. apply safe_dtw_lm with (rules := rules); auto.
      exact (costs_of_wf _ _ _ _ HC). }
  destruct y as [y|].
  - unfold dtw. destruct (ndim_gt2 (nd_val x) || ndim_gt2 (nd_val y)) eqn:Ed; [apply safe_raise|].
    destruct (as_column (nd_val x)) as [v|l|xm|k] eqn:E1; try apply safe_raise.
    destruct (as_column (nd_val y)) as [v|l|ym|k] eqn:E2; try apply safe_raise.
    destruct (Hc xm ym) as [[lm El]|[e El]].
    + assert (HC : costs_of cdist x (Some y) lm).
      { econstructor; [| |exact El|eapply Hcw; exact El].
        - destruct (nd_val x); cbn in E1; try discriminate; injection E1 as <-; reflexivity.
        - destruct (nd_val y); cbn in E2; try discriminate; injection E2 as <-; reflexivity. }
      pose proof (Main lm HC) as M. unfold dtw in M. rewrite Ed, E1, E2 in M. exact M.
    + rewrite El. cbn [bind]. apply safe_raise.
  - destruct (nd_val x) as [v|l|lm|k] eqn:Ex.
    + unfold dtw. rewrite Ex. apply safe_raise.
    + unfold dtw. rewrite Ex. apply safe_raise.
    + apply (Main lm). constructor; [exact Ex|apply Hx; reflexivity].
    + unfold dtw. rewrite Ex. apply safe_raise.
Qed.
End Thm14.
