(** Thm34.v - the arguments of windows (C73). *)
From Verif Require Import Base Num StepPattern Window Core Backtrack Dtw Api ApiProof ApiThms DtwProof Thm4 Thm5 Thm31 Vocab ArgSpec.
Import ListNotations.
Open Scope string_scope.
Open Scope list_scope.

Section Args.
Context {N : Num}.

Lemma bind_takes (w : winfun N) kw : bind_window w kw = Ok tt -> takes w kw.
Proof.
  destruct w, kw as [|[k v] [|? ?]]; cbn [bind_window takes]; try discriminate; auto;
    destruct (String.eqb_spec k "window_size") as [->|]; try discriminate; eauto.
Qed.
Lemma not_takes (w : winfun N) kw : ~ takes w kw -> bind_window w kw = Raise TypeError.
Proof.
  destruct w, kw as [|[k v] [|? ?]]; cbn [bind_window takes]; intros H; try reflexivity; try (exfalso; apply H; reflexivity);
    try (exfalso; apply H; exact I);
    (destruct (String.eqb_spec k "window_size") as [->|]; [exfalso; apply H; eauto|reflexivity]).
Qed.
Lemma not_takes_matrix (w : winfun N) kw n m : w <> NoWindow -> ~ takes w kw -> window_matrix w n m kw = Raise TypeError.
Proof.
  intros Hn H. unfold window_matrix. rewrite (not_takes w kw H). destruct w; try reflexivity. contradiction.
Qed.

Theorem window_args_needed cdist x y (o : opts N) w d : window_of (o_window_type o) w -> w <> NoWindow ->
  dtw cdist x y o = Ok d -> takes w (o_window_args o).
Proof.
  intros Hw Hn H. unfold dtw in H.
  match type of H with bind ?a _ = _ => destruct a as [[[lm cb] qr]| | | |]; cbn [bind] in H; try discriminate end.
  destruct (canonicalizeStepPattern _) as [sp| | | |]; cbn [bind] in H; try discriminate.
  rewrite (window_of_canon _ _ Hw) in H. unfold dtw_lm in H.
  match type of H with bind ?a _ = _ => destruct a as [[[lm1 pc] cb1]| | | |]; cbn [bind] in H; try discriminate end.
  unfold globalCostMatrix in H. unfold window_matrix in H.
  destruct (bind_window w (o_window_args o)) as [[]| | | |] eqn:Eb; [apply bind_takes; exact Eb| | | |]; destruct w; try contradiction; discriminate.
Qed.

Lemma dtw_type_error cdist x y (o : opts N) lm sp w : costs_of cdist x y lm -> pattern_of (o_step_pattern o) sp ->
  canonicalizeWindowFunction (o_window_type o) = w -> w <> NoWindow -> ~ takes w (o_window_args o) ->
  (o_open_begin o = true -> hint sp = "N") -> dtw cdist x y o = Raise TypeError.
Proof.
  intros HC Hs Hw Hn Ht Ho. rewrite (dtw_entry _ _ _ _ _ HC). apply pattern_of_ok in Hs. rewrite Hs. cbn [bind].
  rewrite Hw. unfold dtw_lm. destruct (o_open_begin o).
  - rewrite (Ho eq_refl). cbn [negb bind]. change (String.eqb "N" "N") with true. cbn [negb bind].
    unfold globalCostMatrix. rewrite not_takes_matrix by assumption. reflexivity.
  - cbn [bind]. unfold globalCostMatrix. rewrite not_takes_matrix by assumption. reflexivity.
Qed.

Theorem window_args_rejected cdist x y (o : opts N) lm sp w : costs_of cdist x y lm -> pattern_of (o_step_pattern o) sp ->
  window_of (o_window_type o) w -> w <> NoWindow -> ~ takes w (o_window_args o) ->
  (o_open_begin o = true -> hint sp = "N") -> dtw cdist x y o = Raise TypeError.
Proof. intros HC Hs Hw. apply (dtw_type_error cdist x y o lm sp w HC Hs). apply window_of_canon; exact Hw. Qed.

Theorem unknown_window_type_error cdist x y (o : opts N) lm sp nm : costs_of cdist x y lm -> pattern_of (o_step_pattern o) sp ->
  o_window_type o = WTName nm -> nm <> "none" -> nm <> "sakoechiba" -> nm <> "itakura" -> nm <> "slantedband" ->
  (o_open_begin o = true -> hint sp = "N") -> dtw cdist x y o = Raise TypeError.
Proof.
  intros HC Hs Hw H1 H2 H3 H4. apply (dtw_type_error cdist x y o lm sp ErrLambda HC Hs).
  - rewrite Hw. unfold canonicalizeWindowFunction.
    destruct (String.eqb_spec nm "none"); [contradiction|]. destruct (String.eqb_spec nm "sakoechiba"); [contradiction|].
    destruct (String.eqb_spec nm "itakura"); [contradiction|]. destruct (String.eqb_spec nm "slantedband"); [contradiction|]. reflexivity.
  - discriminate.
  - intros [].
Qed.

Theorem unknown_pattern_attribute_error cdist x y (o : opts N) lm nm : costs_of cdist x y lm ->
  o_step_pattern o = SPName nm -> lookup nm (@pattern_table N) = None -> dtw cdist x y o = Raise AttributeError.
Proof.
  intros HC Hs Hl. rewrite (dtw_entry _ _ _ _ _ HC). rewrite Hs. unfold canonicalizeStepPattern. rewrite Hl. reflexivity.
Qed.

Theorem window_args_ignored cdist x y (o : opts N) kw1 kw2 : window_of (o_window_type o) NoWindow ->
  same_but_args (dtw cdist x y (with_args o kw1)) (dtw cdist x y (with_args o kw2)).
Proof.
  intros Hw. unfold dtw.
  match goal with |- same_but_args (bind ?a _) _ => destruct a as [[[lm cb] qr]|e| | |]; cbn [bind]; try constructor end.
  cbn [with_args o_step_pattern].
  destruct (canonicalizeStepPattern _) as [sp|e| | |]; cbn [bind]; try constructor.
  cbn [with_args o_window_type]. rewrite (window_of_canon _ _ Hw). unfold dtw_lm. cbn [with_args o_open_begin o_window_args o_open_end o_distance_only o_keep_internals].
  match goal with |- same_but_args (bind ?a _) _ => destruct a as [[[lm1 pc] cb1]|e| | |]; cbn [bind]; try constructor end.
  assert (E : globalCostMatrix cb1 lm1 sp NoWindow pc kw1 = globalCostMatrix cb1 lm1 sp NoWindow pc kw2) by reflexivity.
  rewrite E. destruct (globalCostMatrix cb1 lm1 sp NoWindow pc kw2) as [[cmx dmx]|e| | |]; cbn [bind]; try constructor.
  match goal with |- same_but_args (bind ?a _) _ => destruct a as [j|e| | |]; cbn [bind]; try constructor end.
  match goal with |- same_but_args (bind ?a _) _ => destruct a as [v|e| | |]; cbn [bind]; try constructor end.
  destruct (isnan v); [constructor|].
  match goal with |- same_but_args (bind ?a _) _ => destruct a as [nd|e| | |]; cbn [bind]; try constructor end.
  match goal with |- same_but_args (bind ?a _) _ => destruct a as [mp|e| | |]; cbn [bind]; try constructor end.
  match goal with |- same_but_args (bind ?a _) _ => destruct a as [[[[m1 m2] m3] m4]|e| | |]; cbn [bind]; constructor end.
Qed.
End Args.
