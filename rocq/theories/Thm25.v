(** Thm25.v - lower and upper bounds that need no dynamic programming (proofs for C54). *)
From Coq Require Import ZifyBool ZifyNat.
From Verif Require Import Base Num StepPattern Window Core Backtrack Dtw Spec Api Tables Vocab Terms
  NumQ NumQLaws NumF NumFLaws CoreProof DtwProof ApiThms Thm1 Thm3 Thm5 Thm10 Derived SeriesSpec ZeroSum Thm23 Thm24.
Open Scope string_scope.
Open Scope list_scope.
Open Scope nat_scope.

Lemma modelled_growing N : modelled N -> growing N.
Proof. intros [->|[->| ->]]; auto using growing_Q, growing_F, growing_FMA. Qed.

Section Lower.
Context {N : Num}.
Variable L : NumLaws N.
Hypothesis G : growing N.
Variable rules : list (rule N).
Hypothesis Hr : row_steps rules.
Variable lm : mat N.
Variable allowed : nat -> nat -> Prop.
Variable lb : nat -> N.
Hypothesis Hlb : forall i j, i < nr lm -> j < nc lm -> (i = 0 /\ j = 0) \/ allowed i j ->
  isnan (cell lm i j) = true \/ (leb (ofZ 0) (lb i) = true /\ leb (lb i) (cell lm i j) = true).
Notation walkl := (walk rules (cell lm) (nr lm) (nc lm) (closed_source lm) allowed).

Lemma lower_walk ks vs ts q c : walkl ks vs ts q c -> usable ks c -> leb (running_sum (ofZ 1) lb (fst q)) c = true.
Proof.
  intros W. induction W as [i j c Hs Hi Hj|ks vs ts i0 j0 c kk r W IH Hk Hi Hj Ha]; intros [U1 U2]; cbn [fst].
  - unfold closed_source in Hs. destruct (_ && _) eqn:E; [|discriminate]. assert (c = cell lm 0 0) as -> by congruence.
    assert (i = 0) by lia. assert (j = 0) by lia. subst i j. cbn [running_sum].
    destruct (Hlb 0 0 Hi Hj ltac:(auto)) as [Hn|[_ H]]; [congruence|exact H].
  - apply rule_no_in in Hk. destruct (Hr r Hk) as [Hd [k [Hk12 Ea]]]. unfold charge in *. rewrite Ea in *. cbn [fold_left fst snd] in *.
    rewrite !Nat.sub_0_r in *.
    assert (Hg : good (macc c (ofZ k) (cell lm (i0 + r_di r) (j0 + r_dj r)))) by (apply U2; destruct ks; discriminate).
    pose proof (law_macc_good _ L _ _ _ Hg) as Gc.
    assert (Wk : leb (ofZ 0) (@ofZ N k) = true) by (rewrite (law_le_ofZ _ L) by lia; lia).
    pose proof (law_macc_obstacle _ L _ _ _ Wk Hg) as Gx. apply (law_good_not_nan _ L) in Gx.
    destruct (Hlb _ _ Hi Hj (or_intror Ha)) as [Hn|[P1 P2]]; [congruence|].
    assert (Hle : leb (running_sum (ofZ 1) lb i0) c = true).
    { apply IH. split; [apply (law_good_not_nan _ L); exact Gc|auto]. }
    assert (Px : leb (ofZ 0) (cell lm (i0 + r_di r) (j0 + r_dj r)) = true) by (eapply (law_le_trans _ L); eauto).
    destruct G as [G1 G2].
    destruct (r_di r) as [|[|n]] eqn:Ed; [| |lia].
    + rewrite Nat.add_0_r. eapply (law_le_trans _ L); [exact Hle|]. rewrite Nat.add_0_r in *. apply G1; auto.
    + rewrite !Nat.add_1_r in *. cbn [running_sum]. set (s := running_sum (ofZ 1) lb i0) in *.
      set (xx := cell lm (S i0) (j0 + r_dj r)) in *.
      assert (M1 : leb (macc s (ofZ k) xx) (macc c (ofZ k) xx) = true) by (apply (law_macc_mono _ L); auto).
      assert (Gs : good (macc s (ofZ k) xx)) by (unfold good in *; eapply (law_le_lt_trans _ L); eauto).
      assert (M2 : leb (macc s (ofZ 1) xx) (macc s (ofZ k) xx) = true).
      { destruct Hk12 as [-> | ->]; [|apply G2; auto]. apply (law_le_refl _ L), (law_good_not_nan _ L). exact Gs. }
      assert (Gs1 : good (macc s (ofZ 1) xx)) by (unfold good in *; eapply (law_le_lt_trans _ L); eauto).
      assert (M3 : leb (macc s (ofZ 1) (lb (S i0))) (macc s (ofZ 1) xx) = true).
      { apply (law_macc_mono_x _ L); auto. rewrite (law_le_ofZ _ L) by lia. lia. }
      eapply (law_le_trans _ L); [exact M3|]. eapply (law_le_trans _ L); [exact M2|exact M1].
Qed.
End Lower.

Theorem row_lower_bound (N : Num) cdist x y o (lm : mat N) d rules lb :
  modelled N -> costs_of cdist x y lm -> dtw cdist x y o = Ok d -> pattern_rules (r_stepPattern d) rules ->
  row_steps rules -> o_open_begin o = false ->
  (forall i j, i < nr lm -> j < nc lm ->
     (i = 0 /\ j = 0) \/ in_window (r_windowFunction d) (r_windowArgs d) (nr lm) (nc lm) i j ->
     isnan (cell lm i j) = true \/ (leb (ofZ 0) (lb i) = true /\ leb (lb i) (cell lm i j) = true)) ->
  leb (running_sum (ofZ 1) lb (nr lm - 1)) (r_distance d) = true.
Proof.
  intros HN HC Hd Hp Hr Hob Hlb. destruct (modelled_laws N HN) as [L _].
  destruct (dtw_best L _ _ _ _ _ _ _ HC Hd Hp) as [[ks [vs [ts [W U]]]] _]. rewrite Hob in W. cbn [admissible end_cell] in W.
  exact (lower_walk L (modelled_growing N HN) rules Hr lm _ lb Hlb _ _ _ _ _ W U).
Qed.

(** ** The lock-step alignment *)
Section Upper.
Context {N : Num}.
Variable L : NumLaws N.

Lemma lock_walk rules (lm : mat N) (allowed : nat -> nat -> Prop) w n : 0 < nr lm -> nr lm = nc lm -> In (Rule 1 1 [(0, 0, w)]) rules ->
  (forall i, 0 < i < nr lm -> allowed i i) -> n < nr lm ->
  exists ks vs ts, walk rules (cell lm) (nr lm) (nc lm) (closed_source lm) allowed ks vs ts (n, n)
    (running_sum w (fun i => cell lm i i) n).
Proof.
  intros H0 Hsq Hin Ha. induction n as [|n IH]; intros Hn.
  - exists [], [(0, 0)], [(0, 0)]. apply walk_start; [reflexivity|lia|lia].
  - destruct (IH ltac:(lia)) as [ks [vs [ts W]]]. destruct (in_rule_no _ _ Hin) as [k Hk].
    pose proof (walk_step _ _ _ _ _ _ ks vs ts n n _ k _ W Hk) as S. cbn [r_di r_dj] in S. rewrite Nat.add_1_r in S.
    unfold charge in S. cbn [r_add fold_left fst snd] in S. rewrite !Nat.sub_0_r in S.
    eexists _, _, _. cbn [running_sum]. apply S; [lia|lia|]. apply Ha. lia.
Qed.

Theorem lock_upper_bound cdist x y o (lm : mat N) d rules w :
  costs_of cdist x y lm -> dtw cdist x y o = Ok d -> pattern_rules (r_stepPattern d) rules ->
  In (Rule 1 1 [(0, 0, w)]) rules -> o_open_begin o = false -> o_open_end o = false -> 0 < nr lm -> nr lm = nc lm ->
  (forall i, 0 < i < nr lm -> in_window (r_windowFunction d) (r_windowArgs d) (nr lm) (nc lm) i i) ->
  good (running_sum w (fun i => cell lm i i) (nr lm - 1)) ->
  leb (r_distance d) (running_sum w (fun i => cell lm i i) (nr lm - 1)) = true.
Proof.
  intros HC Hd Hp Hin Hob Hoe Hq Hsq Hw Hg.
  destruct (dtw_fields L _ _ _ _ _ _ _ HC Hd Hp) as [_ [_ [_ [_ [_ [_ [_ [Fj0 [Fj _]]]]]]]]]. specialize (Fj Hoe).
  destruct (dtw_best L _ _ _ _ _ _ _ HC Hd Hp) as [_ Hmin]. rewrite Hob, Fj in Hmin. cbn [admissible end_cell] in Hmin.
  destruct (lock_walk rules lm _ w (nr lm - 1) Hq Hsq Hin Hw ltac:(lia)) as [ks [vs [ts W]]].
  eapply Hmin; [unfold closed_walk; rewrite <- Hsq; rewrite <- Hsq in W; exact W|].
  split; [apply (law_good_not_nan _ L); exact Hg|auto].
Qed.
End Upper.

(** ** Which patterns *)
Lemma row_of_table {N : Num} l :
  forallb (fun r => (w_di r <=? 1) && match w_add r with [(0, 0, (k, 1%Z))] => (k =? 1)%Z || (k =? 2)%Z | _ => false end) l = true ->
  row_steps (@productions N l).
Proof.
  intros H r Hr. apply in_map_iff in Hr. destruct Hr as [w [<- Hw]]. rewrite forallb_forall in H. specialize (H w Hw).
  apply andb_prop in H as [H1 H2]. unfold production. cbn [r_add r_di]. split; [lia|].
  destruct (w_add w) as [|[[[|] [|]] [k [|[| |]|]]] [|]]; try discriminate. exists k. split; [lia|reflexivity].
Qed.
Theorem row_by_row_predefined {N : Num} k l :
  In k ["symmetric1"; "symmetric2"; "symmetricP0"; "asymmetric"; "rigid"] -> lookup k predefined = Some l ->
  row_steps (@productions N l).
Proof.
  intros Hk Hl. apply row_of_table. revert l Hl.
  repeat (destruct Hk as [<-|Hk]; [intros l Hl; vm_compute in Hl; injection Hl as <-; reflexivity|]). destruct Hk.
Qed.
Theorem row_by_row_mvm {N : Num} e : row_steps (@productions N (mvm_productions e)).
Proof.
  apply row_of_table. apply forallb_forall. intros r Hr. apply in_map_iff in Hr. destruct Hr as [k [<- _]]. reflexivity.
Qed.
Theorem lock_step_predefined {N : Num} k l w :
  In (k, w) [("symmetric1", 1); ("symmetric2", 2); ("symmetricP0", 2); ("asymmetric", 1); ("typeIIa", 1); ("rigid", 1)]%Z ->
  lookup k predefined = Some l -> In (@Rule N 1 1 [(0, 0, ofZ w)]) (productions l).
Proof.
  intros Hk. revert l.
  repeat (destruct Hk as [E|Hk];
    [injection E as <- <-; intros l Hl; vm_compute in Hl; injection Hl as <-; cbn; repeat first [left; reflexivity|right]|]).
  destruct Hk.
Qed.
