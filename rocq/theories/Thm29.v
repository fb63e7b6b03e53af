(** Thm29.v - open_begin with the asymmetric pattern finds the best suffix of the reference (C60). *)
From Coq Require Import ZifyBool ZifyNat.
From Verif Require Import Base Num StepPattern Window Core Backtrack Dtw Spec Api Tables Vocab Terms NumQ NumQLaws
  CoreProof DPProof DtwProof ApiProof ApiThms Uniq Thm1 Thm2 Thm3 Thm5 Thm7 Derived SeriesSpec Thm23.
Open Scope string_scope.
Open Scope list_scope.
Open Scope nat_scope.

Lemma trailing_wf {N : Num} (lm : mat N) s : wf_mat (trailing lm s).
Proof. unfold wf_mat, trailing. cbn [nr nc dat]. rewrite map_length. apply indices_length. Qed.
Lemma trailing_cell {N : Num} (lm : mat N) s i j : i < nr lm -> j < nc lm - s -> cell (trailing lm s) i j = cell lm i (s + j).
Proof.
  intros Hi Hj. unfold cell at 1. rewrite (mget_reps (trailing lm s) (fun i j => cell lm i (s + j))); auto.
  unfold trailing. cbn [nr nc dat]. apply (reps_map _ _ (fun i j => cell lm i (s + j))).
Qed.

Section Suffix.
Variable rules : list (rule NumQ).

Definition right (s : nat) (p : point) : point := (fst p, s + snd p).
Definition left (s : nat) (p : point) : point := (fst p, snd p - s).

Lemma links_right s (l : list point) : links (hop rules) l -> links (hop rules) (map (right s) l).
Proof.
  intros H. refine (links_map _ _ (right s) _ _ H). intros a b _ _ [r [Hr [E1 E2]]]. exists r. unfold right. cbn [fst snd]. split; [exact Hr|]. lia.
Qed.
Lemma links_left s (l : list point) : (forall p, In p l -> s <= snd p) -> links (hop rules) l -> links (hop rules) (map (left s) l).
Proof.
  intros Hs H. refine (links_map _ _ (left s) _ _ H). intros a b Ha Hb [r [Hr [E1 E2]]]. exists r. unfold left. cbn [fst snd].
  pose proof (Hs a Ha). split; [exact Hr|]. lia.
Qed.
Lemma hops_right (l : list point) p : links (hop rules) (p :: l) -> forall q, In q (p :: l) -> snd p <= snd q.
Proof.
  revert p. induction l as [|p' l IH]; intros p H q [<-|Hq]; try lia; [destruct Hq|].
  destruct H as [[r [_ [_ E]]] H]. specialize (IH p' H q Hq). lia.
Qed.
Lemma sumc_right (lm : mat NumQ) s (l : list point) : (forall p, In p l -> fst p < nr lm /\ snd p < nc lm - s) ->
  sumc lm (map (right s) l) = sumc (trailing lm s) l.
Proof.
  induction l as [|p l IH]; intros Hb; [reflexivity|]. unfold sumc. cbn [map fold_right].
  fold (sumc lm (map (right s) l)). fold (sumc (trailing lm s) l). rewrite IH by (intros; apply Hb; right; assumption). f_equal.
  destruct (Hb p (or_introl eq_refl)). rewrite trailing_cell by assumption. reflexivity.
Qed.
Lemma right_left s (l : list point) : (forall p, In p l -> s <= snd p) -> map (right s) (map (left s) l) = l.
Proof.
  intros H. rewrite map_map. rewrite <- (map_id l) at 2. apply map_ext_in. intros [a b] Hp. unfold right, left. cbn [fst snd].
  specialize (H _ Hp). cbn [snd] in H. f_equal. lia.
Qed.
Lemma last_map {A B} (f : A -> B) l a b : l <> [] -> last (map f l) b = f (last l a).
Proof. intros H. destruct (exists_last H) as [u [z ->]]. rewrite map_app. cbn [map]. rewrite !last_last. reflexivity. Qed.

Lemma aligned_right oe (lm : mat NumQ) s p t : s < nc lm -> aligned rules false oe (trailing lm s) p t ->
  aligned rules true oe lm (right s p) (map (right s) t) /\ sumc lm (map (right s) (p :: t)) = sumc (trailing lm s) (p :: t).
Proof.
  intros Hs [Hl [Hb [[F1 F2] [F3 F4]]]]. cbn [trailing nr nc] in Hb, F3, F4. split; [|apply sumc_right; exact Hb].
  split; [exact (links_right s _ Hl)|]. split.
  { intros q Hq. change (right s p :: map (right s) t) with (map (right s) (p :: t)) in Hq. apply in_map_iff in Hq. destruct Hq as [z [<- Hz]].
    destruct (Hb z Hz). unfold right. cbn [fst snd]. lia. }
  split. { split; [exact F1|discriminate]. }
  change (right s p :: map (right s) t) with (map (right s) (p :: t)).
  rewrite (@last_map point point (right s) _ (0, 0) (0, 0)) by discriminate. unfold right at 1 2. cbn [fst snd]. split; [exact F3|].
  intros E. specialize (F4 E). unfold point in *. rewrite F4. lia.
Qed.
Lemma aligned_left oe (lm : mat NumQ) p t : aligned rules true oe lm p t ->
  aligned rules false oe (trailing lm (snd p)) (left (snd p) p) (map (left (snd p)) t) /\
  sumc (trailing lm (snd p)) (map (left (snd p)) (p :: t)) = sumc lm (p :: t).
Proof.
  intros [Hl [Hb [[F1 F2] [F3 F4]]]]. pose proof (hops_right _ _ Hl) as Hge. set (s := snd p) in *.
  assert (Hb' : forall q, In q (map (left s) (p :: t)) -> fst q < nr lm /\ snd q < nc lm - s).
  { intros q Hq. apply in_map_iff in Hq. destruct Hq as [z [<- Hz]]. destruct (Hb z Hz). specialize (Hge z Hz). unfold left. cbn [fst snd]. lia. }
  split; [|rewrite <- sumc_right by exact Hb'; rewrite right_left by exact Hge; reflexivity].
  split; [exact (links_left s _ Hge Hl)|]. split; [exact Hb'|].
  split. { split; [exact F1|]. intros _. unfold left. cbn [snd]. fold s. lia. }
  change (left s p :: map (left s) t) with (map (left s) (p :: t)). cbn [trailing nr nc].
  rewrite (@last_map point point (left s) _ (0, 0) (0, 0)) by discriminate. unfold left at 1 2. cbn [fst snd]. split; [exact F3|].
  intros E. specialize (F4 E). unfold point in *. rewrite F4. lia.
Qed.

Lemma unit_ts cost n m source allowed ks vs ts q c : unit_rules rules ->
  walk rules cost n m source allowed ks vs ts q c -> ts = vs.
Proof.
  intros Hu. induction 1 as [|ks vs ts i0 j0 c k r W IH Hk Hi Hj Ha]; [reflexivity|]. subst.
  unfold inner_points. rewrite (Hu r (rule_no_in _ _ _ Hk)). reflexivity.
Qed.

(** The alignment returned by an open-begin call, as a route starting in the first matched sample *)
Lemma open_route (lm : mat NumQ) kw ks vs ts j c : strides rules -> wf_mat lm -> 0 < nr lm ->
  open_walk rules lm NoWindow kw ks vs ts (nr lm, j) c ->
  ts = vs /\ ks <> [] /\ exists p0 q vs' t, vs = p0 :: q :: vs' /\ aligned rules true true lm (0, snd q) t /\
    snd (last ((0, snd q) :: t) (0, 0)) = j /\ c = sumc lm ((0, snd q) :: t).
Proof.
  intros [Hu [H1 _]] Hw Hn H. split; [exact (unit_ts _ _ _ _ _ _ _ _ _ _ Hu H)|].
  destruct (walk_route _ Hu _ _ _ _ _ _ _ _ _ _ H) as [i [j0 [c0 [t [-> [Hs [-> [Hl [Hb [Hal [Hlen Hlast]]]]]]]]]]].
  unfold open_source in Hs. destruct (i =? 0) eqn:E0; [|discriminate]. assert (c0 = ofZ 0) as -> by congruence. assert (i = 0) by lia. subst i.
  destruct t as [|p t].
  { exfalso. apply (f_equal fst) in Hlast. cbn [fst last] in Hlast. lia. }
  split; [destruct ks; [discriminate|discriminate]|].
  assert (Hge : forall q, In q (p :: t) -> 1 <= fst q) by (intros q Hq; apply (Hal q Hq)).
  assert (Hbq : forall q, In q (map down (p :: t)) -> fst q < nr lm /\ snd q < nc lm).
  { intros q Hq. apply in_map_iff in Hq. destruct Hq as [z [<- Hz]]. specialize (Hge _ Hz). destruct (Hb z (or_intror Hz)).
    unfold down. cbn [fst snd]. lia. }
  destruct Hl as [[r [Hr [E1 E2]]] Hl].
  assert (Ed : down p = (0, snd p)).
  { unfold down. cbn [fst snd] in *. rewrite (H1 r Hr) in E1. f_equal. lia. }
  assert (Elast : last (map down (p :: t)) (0, 0) = (nr lm - 1, j)).
  { destruct (@exists_last point (p :: t) ltac:(discriminate)) as [u [z Ez]]. unfold point in *. rewrite Ez in *.
    rewrite map_app. cbn [map]. rewrite last_last. change ((0, j0) :: u ++ [z]) with (((0, j0) :: u) ++ [z]) in Hlast.
    rewrite last_last in Hlast. subst z. unfold down. reflexivity. }
  exists (0, j0), p, t, (map down t). split; [reflexivity|]. rewrite <- Ed.
  change (down p :: map down t) with (map down (p :: t)).
  split; [|split; [unfold point in *; rewrite Elast; reflexivity|]].
  - unfold aligned. change (down p :: map down t) with (map down (p :: t)). split.
    { refine (links_map _ _ down _ _ Hl).
      intros a b Ha Hb' [r' [Hr' [E3 E4]]]. exists r'. unfold down. cbn [fst snd]. specialize (Hge _ Ha). split; [exact Hr'|]. lia. }
    split; [exact Hbq|]. split; [split; [rewrite Ed; reflexivity|discriminate]|].
    unfold point in *. rewrite Elast. split; [reflexivity|discriminate].
  - rewrite <- (up_down (p :: t)) at 1 by exact Hge. rewrite sumc_padded by (auto; exact Hbq). apply xq_add_0.
Qed.

(** A call succeeds when it has an alignment of finite cost. *)
Lemma route_ok cdist x y o (lm : mat NumQ) sp p t : strides rules ->
  well_posed cdist x y o lm sp rules NoWindow ->
  aligned rules (o_open_begin o) (o_open_end o) lm p t -> good (sumc lm (p :: t)) ->
  exists d, dtw cdist x y o = Ok d /\ r_stepPattern d = sp /\ r_windowFunction d = NoWindow.
Proof.
  intros Hs WP [Al [Ab [Af [Ae Ae2]]]] G. pose proof (wp_query _ _ _ _ _ _ _ _ WP) as Hn.
  assert (Hw : wf_mat lm) by (pose proof (wp_costs _ _ _ _ _ _ _ _ WP) as C; destruct C; assumption).
  set (z := last (p :: t) (0, 0)) in *.
  assert (Hz : In z (p :: t)) by (apply last_in; discriminate). destruct (Ab _ Hz) as [Z1 Z2].
  assert (Ez : last (p :: t) (0, 0) = (nr lm - 1, snd z)) by (unfold point in *; fold z; destruct z; cbn [fst snd] in *; congruence).
  destruct (route_adm (o_open_begin o) rules lm (o_window_args o) p t (snd z) Hs Hw Hn Al Ab Af Ez) as [ks' [vs' [ts' W']]].
  assert (U' : usable ks' (sumc lm (p :: t))).
  { split; [apply (law_good_not_nan _ NumQ_laws); exact G|]. intros _. exact G. }
  destruct (o_open_end o) eqn:Eo.
  - destruct (dtw_open_end_iff NumQ_laws _ _ _ _ _ _ _ _ WP Eo) as [[_ Hno]|[d' [Hd' [Es' [Ew' _]]]]]; [|exists d'; auto].
    exfalso. exact (Hno _ Z2 _ _ _ _ W' U').
  - destruct (dtw_closed_end_iff NumQ_laws _ _ _ _ _ _ _ _ WP Eo) as [[_ Hno]|[d' [Hd' [Es' [Ew' _]]]]]; [|exists d'; auto].
    exfalso. rewrite (Ae2 eq_refl) in W'. exact (Hno _ _ _ _ W' U').
Qed.
End Suffix.

(** ** C60 *)
Theorem open_begin_is_suffix cdist x y o (lm : mat NumQ) sp rules o' cdist' :
  well_posed cdist x y o lm sp rules NoWindow -> strides rules -> o_open_begin o = true -> 2 <= nr lm ->
  o_step_pattern o' = o_step_pattern o -> o_window_type o' = o_window_type o ->
  o_open_begin o' = false -> o_open_end o' = o_open_end o ->
  let on_suffix s := dtw cdist' (NdArray (Nd2 (trailing lm s)) true true) None o' in
  match dtw cdist x y o with
  | Ok d =>
      (forall s d', s < nc lm -> on_suffix s = Ok d' -> leb (r_distance d) (r_distance d') = true) /\
      exists mp s d', r_map d = Some mp /\ hd_error (index2 mp) = Some (Z.of_nat s) /\ s < nc lm /\
        on_suffix s = Ok d' /\ r_distance d' = r_distance d /\
        r_normalizedDistance d' = r_normalizedDistance d
  | _ => forall s d', s < nc lm -> on_suffix s <> Ok d'
  end.
Proof.
  intros WP Hs Ob Hn Es Ew Ob' Oe on_suffix.
  pose proof WP as WP0. destruct WP0 as [w1 w2 w3 w4 w5 w6 w7 w8 w9 w10].
  destruct (w9 Ob) as [Hh Hdo].
  assert (Hw : wf_mat lm) by (destruct w1; assumption).
  assert (Hm : 0 < nc lm) by (destruct w8 as [_ [K _]]; exact K).
  assert (WPs : forall s, s < nc lm -> well_posed cdist' (NdArray (Nd2 (trailing lm s)) true true) None o' (trailing lm s) sp rules NoWindow).
  { intros s Hsm. constructor; auto; try congruence.
    - constructor; [reflexivity|apply trailing_wf].
    - right. split; reflexivity.
    - unfold size_ok, rows_used in *. rewrite Ob in w8. rewrite Ob'. cbn [trailing nr nc]. destruct w8 as [A [B C]]. split; [lia|]. split; [lia|]. nia. }
  assert (Hleast : forall s d', s < nc lm -> on_suffix s = Ok d' -> r_stepPattern d' = sp /\ least rules false (o_open_end o) (trailing lm s) (r_distance d')).
  { intros s d' Hsm Hd'. pose proof (WPs s Hsm) as WP'.
    assert (Q : r_stepPattern d' = sp /\ r_windowFunction d' = NoWindow).
    { unfold on_suffix in Hd'. destruct (o_open_end o') eqn:Eo.
      - destruct (dtw_open_end_iff NumQ_laws _ _ _ _ _ _ _ _ WP' Eo) as [[C _]|[d0 [E0 [Q1 [Q2 _]]]]]; [congruence|].
        rewrite Hd' in E0. injection E0 as <-. auto.
      - destruct (dtw_closed_end_iff NumQ_laws _ _ _ _ _ _ _ _ WP' Eo) as [[C _]|[d0 [E0 [Q1 [Q2 _]]]]]; [congruence|].
        rewrite Hd' in E0. injection E0 as <-. auto. }
    destruct Q as [Q1 Q2]. split; [exact Q1|]. rewrite <- Ob', <- Oe.
    apply (call_least cdist' (NdArray (Nd2 (trailing lm s)) true true) None o' (trailing lm s) d' rules); auto.
    - apply (wp_costs _ _ _ _ _ _ _ _ WP').
    - rewrite Q1. exact w4.
    - congruence. }
  assert (Hback : forall s d', s < nc lm -> on_suffix s = Ok d' ->
     exists p t, aligned rules true (o_open_end o) lm p t /\ r_distance d' = sumc lm (p :: t) /\ good (r_distance d')).
  { intros s d' Hsm Hd'. destruct (Hleast s d' Hsm Hd') as [_ [[p [t [A [E G]]]] _]].
    destruct (aligned_right rules _ lm s p t Hsm A) as [A' E']. exists (right s p), (map (right s) t). split; [exact A'|].
    split; [|exact G]. rewrite E. symmetry. exact E'. }
  destruct (dtw cdist x y o) as [d| | | |] eqn:Hd.
  { assert (Q : r_stepPattern d = sp /\ r_windowFunction d = NoWindow).
    { destruct (o_open_end o) eqn:Eo.
      - destruct (dtw_open_end_iff NumQ_laws _ _ _ _ _ _ _ _ WP Eo) as [[C _]|[d0 [E0 [Q1 [Q2 _]]]]]; [congruence|].
        rewrite Hd in E0. injection E0 as <-. auto.
      - destruct (dtw_closed_end_iff NumQ_laws _ _ _ _ _ _ _ _ WP Eo) as [[C _]|[d0 [E0 [Q1 [Q2 _]]]]]; [congruence|].
        rewrite Hd in E0. injection E0 as <-. auto. }
    destruct Q as [Q1 Q2].
    assert (Hp : pattern_rules (r_stepPattern d) rules) by (rewrite Q1; exact w4).
    destruct (call_least _ _ _ _ _ _ _ w1 Hd Hp Hs ltac:(congruence) Q2 Hn) as [_ Hmin]. rewrite Ob in Hmin.
    split.
    { intros s d' Hsm Hd'. destruct (Hback s d' Hsm Hd') as [p [t [A [E G]]]]. rewrite E in *. apply Hmin; assumption. }
    destruct (dtw_alignment NumQ_laws _ _ _ _ _ _ _ w1 Hd Hp Hdo) as [mp [ks [vs [ts [Em [W [U [_ D]]]]]]]].
    rewrite Ob in W, D. rewrite Q2 in W. cbn [admissible end_cell] in W.
    destruct (open_route rules lm _ _ _ _ _ _ Hs Hw w7 W) as [Ets [Hks [p0 [q [vs' [t [Evs [A [Hlast Ec]]]]]]]]].
    destruct D as [p0' [vs'' [ts'' [D1 [D2 [_ [D3 _]]]]]]].
    rewrite Ets, Evs in D2. injection D2 as <- <-.
    destruct (dtw_fields NumQ_laws _ _ _ _ _ _ _ w1 Hd Hp) as [F1 [F2 [_ [_ [_ [Fk [_ [Fj0 [Fj [Fn _]]]]]]]]]].
    assert (A' : aligned rules true (o_open_end o) lm (0, snd q) t).
    { destruct A as [A1 [A2 [A3 [A4 _]]]]. split; [exact A1|]. split; [exact A2|]. split; [exact A3|]. split; [exact A4|].
      intros E. unfold point in *. rewrite Hlast. apply Fj. exact E. }
    assert (Hsm : snd q < nc lm) by (destruct A as [_ [A2 _]]; apply (A2 (0, snd q)); left; reflexivity).
    destruct (aligned_left rules _ _ _ _ A') as [AL EL]. cbn [snd] in AL, EL.
    assert (G : good (r_distance d)) by (apply U; exact Hks).
    assert (Gs : good (sumc (trailing lm (snd q)) (map (left (snd q)) ((0, snd q) :: t)))) by (unfold point in *; rewrite EL, <- Ec; exact G).
    rewrite <- Ob', <- Oe in AL.
    destruct (route_ok rules cdist' _ None o' _ sp _ _ Hs (WPs _ Hsm) AL Gs) as [d' [Hd' [Es' Ew']]].
    exists mp, (snd q), d'. split; [exact Em|]. split; [rewrite D3; reflexivity|]. split; [exact Hsm|]. split; [exact Hd'|].
    assert (ED : r_distance d' = r_distance d).
    { destruct (Hleast _ _ Hsm Hd') as [_ LS]. apply (least_unique _ _ _ _ _ _ LS). split.
      - eexists _, _. rewrite <- Ob', <- Oe. split; [exact AL|]. split; [rewrite Ec; symmetry; exact EL|exact G].
      - intros p' t' A2 G2. destruct (aligned_right rules _ lm _ _ _ Hsm A2) as [A3 E3].
        cbn [map] in E3. rewrite <- E3. apply Hmin; [exact A3|]. rewrite E3. exact G2. }
    split; [exact ED|].
    assert (Hp' : pattern_rules (r_stepPattern d') rules) by (rewrite Es'; exact w4).
    destruct (dtw_fields NumQ_laws _ _ _ _ _ _ _ (wp_costs _ _ _ _ _ _ _ _ (WPs _ Hsm)) Hd' Hp') as [F1' [_ [_ [_ [_ [_ [_ [_ [_ [Fn' _]]]]]]]]]].
    rewrite Fn, Fn', Es', Q1, Hh, ED, F1, F1'. reflexivity. }
  all: intros s d' Hsm Hd'; destruct (Hback s d' Hsm Hd') as [p [t [A [E G]]]]; rewrite <- Ob in A; rewrite E in G;
    destruct (route_ok rules _ _ _ _ _ _ _ _ Hs WP A G) as [d0 [E0 _]]; congruence.
Qed.
