(** Points.v - how many points an alignment has (proofs for C84). *)
From Coq Require Import ZifyBool ZifyNat Sorting.Sorted FinFun.
From Verif Require Import Base Num NumQ NumQLaws NumF NumFLaws StepPattern Window Core Backtrack Dtw Spec Api Tables Vocab Terms
  CoreProof DPProof DtwProof ApiProof ApiThms WalkGeom Thm1 Thm9 Thm10 WarpSpec Thm16 PointsSpec.
Import ListNotations.
Open Scope string_scope.
Open Scope list_scope.
Open Scope nat_scope.

Section A.
Context {N : Num}.
Variable L : NumLaws N.

Definition psum (p : point) : nat := fst p + snd p.
Definition later (p q : point) : Prop := psum p < psum q.

Lemma later_cons p q l : later p q -> StronglySorted later (q :: l) -> StronglySorted later (p :: q :: l).
Proof.
  intros H S. constructor; [exact S|]. constructor; [exact H|]. inversion S as [|? ? _ F]; subst.
  eapply Forall_impl; [|exact F]. unfold later in *. intros a Ha. lia.
Qed.

(** Inside one production *)
Lemma inner_later i j (l : list (nat * nat * N)) : forall di dj, going_down di dj l = true -> keeps_moving di dj l = true -> di <= i -> dj <= j ->
  StronglySorted later ((i - di, j - dj) :: map (fun a => (i - fst (fst a), j - snd (fst a)))
      (filter (fun a => negb ((fst (fst a) =? 0) && (snd (fst a) =? 0))) l) ++ [(i, j)]).
Proof.
  induction l as [|[[oi oj] w] l IH]; intros di dj G K Hi Hj.
  - cbn [filter map app keeps_moving] in *. apply later_cons; [unfold later, psum; cbn; lia|]. repeat constructor.
  - cbn [going_down keeps_moving filter fst snd] in *. apply andb_true_iff in G. destruct G as [G1 G2].
    destruct ((oi =? 0) && (oj =? 0)) eqn:E; cbn [negb].
    + apply andb_true_iff in E. destruct E as [E1 E2]. apply Nat.eqb_eq in E1, E2. subst oi oj.
      apply IH; auto. clear - G1 G2. revert G2. induction l as [|[[a b] v] l IHl]; intros G2; [reflexivity|].
      cbn [going_down] in *. lia.
    + cbn [map app fst snd]. apply andb_true_iff in K. destruct K as [K1 K2].
      apply later_cons; [unfold later, psum; cbn; lia|]. apply IH; auto; lia.
Qed.

Lemma sorted_join (l : list point) p l' : StronglySorted later (l ++ [p]) -> StronglySorted later (p :: l') -> StronglySorted later (l ++ p :: l').
Proof.
  induction l as [|a l IH]; intros H1 H2; [exact H2|]. cbn [app] in *. inversion H1 as [|? ? S F]; subst. constructor; [apply IH; assumption|].
  apply Forall_app in F. destruct F as [F1 F2]. apply Forall_app. split; [exact F1|]. inversion F2 as [|? ? F3 _]; subst.
  constructor; [exact F3|]. inversion H2 as [|? ? _ F4]; subst. eapply Forall_impl; [|exact F4]. unfold later in *. intros. lia.
Qed.

Lemma walk_later rules (cost : nat -> nat -> N) n m src al : forallb valid_rule rules = true -> no_point_twice rules ->
  forall ks vs ts q c, walk rules cost n m src al ks vs ts q c ->
  StronglySorted later ts /\ (exists l, ts = l ++ [q]) /\ List.length vs <= List.length ts.
Proof.
  intros Hv Hm ks vs ts q c W. induction W as [i j c Hs Hi Hj|ks vs ts i0 j0 c k r W IH Hk Hi Hj Ha].
  - split; [repeat constructor|]. split; [exists []; reflexivity|]. cbn. lia.
  - destruct IH as [S [[l El] Hlen]].
    assert (Hr : In r rules) by (destruct k; [discriminate|]; eapply nth_error_In; exact Hk).
    rewrite forallb_forall in Hv. specialize (Hv r Hr). unfold valid_rule in Hv. apply andb_true_iff in Hv. destruct Hv as [Hv _].
    apply andb_true_iff in Hv. destruct Hv as [_ Hg].
    pose proof (inner_later (i0 + r_di r) (j0 + r_dj r) (r_add r) _ _ Hg (Hm r Hr) ltac:(lia) ltac:(lia)) as I.
    replace (i0 + r_di r - r_di r) with i0 in I by lia. replace (j0 + r_dj r - r_dj r) with j0 in I by lia.
    split; [|split].
    + rewrite El in *. rewrite <- app_assoc. apply sorted_join; [exact S|]. exact I.
    + exists (ts ++ inner_points r (i0 + r_di r) (j0 + r_dj r)). rewrite app_assoc. reflexivity.
    + rewrite !app_length. cbn [List.length]. lia.
Qed.
Lemma sorted_length (l : list point) : forall p q, StronglySorted later (p :: l ++ [q]) -> psum p + S (List.length l) <= psum q.
Proof.
  induction l as [|a l IH]; intros p q H.
  - inversion H as [|? ? _ F]; subst. inversion F; subst. unfold later in *. cbn. lia.
  - cbn [app] in H. inversion H as [|? ? S F]; subst. specialize (IH a q S). inversion F; subst. unfold later in *. cbn [List.length]. lia.
Qed.
Lemma sorted_len (ts l : list point) p q : StronglySorted later ts -> hd_error ts = Some p -> ts = l ++ [q] -> psum p + List.length ts <= psum q + 1.
Proof.
  intros S Hh E. destruct l as [|a l].
  - subst ts. injection Hh as <-. cbn. lia.
  - subst ts. injection Hh as <-. apply sorted_length in S. cbn [app List.length]. rewrite app_length. cbn [List.length]. lia.
Qed.
Lemma sorted_nth (l : list point) : StronglySorted later l -> forall a b p q, a < b -> nth_error l a = Some p -> nth_error l b = Some q -> later p q.
Proof.
  induction 1 as [|x l S IH F]; intros a b p q Hab Ha Hb; [destruct a; discriminate|].
  destruct b as [|b]; [lia|]. cbn [nth_error] in Hb. destruct a as [|a].
  - injection Ha as <-. apply nth_error_In in Hb. rewrite Forall_forall in F. exact (F q Hb).
  - apply (IH a b); auto. lia.
Qed.
Lemma combine_map2 {A B C} (f : A -> B) (g : A -> C) l : combine (map f l) (map g l) = map (fun a => (f a, g a)) l.
Proof. induction l as [|a l IH]; [reflexivity|]. cbn. rewrite IH. reflexivity. Qed.

Theorem alignment_length cdist x y o (lm : mat N) d rules : costs_of cdist x y lm -> dtw cdist x y o = Ok d ->
  pattern_rules (r_stepPattern d) rules -> o_distance_only o = false -> no_point_twice rules ->
  exists mp, r_map d = Some mp /\ advances (index1 mp) (index2 mp) /\
    List.length (stepsTaken mp) <= List.length (index1 mp) /\ List.length (index1 mp) = List.length (index2 mp) /\
    List.length (index1 mp) <= nr lm + r_jmin d.
Proof.
  intros HC H Hp Hd Hm. pose proof (dtw_alignment L _ _ _ _ _ _ _ HC H Hp Hd) as [mp [ks [vs [ts [Em [W [U [_ D]]]]]]]].
  destruct Hp as [_ [_ [Hv _]]]. exists mp. split; [exact Em|]. unfold admissible, end_cell, open_walk, closed_walk in W.
  destruct (o_open_begin o).
  - destruct (walk_later _ _ _ _ _ _ Hv Hm _ _ _ _ _ W) as [S [[l El] Hlen]].
    destruct D as [p0 [v0 [t0 [D1 [D2 [D3 [D4 [D5 [D6 D7]]]]]]]]].
    pose proof (walk_length _ _ _ _ _ _ _ _ _ _ _ W) as Hk.
    split; [|rewrite D7, D3, D4, !map_length; split; [|split; [reflexivity|]]].
    + unfold advances, points. rewrite D3, D4, combine_map2. intros a b p q Hab Ha Hb. rewrite nth_error_map in Ha, Hb.
      rewrite D2 in S. apply StronglySorted_inv in S. destruct S as [S _].
      destruct (nth_error t0 a) as [pa|] eqn:Ea; [|discriminate]. destruct (nth_error t0 b) as [pb|] eqn:Eb; [|discriminate].
      pose proof (sorted_nth _ S a b pa pb Hab Ea Eb) as Hl. injection Ha as <-. injection Hb as <-. unfold later, psum in Hl. unfold query_ix_open, ref_ix. cbn [fst snd]. lia.
    + rewrite D1, D2 in Hlen. rewrite D1 in Hk. cbn [List.length] in *. lia.
    + pose proof (sorted_len _ _ p0 _ S ltac:(rewrite D2; reflexivity) El) as Q. rewrite D2 in Q. unfold psum in Q. cbn [fst snd List.length] in Q. lia.
  - destruct (walk_later _ _ _ _ _ _ Hv Hm _ _ _ _ _ W) as [S [[l El] Hlen]].
    destruct D as [D3 [D4 [D5 [D6 D7]]]].
    pose proof (walk_length _ _ _ _ _ _ _ _ _ _ _ W) as Hk.
    split; [|rewrite D7, D3, D4, !map_length; split; [|split; [reflexivity|]]].
    + unfold advances, points. rewrite D3, D4, combine_map2. intros a b p q Hab Ha Hb. rewrite nth_error_map in Ha, Hb.
      destruct (nth_error ts a) as [pa|] eqn:Ea; [|discriminate]. destruct (nth_error ts b) as [pb|] eqn:Eb; [|discriminate].
      pose proof (sorted_nth _ S a b pa pb Hab Ea Eb) as Hl. injection Ha as <-. injection Hb as <-. unfold later, psum in Hl. unfold query_ix, ref_ix. cbn [fst snd]. lia.
    + lia.
    + destruct ts as [|p0 ts0]; [cbn; lia|].
      pose proof (sorted_len _ _ p0 _ S eq_refl El) as Q. unfold psum in Q. cbn [fst snd] in Q.
      assert (0 < nr lm) by (destruct (walk_in_range _ _ _ _ _ _ _ _ _ _ _ W) as [X _]; cbn in X; lia). lia.
Qed.

(** Gapless productions leave out no sample. *)
Lemma walk_climbs ref rules (cost : nat -> nat -> N) n m src al : forallb valid_rule rules = true -> gapless ref rules ->
  forall ks vs ts q c, walk rules cost n m src al ks vs ts q c ->
  exists p ts', ts = p :: ts' /\ climbs (ix ref p) (map (ix ref) ts') /\ exists v, src (fst p) (snd p) = Some v.
Proof.
  intros Hv Hg ks vs ts q c W. induction W as [i j c Hs Hi Hj|ks vs ts i0 j0 c k r W IH Hk Hi Hj Ha].
  - exists (i, j), []. split; [reflexivity|]. split; [exact I|]. exists c. exact Hs.
  - destruct IH as [p [ts' [E [C Hsrc]]]].
    assert (Hr : In r rules) by (eapply rule_no_In; exact Hk).
    pose proof (walk_last _ _ _ _ _ _ _ _ _ _ _ W) as [_ [l El]].
    exists p, (ts' ++ inner_points r (i0 + r_di r) (j0 + r_dj r) ++ [(i0 + r_di r, j0 + r_dj r)]).
    split; [rewrite E; reflexivity|]. split; [|exact Hsrc]. rewrite map_app. apply climbs_app; [exact C|].
    assert (EL : last (map (ix ref) ts') (ix ref p) = ix ref (i0, j0)).
    { rewrite El in E. destruct l as [|a l]; [injection E as E1 E2; subst p ts'; reflexivity|].
      injection E as -> <-. rewrite map_app. cbn [map]. rewrite last_last. reflexivity. }
    rewrite EL. pose proof (replay_climbs ref [r] [1]) as RC. cbn [forallb] in RC.
    rewrite forallb_forall in Hv. rewrite (Hv r Hr) in RC. specialize (RC eq_refl ltac:(intros r' [<-|[]]; exact (Hg r Hr)) i0 j0).
    cbn [replay rule_no nth_error] in RC. exact RC.
Qed.

Lemma climbs_count a l t : climbs a l -> In t (a :: l) ->
  (forall k, (a <= k <= t)%Z -> In k (a :: l)) /\ (t + 1 - a <= Z.of_nat (List.length (a :: l)))%Z.
Proof.
  intros C Ht.
  assert (A : forall k, (a <= k <= t)%Z -> In k (a :: l)).
  { intros k Hk. destruct (Z.eq_dec a k) as [->|Hn]; [left; reflexivity|]. right. destruct Ht as [->|Ht]; [lia|].
    eapply climbs_covers; [exact C|exact Ht|lia]. }
  split; [exact A|]. destruct (Z.le_gt_cases a t) as [Hat|Hat]; [|cbn [List.length]; lia].
  assert (Q : incl (map (fun i => (a + Z.of_nat i)%Z) (seq 0 (Z.to_nat (t + 1 - a)))) (a :: l)).
  { intros z Hz. apply in_map_iff in Hz as [i [<- Hi]]. apply in_seq in Hi. apply A. lia. }
  apply NoDup_incl_length in Q; [rewrite map_length, seq_length in Q; lia|].
  apply Injective_map_NoDup; [intros u v Huv; lia|apply seq_NoDup].
Qed.
Lemma last_In {A} (l : list A) ts q : ts = l ++ [q] -> In q ts.
Proof. intros ->. apply in_or_app. right. left. reflexivity. Qed.

Theorem all_matched cdist x y o (lm : mat N) d rules : costs_of cdist x y lm -> dtw cdist x y o = Ok d ->
  pattern_rules (r_stepPattern d) rules -> o_distance_only o = false -> 0 < nr lm ->
  exists mp, r_map d = Some mp /\
    (gapless true rules -> (forall i, i < nr lm -> In (Z.of_nat i) (index1 mp)) /\ nr lm <= List.length (index1 mp)) /\
    (gapless false rules -> exists j0, first_is j0 (index2 mp) /\ (o_open_begin o = false -> j0 = 0%Z) /\
       (forall j, j0 <= j <= Z.of_nat (r_jmin d) -> In j (index2 mp))%Z /\
       (Z.of_nat (r_jmin d) + 1 - j0 <= Z.of_nat (List.length (index2 mp)))%Z).
Proof.
  intros HC H Hp Hd Hn. pose proof (dtw_alignment L _ _ _ _ _ _ _ HC H Hp Hd) as [mp [ks [vs [ts [Em [W [U [_ D]]]]]]]].
  destruct Hp as [_ [_ [Hv _]]]. exists mp. split; [exact Em|]. unfold admissible, end_cell, open_walk, closed_walk in W.
  destruct (o_open_begin o).
  - destruct (walk_last _ _ _ _ _ _ _ _ _ _ _ W) as [_ [l El]]. apply last_In in El.
    destruct D as [p0 [v0 [t0 [D1 [D2 [D3 [D4 _]]]]]]].
    assert (El' : fst p0 = 0 -> In (nr lm, r_jmin d) t0).
    { intros E0. rewrite D2 in El. destruct El as [->|El]; [cbn in E0; lia|exact El]. }
    split; intros Hg; destruct (walk_climbs _ _ _ _ _ _ _ Hv Hg _ _ _ _ _ W) as [p [ts' [E [C [v Hs]]]]];
      rewrite D2 in E; injection E as <- <-; unfold open_source in Hs;
      (assert (E0 : fst p0 = 0) by (destruct (fst p0); [reflexivity|discriminate Hs])); specialize (El' E0).
    + assert (C' : climbs (-1) (index1 mp)).
      { rewrite D3. clear - C E0. assert (G : forall l a, climbs a (map (ix true) l) -> climbs (a - 1) (map query_ix_open l)).
        { induction l as [|b l IH]; intros a Ha; [exact I|]. cbn [map climbs] in *. destruct Ha as [H1 H2]. split; [unfold query_ix_open, ix in *; cbn [target_coord] in *; lia|].
          exact (IH _ H2). }
        specialize (G _ _ C). unfold ix in G at 1. cbn [target_coord] in G. rewrite E0 in G. exact G. }
      assert (Ht : In (Z.of_nat (nr lm) - 1)%Z (index1 mp)).
      { rewrite D3. apply in_map_iff. exists (nr lm, r_jmin d). split; [reflexivity|exact El']. }
      destruct (climbs_count _ _ _ C' (or_intror Ht)) as [A1 A2]. split.
      * intros i Hi. destruct (A1 (Z.of_nat i) ltac:(lia)) as [B|B]; [lia|exact B].
      * cbn [List.length] in A2. lia.
    + destruct t0 as [|p1 t1]; [destruct El'|]. cbn [map climbs] in C. destruct C as [_ C].
      exists (ref_ix p1). rewrite D4. split; [reflexivity|]. split; [discriminate|].
      assert (Ht : In (Z.of_nat (r_jmin d)) (map ref_ix (p1 :: t1))) by (apply in_map_iff; exists (nr lm, r_jmin d); split; [reflexivity|exact El']).
      exact (climbs_count (ref_ix p1) (map ref_ix t1) _ C Ht).
  - destruct (walk_last _ _ _ _ _ _ _ _ _ _ _ W) as [_ [l El]]. apply last_In in El.
    destruct D as [D3 [D4 _]].
    split; intros Hg; destruct (walk_climbs _ _ _ _ _ _ _ Hv Hg _ _ _ _ _ W) as [p [ts' [E [C [v Hs]]]]]; rewrite E in *.
    + assert (E0 : fst p = 0) by (unfold closed_source in Hs; destruct (fst p); [reflexivity|discriminate Hs]).
      assert (Ht : In (Z.of_nat (nr lm) - 1)%Z (map query_ix (p :: ts'))).
      { apply in_map_iff. exists (nr lm - 1, r_jmin d). split; [unfold query_ix; cbn [fst]; lia|exact El]. }
      destruct (climbs_count (query_ix p) (map query_ix ts') _ C Ht) as [A1 A2].
      assert (Z0 : query_ix p = 0%Z) by (unfold query_ix; rewrite E0; reflexivity). rewrite D3. split.
      * intros i Hi. apply A1. lia.
      * cbn [List.length map] in *. lia.
    + assert (E0 : snd p = 0) by (unfold closed_source in Hs; destruct (fst p); [|discriminate Hs]; destruct (snd p); [reflexivity|discriminate Hs]).
      exists (ref_ix p). rewrite D4. split; [reflexivity|]. split; [intros _; unfold ref_ix; rewrite E0; reflexivity|].
      assert (Ht : In (Z.of_nat (r_jmin d)) (map ref_ix (p :: ts'))) by (apply in_map_iff; exists (nr lm - 1, r_jmin d); split; [reflexivity|exact El]).
      exact (climbs_count (ref_ix p) (map ref_ix ts') _ C Ht).
Qed.

(** The predefined patterns list no point twice. *)
Fixpoint wkeeps {X} (di dj : nat) (l : list (nat * nat * X)) : bool :=
  match l with
  | nil => negb ((di =? 0) && (dj =? 0))
  | (oi, oj, _) :: l' =>
      if (oi =? 0) && (oj =? 0) then wkeeps di dj l'
      else negb ((oi =? di) && (oj =? dj)) && wkeeps oi oj l'
  end.
Lemma keeps_production (w : wrule) : wkeeps (w_di w) (w_dj w) (w_add w) = true -> keeps_moving (r_di (@production N w)) (r_dj (@production N w)) (r_add (@production N w)) = true.
Proof.
  unfold production. cbn [r_di r_dj r_add]. generalize (w_di w) as di, (w_dj w) as dj. induction (w_add w) as [|[[oi oj] v] l IH]; intros di dj; [exact (fun e => e)|].
  cbn [map fst snd wkeeps keeps_moving]. destruct ((oi =? 0) && (oj =? 0)); [apply IH|]. intros E. apply andb_true_iff in E. destruct E as [E1 E2].
  rewrite E1. apply IH. exact E2.
Qed.
Lemma named_no_twice k l : lookup k predefined = Some l -> no_point_twice (@productions N l).
Proof.
  intros Hl. assert (G : forallb (fun kl : string * list wrule => forallb (fun w => wkeeps (w_di w) (w_dj w) (w_add w)) (snd kl)) predefined = true) by (vm_compute; reflexivity).
  apply lookup_In in Hl. rewrite forallb_forall in G. specialize (G _ Hl). cbn [snd] in G. rewrite forallb_forall in G.
  intros r Hr. apply in_map_iff in Hr as [w [<- Hw]]. apply keeps_production. exact (G w Hw).
Qed.
Lemma mvm_no_twice e : no_point_twice (@productions N (mvm_productions e)).
Proof.
  intros r Hr. apply in_map_iff in Hr as [w [<- Hw]]. apply keeps_production. apply in_map_iff in Hw as [k [<- Hk]]. cbn. reflexivity.
Qed.

Theorem alignment_length_named cdist x y o (lm : mat N) d k : costs_of cdist x y lm -> dtw cdist x y o = Ok d ->
  lookup k pattern_table = Some (r_stepPattern d) -> o_distance_only o = false ->
  exists mp, r_map d = Some mp /\ advances (index1 mp) (index2 mp) /\
    List.length (stepsTaken mp) <= List.length (index1 mp) /\ List.length (index1 mp) = List.length (index2 mp) /\
    List.length (index1 mp) <= nr lm + r_jmin d.
Proof.
  intros HC H Hk Hd. destruct (predefined_rules L _ _ Hk) as [l [El Hp]].
  exact (alignment_length _ _ _ _ _ _ _ HC H Hp Hd (named_no_twice _ _ El)).
Qed.
Theorem alignment_length_mvm cdist x y o (lm : mat N) d e : costs_of cdist x y lm -> dtw cdist x y o = Ok d ->
  r_stepPattern d = mvmStepPattern e -> 1 <= e -> (8 * Z.of_nat e <= INT_MAX)%Z -> o_distance_only o = false ->
  exists mp, r_map d = Some mp /\ advances (index1 mp) (index2 mp) /\
    List.length (stepsTaken mp) <= List.length (index1 mp) /\ List.length (index1 mp) = List.length (index2 mp) /\
    List.length (index1 mp) <= nr lm + r_jmin d.
Proof.
  intros HC H Hk He He8 Hd. pose proof (mvm_rules L e He He8) as Hp. rewrite <- Hk in Hp.
  exact (alignment_length _ _ _ _ _ _ _ HC H Hp Hd (mvm_no_twice e)).
Qed.
Theorem all_matched_named cdist x y o (lm : mat N) d k : costs_of cdist x y lm -> dtw cdist x y o = Ok d ->
  lookup k pattern_table = Some (r_stepPattern d) -> o_distance_only o = false -> 0 < nr lm ->
  exists mp, r_map d = Some mp /\
    (In k (gapless_names true) -> (forall i, i < nr lm -> In (Z.of_nat i) (index1 mp)) /\ nr lm <= List.length (index1 mp)) /\
    (In k (gapless_names false) -> exists j0, first_is j0 (index2 mp) /\ (o_open_begin o = false -> j0 = 0%Z) /\
       (forall j, j0 <= j <= Z.of_nat (r_jmin d) -> In j (index2 mp))%Z /\
       (Z.of_nat (r_jmin d) + 1 - j0 <= Z.of_nat (List.length (index2 mp)))%Z).
Proof.
  intros HC H Hk Hd Hn. destruct (predefined_rules L _ _ Hk) as [l [El Hp]].
  destruct (all_matched _ _ _ _ _ _ _ HC H Hp Hd Hn) as [mp [Em [A B]]]. exists mp. split; [exact Em|].
  split; intros Hin; [apply A|apply B]; eapply gapless_named; eassumption.
Qed.
End A.
