(** Thm1.v - shape of the returned alignments (proofs). *)
From Coq Require Import ZifyBool ZifyNat Sorting.Sorted.
From Verif Require Import Base Num StepPattern Window Core Backtrack Dtw Spec Api Tables Vocab Terms
  CoreProof DPProof DtwProof ApiProof ApiThms WalkGeom.
Open Scope string_scope.
Open Scope list_scope.
Open Scope nat_scope.

Section Replay.
Context {N : Num}.
Variables (rules : list (rule N)) (cost : nat -> nat -> N) (n m : nat)
          (source : nat -> nat -> option N) (allowed : nat -> nat -> Prop).
Notation wk := (walk rules cost n m source allowed).

(** end point of a sequence of productions *)
Fixpoint target (i j : nat) (ks : list nat) : point :=
  match ks with
  | [] => (i, j)
  | k :: ks' => match rule_no rules k with
                | Some r => target (i + r_di r) (j + r_dj r) ks'
                | None => (i, j)
                end
  end.
Definition known (ks : list nat) : Prop := forall k, In k ks -> exists r, rule_no rules k = Some r.

Lemma replay_snoc i j ks k r : known ks -> rule_no rules k = Some r ->
  let q := target i j ks in
  target i j (ks ++ [k]) = (fst q + r_di r, snd q + r_dj r) /\
  replay_ends rules i j (ks ++ [k]) = replay_ends rules i j ks ++ [(fst q + r_di r, snd q + r_dj r)] /\
  replay rules i j (ks ++ [k]) = replay rules i j ks ++
    inner_points r (fst q + r_di r) (snd q + r_dj r) ++ [(fst q + r_di r, snd q + r_dj r)] /\
  forall c, replay_cost rules cost i j c (ks ++ [k]) =
    charge cost r (fst q + r_di r) (snd q + r_dj r) (replay_cost rules cost i j c ks).
Proof.
  revert i j. induction ks as [|k0 ks IH]; intros i j Hk Hr; cbn [app target replay_ends replay replay_cost].
  - rewrite Hr. cbn [fst snd target replay_ends replay replay_cost]. auto.
  - destruct (Hk k0 (or_introl eq_refl)) as [r0 Hr0]. rewrite Hr0.
    destruct (IH (i + r_di r0) (j + r_dj r0)) as [E1 [E2 [E3 E4]]]; [intros k' Hk'; apply Hk; right; exact Hk'|exact Hr|].
    cbv zeta in *. split; [exact E1|]. rewrite E2, E3. cbn [app]. rewrite <- app_assoc. split; [reflexivity|].
    split; [reflexivity|]. intros c. apply E4.
Qed.

Lemma walk_replay ks vs ts q c : wk ks vs ts q c ->
  exists i j c0, source i j = Some c0 /\ i < n /\ j < m /\ known ks /\
    q = target i j ks /\ vs = (i, j) :: replay_ends rules i j ks /\
    ts = (i, j) :: replay rules i j ks /\ c = replay_cost rules cost i j c0 ks.
Proof.
  induction 1 as [i j c Hs Hi Hj | ks vs ts i0 j0 c k r Hw IH Hk Hi Hj Ha].
  - exists i, j, c. cbn. split; [exact Hs|]. repeat (split; [assumption || reflexivity|]).
    split; [intros k []|]. auto.
  - destruct IH as [i [j [c0 [H1 [H2 [H3 [H4 [H5 [-> [-> ->]]]]]]]]]].
    exists i, j, c0. destruct (replay_snoc i j ks k r H4 Hk) as [E1 [E2 [E3 E4]]].
    rewrite <- H5 in *. cbn [fst snd] in *.
    split; [exact H1|]. split; [exact H2|]. split; [exact H3|].
    split. { intros k' Hk'. apply in_app_iff in Hk'. destruct Hk' as [Hk'|[<-|[]]]; [auto|exists r; exact Hk]. }
    rewrite E1, E2, E3, E4. cbn [app]. auto.
Qed.

Lemma replay_ends_length i j ks : known ks -> List.length (replay_ends rules i j ks) = List.length ks.
Proof.
  revert i j. induction ks as [|k ks IH]; intros i j Hk; [reflexivity|]. cbn [replay_ends].
  destruct (Hk k (or_introl eq_refl)) as [r ->]. cbn [List.length]. rewrite IH; [reflexivity|].
  intros k' Hk'. apply Hk. right. exact Hk'.
Qed.
End Replay.

Section Thm1.
Context {N : Num}.
Variable L : NumLaws N.

(** ** The alignment is the replay of stepsTaken *)
Theorem alignment_closed cdist x y o (lm : mat N) d rules : costs_of cdist x y lm ->
  dtw cdist x y o = Ok d -> pattern_rules (r_stepPattern d) rules ->
  o_distance_only o = false -> o_open_begin o = false ->
  exists mp ks, r_map d = Some mp /\ stepsTaken mp = map Z.of_nat ks /\
    (forall k, In k ks -> exists r, rule_no rules k = Some r) /\
    index1s mp = map query_ix ((0, 0) :: replay_ends rules 0 0 ks) /\
    index2s mp = map ref_ix ((0, 0) :: replay_ends rules 0 0 ks) /\
    index1 mp = map query_ix ((0, 0) :: replay rules 0 0 ks) /\
    index2 mp = map ref_ix ((0, 0) :: replay rules 0 0 ks) /\
    r_distance d = replay_cost rules (cell lm) 0 0 (cell lm 0 0) ks.
Proof.
  intros HC H Hp Hd Hb. destruct (dtw_alignment L _ _ _ _ _ _ _ HC H Hp Hd) as [mp [ks [vs [ts [Em [W [U [Hl D]]]]]]]].
  rewrite Hb in *. unfold admissible, end_cell in W. unfold closed_walk in W.
  destruct (walk_replay _ _ _ _ _ _ _ _ _ _ _ W) as [i [j [c0 [Hs [Hi [Hj [Hk [Hq [-> [-> Hc]]]]]]]]]].
  unfold closed_source in Hs. destruct (Nat.eqb_spec i 0), (Nat.eqb_spec j 0); try discriminate. subst i j.
  injection Hs as <-. destruct D as [D1 [D2 [D3 [D4 D5]]]].
  exists mp, ks. repeat (split; [assumption|]). exact Hc.
Qed.

Theorem alignment_open cdist x y o (lm : mat N) d rules : costs_of cdist x y lm ->
  dtw cdist x y o = Ok d -> pattern_rules (r_stepPattern d) rules -> o_open_begin o = true ->
  exists mp ks j0, r_map d = Some mp /\ j0 < nc lm /\ stepsTaken mp = map Z.of_nat ks /\
    (forall k, In k ks -> exists r, rule_no rules k = Some r) /\
    index1s mp = map query_ix_open (replay_ends rules 0 j0 ks) /\
    index2s mp = map ref_ix (replay_ends rules 0 j0 ks) /\
    index1 mp = map query_ix_open (replay rules 0 j0 ks) /\
    index2 mp = map ref_ix (replay rules 0 j0 ks) /\
    r_distance d = replay_cost rules (cell (padded lm)) 0 j0 (ofZ 0) ks.
Proof.
  intros HC H Hp Hb.
  assert (Hd : o_distance_only o = false).
  { destruct (dtw_fields L _ _ _ _ _ _ _ HC H Hp) as [_ [_ [_ [_ [_ [_ [_ [_ [_ [_ [F _]]]]]]]]]]]. apply F. exact Hb. }
  destruct (dtw_alignment L _ _ _ _ _ _ _ HC H Hp Hd) as [mp [ks [vs [ts [Em [W [U [Hl D]]]]]]]].
  rewrite Hb in *. unfold admissible, end_cell in W. unfold open_walk in W.
  destruct (walk_replay _ _ _ _ _ _ _ _ _ _ _ W) as [i [j [c0 [Hs [Hi [Hj [Hk [Hq [-> [-> Hc]]]]]]]]]].
  unfold open_source in Hs. destruct (Nat.eqb_spec i 0); try discriminate. subst i.
  injection Hs as <-. destruct D as [p0 [vs' [ts' [Ev [Et [D1 [D2 [D3 [D4 D5]]]]]]]]].
  injection Ev as <- <-. injection Et as <-.
  exists mp, ks, j. repeat (split; [assumption|]). exact Hc.
Qed.

(** ** Anchored, in range, monotone *)
Lemma sorted_proj ts : StronglySorted le_pt ts ->
  nondecreasing (map query_ix ts) /\ nondecreasing (map ref_ix ts) /\ nondecreasing (map query_ix_open ts).
Proof.
  intros S. assert (R : forall x, le_pt x x) by (unfold le_pt; intros; lia).
  repeat split; intros a b x y Hab Hx Hy; rewrite nth_error_map in Hx, Hy;
    destruct (nth_error ts a) as [p|] eqn:Ea; try discriminate;
    destruct (nth_error ts b) as [p'|] eqn:Eb; try discriminate;
    injection Hx as <-; injection Hy as <-;
    destruct (SS_nth le_pt ts R S a b p p' Hab Ea Eb);
    unfold query_ix, ref_ix, query_ix_open; lia.
Qed.

Lemma within_map (f : point -> Z) ts lo hi : (forall p, In p ts -> (lo <= f p < hi)%Z) -> within lo hi (map f ts).
Proof. intros H x Hx. apply in_map_iff in Hx. destruct Hx as [p [<- Hp]]. auto. Qed.

Lemma last_map {A} (f : A -> Z) l x : (exists l', l = l' ++ [x]) -> last_is (f x) (map f l).
Proof. intros [l' ->]. exists (map f l'). rewrite map_app. reflexivity. Qed.

Lemma ss_tl (R : point -> point -> Prop) p l : StronglySorted R (p :: l) -> StronglySorted R l.
Proof. intros H. inversion H; assumption. Qed.

Theorem monotone_closed cdist x y o (lm : mat N) d rules : costs_of cdist x y lm ->
  dtw cdist x y o = Ok d -> pattern_rules (r_stepPattern d) rules ->
  o_distance_only o = false -> o_open_begin o = false ->
  exists mp, r_map d = Some mp /\
    List.length (index1 mp) = List.length (index2 mp) /\
    List.length (index1s mp) = S (List.length (stepsTaken mp)) /\
    List.length (index2s mp) = S (List.length (stepsTaken mp)) /\
    first_is 0 (index1 mp) /\ first_is 0 (index2 mp) /\
    first_is 0 (index1s mp) /\ first_is 0 (index2s mp) /\
    last_is (Z.of_nat (nr lm) - 1) (index1 mp) /\ last_is (Z.of_nat (r_jmin d)) (index2 mp) /\
    last_is (Z.of_nat (nr lm) - 1) (index1s mp) /\ last_is (Z.of_nat (r_jmin d)) (index2s mp) /\
    within 0 (Z.of_nat (nr lm)) (index1 mp) /\ within 0 (Z.of_nat (nc lm)) (index2 mp) /\
    within 0 (Z.of_nat (nr lm)) (index1s mp) /\ within 0 (Z.of_nat (nc lm)) (index2s mp) /\
    nondecreasing (index1 mp) /\ nondecreasing (index2 mp) /\
    nondecreasing (index1s mp) /\ nondecreasing (index2s mp).
Proof.
  intros HC H Hp Hd Hb. destruct (dtw_alignment L _ _ _ _ _ _ _ HC H Hp Hd) as [mp [ks [vs [ts [Em [W [U [Hl D]]]]]]]].
  rewrite Hb in *. unfold admissible, end_cell in W. unfold closed_walk in W.
  exists mp. split; [exact Em|]. destruct D as [-> [-> [-> [-> ->]]]].
  assert (Hv : forallb valid_rule rules = true) by apply Hp.
  destruct (walk_sorted _ _ _ _ _ _ Hv _ _ _ _ _ W) as [S1 [S2 [B1 B2]]].
  pose proof (walk_length _ _ _ _ _ _ _ _ _ _ _ W) as Hlen.
  pose proof (walk_trace_range _ _ _ _ _ _ Hv _ _ _ _ _ W) as Rt.
  pose proof (walk_vertex_range _ _ _ _ _ _ _ _ _ _ _ W) as Rv.
  destruct (walk_last rules _ _ _ _ _ _ _ _ _ _ W) as [Lv Lt].
  destruct (walk_first _ _ _ _ _ _ _ _ _ _ _ W) as [p [c0 [vs' [ts' [Ev [Et [Hs [Hi Hj]]]]]]]].
  assert (Hp0 : p = (0, 0)).
  { unfold closed_source in Hs. destruct p as [a b]. cbn [fst snd] in Hs.
    destruct (Nat.eqb_spec a 0), (Nat.eqb_spec b 0); try discriminate. congruence. }
  destruct (sorted_proj _ S1) as [M1 [M2 _]]. destruct (sorted_proj _ S2) as [M3 [M4 _]].
  rewrite !map_length.
  repeat (split; [first [reflexivity | assumption]|]).
  rewrite Hp0 in *.
  split; [rewrite Et; reflexivity|]. split; [rewrite Et; reflexivity|].
  split; [rewrite Ev; reflexivity|]. split; [rewrite Ev; reflexivity|].
  assert (Q1 : query_ix (nr lm - 1, r_jmin d) = (Z.of_nat (nr lm) - 1)%Z) by (unfold query_ix; cbn [fst]; cbn in Hi; lia).
  assert (Q2 : ref_ix (nr lm - 1, r_jmin d) = Z.of_nat (r_jmin d)) by reflexivity.
  rewrite <- Q1, <- Q2.
  split; [apply last_map; exact Lt|]. split; [apply last_map; exact Lt|].
  split; [apply last_map; exact Lv|]. split; [apply last_map; exact Lv|].
  split; [apply within_map; intros q Hq; specialize (Rt q Hq); unfold query_ix; lia|].
  split; [apply within_map; intros q Hq; specialize (Rt q Hq); unfold ref_ix; lia|].
  split; [apply within_map; intros q Hq; specialize (Rv q Hq); unfold query_ix; lia|].
  split; [apply within_map; intros q Hq; specialize (Rv q Hq); unfold ref_ix; lia|].
  auto.
Qed.


Lemma trace_rows (rules : list (rule N)) cost n m source (allowed : nat -> nat -> Prop) ks vs ts q c :
  leaves_row rules -> (forall i j, allowed i j -> 1 <= i) -> forallb valid_rule rules = true ->
  walk rules cost n m source allowed ks vs ts q c ->
  exists p ts', ts = p :: ts' /\ forall v, In v ts' -> 1 <= fst v.
Proof.
  intros Hr Ha Hv. induction 1 as [i j c Hs Hi Hj | ks vs ts i0 j0 c k r Hw IH Hk Hi Hj Hal].
  - exists (i, j), []. split; [reflexivity|]. intros v [].
  - destruct IH as [p [ts' [-> IH]]]. exists p. eexists. split; [reflexivity|].
    intros v Hin. apply in_app_iff in Hin. destruct Hin as [Hin|Hin]; [auto|].
    apply Ha in Hal. apply in_app_iff in Hin. destruct Hin as [Hin|[<-|[]]]; [|exact Hal].
    unfold inner_points in Hin. apply in_map_iff in Hin. destruct Hin as [a [<- Hin]].
    apply filter_In in Hin. destruct Hin as [Hin _]. cbn [fst].
    pose proof (rule_no_In _ _ _ Hk) as Hr'.
    destruct (Nat.eq_0_gt_0_cases (r_di r)) as [E|E].
    + assert (V : valid_rule r = true) by (rewrite forallb_forall in Hv; auto).
      destruct (valid_adds _ _ V Hin). lia.
    + specialize (Hr r a Hr' Hin E). lia.
Qed.

Theorem monotone_open cdist x y o (lm : mat N) d rules : costs_of cdist x y lm ->
  dtw cdist x y o = Ok d -> pattern_rules (r_stepPattern d) rules -> o_open_begin o = true -> 0 < nr lm ->
  exists mp, r_map d = Some mp /\
    List.length (index1 mp) = List.length (index2 mp) /\
    List.length (index1s mp) = List.length (stepsTaken mp) /\
    List.length (index2s mp) = List.length (stepsTaken mp) /\
    last_is (Z.of_nat (nr lm) - 1) (index1 mp) /\ last_is (Z.of_nat (r_jmin d)) (index2 mp) /\
    last_is (Z.of_nat (nr lm) - 1) (index1s mp) /\ last_is (Z.of_nat (r_jmin d)) (index2s mp) /\
    within 0 (Z.of_nat (nc lm)) (index2 mp) /\
    within 0 (Z.of_nat (nr lm)) (index1s mp) /\ within 0 (Z.of_nat (nc lm)) (index2s mp) /\
    (leaves_row rules -> within 0 (Z.of_nat (nr lm)) (index1 mp)) /\
    nondecreasing (index1 mp) /\ nondecreasing (index2 mp) /\
    nondecreasing (index1s mp) /\ nondecreasing (index2s mp).
Proof.
  intros HC H Hp Hb Hn.
  assert (Hd : o_distance_only o = false).
  { destruct (dtw_fields L _ _ _ _ _ _ _ HC H Hp) as [_ [_ [_ [_ [_ [_ [_ [_ [_ [_ [F _]]]]]]]]]]]. apply F. exact Hb. }
  destruct (dtw_alignment L _ _ _ _ _ _ _ HC H Hp Hd) as [mp [ks [vs [ts [Em [W [U [Hl D]]]]]]]].
  rewrite Hb in *. unfold admissible, end_cell in W. unfold open_walk in W.
  exists mp. split; [exact Em|]. destruct D as [p0 [vs' [ts' [-> [-> [-> [-> [-> [-> ->]]]]]]]]].
  assert (Hv : forallb valid_rule rules = true) by apply Hp.
  destruct (walk_sorted _ _ _ _ _ _ Hv _ _ _ _ _ W) as [S1 [S2 [B1 B2]]].
  apply ss_tl in S1. apply ss_tl in S2.
  pose proof (walk_length _ _ _ _ _ _ _ _ _ _ _ W) as Hlen. cbn [List.length] in Hlen.
  pose proof (walk_trace_range _ _ _ _ _ _ Hv _ _ _ _ _ W) as Rt.
  pose proof (walk_vertex_range _ _ _ _ _ _ _ _ _ _ _ W) as Rv.
  destruct (walk_last rules _ _ _ _ _ _ _ _ _ _ W) as [Lv Lt].
  destruct (walk_allowed _ _ _ _ _ _ _ _ _ _ _ W) as [p [vs2 [E [[c0 Hs] Hal]]]]. injection E as <- <-.
  assert (Hp0 : fst p0 = 0). { unfold open_source in Hs. destruct (Nat.eqb_spec (fst p0) 0); [assumption|discriminate]. }
  assert (Hne : p0 <> (nr lm, r_jmin d)). { intros ->. cbn in Hp0. lia. }
  assert (Lv' : exists l, vs' = l ++ [(nr lm, r_jmin d)]).
  { destruct Lv as [l El]. destruct l; cbn in El; injection El as E1 E2; [congruence|exists l; exact E2]. }
  assert (Lt' : exists l, ts' = l ++ [(nr lm, r_jmin d)]).
  { destruct Lt as [l El]. destruct l; cbn in El; injection El as E1 E2; [congruence|exists l; exact E2]. }
  destruct (sorted_proj _ S1) as [_ [M2 M1]]. destruct (sorted_proj _ S2) as [_ [M4 M3]].
  rewrite !map_length.
  split; [reflexivity|]. split; [lia|]. split; [lia|].
  assert (Q1 : query_ix_open (nr lm, r_jmin d) = (Z.of_nat (nr lm) - 1)%Z) by reflexivity.
  assert (Q2 : ref_ix (nr lm, r_jmin d) = Z.of_nat (r_jmin d)) by reflexivity.
  rewrite <- Q1, <- Q2.
  split; [apply last_map; exact Lt'|]. split; [apply last_map; exact Lt'|].
  split; [apply last_map; exact Lv'|]. split; [apply last_map; exact Lv'|].
  split; [apply within_map; intros q Hq; specialize (Rt q (or_intror Hq)); unfold ref_ix; lia|].
  split. { apply within_map; intros q Hq. specialize (Rv q (or_intror Hq)). destruct (Hal q Hq).
           unfold query_ix_open; lia. }
  split; [apply within_map; intros q Hq; specialize (Rv q (or_intror Hq)); unfold ref_ix; lia|].
  split.
  { intros Hr. destruct (trace_rows rules _ _ _ _ _ _ _ _ _ _ Hr (fun i j H => proj1 H) Hv W) as [p [ts2 [E Hge]]].
    injection E as <- <-.
    apply within_map; intros q Hq. specialize (Rt q (or_intror Hq)). specialize (Hge q Hq). unfold query_ix_open; lia. }
  auto.
Qed.

(** ** The window *)
Theorem window_closed cdist x y o (lm : mat N) d rules : costs_of cdist x y lm ->
  dtw cdist x y o = Ok d -> pattern_rules (r_stepPattern d) rules ->
  o_distance_only o = false -> o_open_begin o = false ->
  exists mp, r_map d = Some mp /\
  forall t i j, nth_error (index1s mp) (S t) = Some i -> nth_error (index2s mp) (S t) = Some j ->
    in_window (r_windowFunction d) (r_windowArgs d) (nr lm) (nc lm) (Z.to_nat i) (Z.to_nat j).
Proof.
  intros HC H Hp Hd Hb. destruct (dtw_alignment L _ _ _ _ _ _ _ HC H Hp Hd) as [mp [ks [vs [ts [Em [W [U [Hl D]]]]]]]].
  rewrite Hb in *. unfold admissible, end_cell in W. unfold closed_walk in W.
  exists mp. split; [exact Em|]. destruct D as [_ [_ [-> [-> _]]]].
  destruct (walk_allowed _ _ _ _ _ _ _ _ _ _ _ W) as [p [vs2 [-> [_ Hal]]]].
  intros t i j Hi Hj. cbn [map nth_error] in Hi, Hj. rewrite nth_error_map in Hi, Hj.
  destruct (nth_error vs2 t) as [v|] eqn:E; [|discriminate]. injection Hi as <-. injection Hj as <-.
  unfold query_ix, ref_ix. rewrite !Nat2Z.id. apply Hal. eapply nth_error_In. exact E.
Qed.

Theorem window_open cdist x y o (lm : mat N) d rules : costs_of cdist x y lm ->
  dtw cdist x y o = Ok d -> pattern_rules (r_stepPattern d) rules -> o_open_begin o = true ->
  exists mp, r_map d = Some mp /\
  forall t i j, nth_error (index1s mp) t = Some i -> nth_error (index2s mp) t = Some j ->
    in_window (r_windowFunction d) (r_windowArgs d) (nr lm + 1) (nc lm) (S (Z.to_nat i)) (Z.to_nat j).
Proof.
  intros HC H Hp Hb.
  assert (Hd : o_distance_only o = false).
  { destruct (dtw_fields L _ _ _ _ _ _ _ HC H Hp) as [_ [_ [_ [_ [_ [_ [_ [_ [_ [_ [F _]]]]]]]]]]]. apply F. exact Hb. }
  destruct (dtw_alignment L _ _ _ _ _ _ _ HC H Hp Hd) as [mp [ks [vs [ts [Em [W [U [Hl D]]]]]]]].
  rewrite Hb in *. unfold admissible, end_cell in W. unfold open_walk in W.
  exists mp. split; [exact Em|]. destruct D as [p0 [vs' [ts' [-> [-> [_ [_ [-> [-> _]]]]]]]]].
  destruct (walk_allowed _ _ _ _ _ _ _ _ _ _ _ W) as [p [vs2 [E [_ Hal]]]]. injection E as <- <-.
  intros t i j Hi Hj. rewrite nth_error_map in Hi, Hj.
  destruct (nth_error vs' t) as [v|] eqn:E; [|discriminate]. injection Hi as <-. injection Hj as <-.
  apply nth_error_In in E. destruct (Hal v E) as [H1 H2].
  unfold query_ix_open, ref_ix. rewrite Nat2Z.id.
  replace (S (Z.to_nat (Z.of_nat (fst v) - 1))) with (fst v) by lia. exact H2.
Qed.

End Thm1.
