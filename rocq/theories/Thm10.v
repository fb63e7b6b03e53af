(** Thm10.v - step displacements, explicit recursions, named patterns (proofs for
    C05, C06, C16, C24, C27, C39). *)
From Coq Require Import ZifyBool ZifyNat.
From Verif Require Import Base Num StepPattern Window Core Backtrack Dtw Spec Api Tables
  DPProof DtwProof ApiProof ApiThms WalkGeom Vocab Thm1 Thm2 Thm3 Thm5 Bound Feas Thm9 Terms.
Open Scope string_scope.
Open Scope list_scope.
Open Scope nat_scope.

Section Thm10.
Context {N : Num}.
Variable L : NumLaws N.

(** ** Displacements of the steps taken *)
Lemma replay_ends_step (rules : list (rule N)) i j ks t k : known rules ks -> nth_error ks t = Some k ->
  exists r p p', rule_no rules k = Some r /\
    nth_error (@cons point (i, j) (replay_ends rules i j ks)) t = Some p /\
    nth_error (@cons point (i, j) (replay_ends rules i j ks)) (S t) = Some p' /\
    fst p' = fst p + r_di r /\ snd p' = snd p + r_dj r.
Proof.
  revert i j t. induction ks as [|k0 ks IH]; intros i j t Hk Ht; [destruct t; discriminate|].
  destruct (Hk k0 (or_introl eq_refl)) as [r0 Er0]. cbn [replay_ends]. rewrite Er0.
  destruct t as [|t].
  - cbn in Ht. injection Ht as ->. exists r0. do 2 eexists. cbn [nth_error]. repeat split. exact Er0.
  - cbn [nth_error] in Ht. destruct (IH (i + r_di r0) (j + r_dj r0) t) as [r [p [p' [E1 [E2 [E3 [E4 E5]]]]]]].
    { intros k' Hk'. apply Hk. right. exact Hk'. } { exact Ht. }
    exists r, p, p'. repeat split; auto.
Qed.

Lemma rule_row_in (rules : list (rule N)) k0 k r : nth_error rules k = Some r ->
  In (Row (ofN (k0 + k)) (ofN (r_di r)) (ofN (r_dj r)) (ofZ (-1))) (table_from k0 rules).
Proof.
  revert k0 k. induction rules as [|r0 rs IH]; intros k0 k H; [destruct k; discriminate|].
  cbn [table_from]. apply in_app_iff. destruct k as [|k].
  - cbn in H. injection H as ->. left. unfold rule_rows. left. rewrite Nat.add_0_r. reflexivity.
  - right. cbn in H. specialize (IH (S k0) k H). replace (k0 + S k) with (S k0 + k) by lia. exact IH.
Qed.

(** Between consecutive points of index1s/index2s lies the displacement that the start
    row (weight -1) of the production named in stepsTaken has in its second and third
    columns: query first, reference second. *)
Theorem steps_follow_table cdist x y o (lm : mat N) d rules : costs_of cdist x y lm ->
  dtw cdist x y o = Ok d -> pattern_rules (r_stepPattern d) rules -> o_distance_only o = false ->
  o_open_begin o = false ->
  exists mp, r_map d = Some mp /\
  forall t k, nth_error (stepsTaken mp) t = Some k ->
  exists i j i' j', nth_error (index1s mp) t = Some i /\ nth_error (index2s mp) t = Some j /\
    nth_error (index1s mp) (S t) = Some i' /\ nth_error (index2s mp) (S t) = Some j' /\
    In (Row (ofZ k) (ofZ (i' - i)) (ofZ (j' - j)) (ofZ (-1))) (mx (r_stepPattern d)).
Proof.
  intros HC H Hp Hd Hb.
  destruct (alignment_closed L _ _ _ _ _ _ _ HC H Hp Hd Hb) as [mp [ks [Em [Es [Hk [E1 [E2 [_ [_ _]]]]]]]]].
  exists mp. split; [exact Em|]. intros t k Ht. rewrite Es in Ht.
  rewrite nth_error_map in Ht. destruct (nth_error ks t) as [k0|] eqn:Ek; [|discriminate]. injection Ht as <-.
  destruct (replay_ends_step rules 0 0 ks t k0 Hk Ek) as [r [p [p' [R1 [R2 [R3 [R4 R5]]]]]]].
  exists (query_ix p), (ref_ix p), (query_ix p'), (ref_ix p').
  rewrite E1, E2, !nth_error_map. unfold point in *. rewrite R2, R3. repeat split; try reflexivity.
  destruct Hp as [Et _]. rewrite Et. unfold table. destruct k0 as [|k0]; [discriminate R1|]. cbn [rule_no] in R1.
  pose proof (rule_row_in rules 1 k0 r R1) as G. unfold ofN in G.
  replace (query_ix p' - query_ix p)%Z with (Z.of_nat (r_di r)) by (unfold query_ix; lia).
  replace (ref_ix p' - ref_ix p)%Z with (Z.of_nat (r_dj r)) by (unfold ref_ix; lia).
  exact G.
Qed.

(** ** The printed recursion of symmetric1, symmetric2 and asymmetric *)



Lemma single_rules_least (l : list (nat * nat * N)) (lm g : mat N) i j v s :
  (forall i j, i < nr g -> j < nc g -> mget g i j <> None) -> i < nr g -> j < nc g ->
  best_proposal (map (fun a => Rule (fst (fst a)) (snd (fst a)) [((0, 0), snd a)]) l) (cell lm) g i j v s ->
  least_of v (flat_map (fun a => before g i j (fst (fst a)) (snd (fst a)) (fun u => macc u (snd a) (cell lm i j))) l).
Proof.
  intros Hg Hi Hj B.
  set (rules := map (fun a => Rule (fst (fst a)) (snd (fst a)) [((0, 0), snd a)]) l) in *.
  assert (P : forall c, In c (flat_map (fun a => before g i j (fst (fst a)) (snd (fst a)) (fun u => macc u (snd a) (cell lm i j))) l) <->
                        exists k, proposes rules (cell lm) g i j k c).
  { intros c. rewrite in_flat_map. split.
    - intros [[[a b] w] [Ha Hc]]. cbn [fst snd] in Hc. unfold before in Hc.
      destruct ((a <=? i) && (b <=? j)) eqn:Eb; [|destruct Hc].
      destruct (mget g (i - a) (j - b)) as [u|] eqn:Eu; [|destruct Hc].
      destruct Hc as [<-|[]]. apply In_nth_error in Ha. destruct Ha as [k Ek]. exists (S k).
      pose proof (propose rules (cell lm) g i j (S k) (Rule a b [((0, 0), w)]) (i - a) (j - b) u) as Q.
      unfold charge in Q. cbn [r_di r_dj r_add fold_left fst snd] in Q. rewrite !Nat.sub_0_r in Q.
      apply Q; auto; try lia. unfold rules. cbn [rule_no]. rewrite nth_error_map, Ek. reflexivity.
    - intros [k Q]. destruct Q as [k r i0 j0 u Er E1 E2 Eu].
      destruct k as [|k]; [discriminate|]. unfold rules in Er. cbn [rule_no] in Er. rewrite nth_error_map in Er.
      destruct (nth_error l k) as [[[a b] w]|] eqn:Ek; [|discriminate]. injection Er as <-. cbn [r_di r_dj fst snd] in *.
      exists ((a, b), w). split; [eapply nth_error_In; exact Ek|]. cbn [fst snd]. unfold before.
      replace ((a <=? i) && (b <=? j)) with true by lia.
      replace (i - a) with i0 by lia. replace (j - b) with j0 by lia. rewrite Eu. left.
      unfold charge. cbn [r_add fold_left fst snd]. rewrite !Nat.sub_0_r. reflexivity. }
  destruct B as [[k [B1 [B2 [_ B3]]]]|[B1 [B2 _]]].
  - left. split; [apply P; eauto|]. split; [exact B2|]. intros c Hc Gc. apply P in Hc. destruct Hc as [k' Hc].
    apply (B3 k' c Hc Gc).
  - right. split; [exact B2|]. intros c Hc. apply P in Hc. destruct Hc as [k' Hc]. apply (B1 k' c Hc).
Qed.

Definition single_rules (l : list (nat * nat * N)) : list (rule N) :=
  map (fun a => Rule (fst (fst a)) (snd (fst a)) [((0, 0), snd a)]) l.

Theorem recursion_single cdist x y o (lm : mat N) d l : costs_of cdist x y lm ->
  dtw cdist x y o = Ok d -> pattern_rules (r_stepPattern d) (single_rules l) ->
  o_keep_internals o = true -> o_open_begin o = false ->
  exists g, r_costMatrix d = Some g /\ nr g = nr lm /\ nc g = nc lm /\
  forall i j, i < nr lm -> j < nc lm -> (i, j) <> (0, 0) ->
    in_window (r_windowFunction d) (r_windowArgs d) (nr lm) (nc lm) i j ->
    exists v, mget g i j = Some v /\
      least_of v (flat_map (fun a => before g i j (fst (fst a)) (snd (fst a)) (fun u => macc u (snd a) (cell lm i j))) l).
Proof.
  intros HC H Hp Hk Hb.
  destruct (dtw_matrices_closed L _ _ _ _ _ _ _ HC H Hp Hk Hb) as [_ [cm [dm [E1 [E2 [S1 [S2 [_ [_ [_ [B _]]]]]]]]]]].
  exists cm. split; [exact E1|]. split; [exact S1|]. split; [exact S2|]. intros i j Hi Hj Hne Hw.
  destruct (B i j Hi Hj) as [v [s [Ev [_ [R _]]]]]. exists v. split; [exact Ev|].
  destruct (R Hne) as [R1 _]. eapply single_rules_least; try (rewrite ?S1, ?S2; assumption).
  - intros a b Ha Hb'. rewrite S1 in Ha. rewrite S2 in Hb'. destruct (B a b Ha Hb') as [v' [_ [Ev' _]]]. congruence.
  - apply R1. exact Hw.
Qed.

(** ** Named families *)
Lemma one_per_query_ok k l : In k one_per_query -> lookup k predefined = Some l -> @row_by_row N (productions l).
Proof.
  intros Hk Hl.
  assert (G : forallb (fun k => match lookup k predefined with
     | Some l => forallb (fun r => (w_di r =? 1) && forallb (fun a => (fst (fst a) =? 0) && (snd (fst a) =? 0)) (w_add r)) l
     | None => false end) one_per_query = true) by (vm_compute; reflexivity).
  rewrite forallb_forall in G. specialize (G k Hk). rewrite Hl in G. rewrite forallb_forall in G.
  intros r Hr. apply in_map_iff in Hr. destruct Hr as [w [<- Hw]]. specialize (G w Hw).
  apply andb_prop in G. destruct G as [G1 G2]. cbn [production r_di r_add]. split; [lia|].
  intros a Ha. apply in_map_iff in Ha. destruct Ha as [b [<- Hb]]. rewrite forallb_forall in G2. specialize (G2 b Hb).
  destruct b as [[u v] z]. cbn [fst snd] in *. f_equal; lia.
Qed.

Lemma advancing_names_ok k l : In k advancing_names -> lookup k predefined = Some l -> @advancing N (productions l).
Proof.
  intros Hk Hl.
  assert (G : forallb (fun k => match lookup k predefined with
     | Some l => forallb (fun r => (1 <=? w_dj r) && forallb (fun a => (snd (fst a) <? w_dj r)) (w_add r)) l
     | None => false end) advancing_names = true) by (vm_compute; reflexivity).
  rewrite forallb_forall in G. specialize (G k Hk). rewrite Hl in G. rewrite forallb_forall in G.
  intros r Hr. apply in_map_iff in Hr. destruct Hr as [w [<- Hw]]. specialize (G w Hw).
  apply andb_prop in G. destruct G as [G1 G2]. cbn [production r_dj r_add]. split; [lia|].
  intros a Ha. apply in_map_iff in Ha. destruct Ha as [b [<- Hb]]. rewrite forallb_forall in G2. specialize (G2 b Hb).
  cbn [fst snd] in *. lia.
Qed.
Lemma advancing_names_hint k (sp : steppat N) : In k advancing_names -> lookup k pattern_table = Some sp -> hint sp = "N".
Proof.
  unfold advancing_names. intros Hk H.
  assert (E : exists s : steppat N, lookup k pattern_table = Some s /\ hint s = "N").
  { repeat (destruct Hk as [Hk|Hk]; [subst k; eexists; split; reflexivity|]). destruct Hk. }
  destruct E as [s [E1 E2]]. rewrite E1 in H. injection H as <-. exact E2.
Qed.

(** rigid, open begin: every row advances by one column, from column >= 1. *)
Theorem rigid_open_begin_short cdist x y o (lm : mat N) d : costs_of cdist x y lm ->
  dtw cdist x y o = Ok d -> r_stepPattern d = rigid -> o_open_begin o = true -> 0 < nr lm ->
  nr lm < nc lm /\
  exists mp j0, r_map d = Some mp /\ 1 <= j0 /\
    index2 mp = map Z.of_nat (seq j0 (nr lm)).
Proof.
  intros HC H Esp Hb Hn.
  assert (Hp : pattern_rules (r_stepPattern d) (productions [W 1 1 [(0, 0, (1, 1)%Z)]])).
  { rewrite Esp. apply (wgood_rules L); [|reflexivity]. eapply (predefined_good "rigid"). reflexivity. }
  assert (Hd : o_distance_only o = false).
  { destruct (dtw_fields L _ _ _ _ _ _ _ HC H Hp) as [_ [_ [_ [_ [_ [_ [_ [_ [_ [_ [F _]]]]]]]]]]]. apply F. exact Hb. }
  destruct (dtw_alignment L _ _ _ _ _ _ _ HC H Hp Hd) as [mp [ks [vs [ts [Em [W [U [Hl D]]]]]]]].
  rewrite Hb in *. unfold admissible, end_cell, open_walk in W.
  assert (Hr : row_by_row (@productions N [Tables.W 1 1 [(0, 0, (1, 1)%Z)]])).
  { apply (one_per_query_ok "rigid"); [right; left; reflexivity|reflexivity]. }
  destruct (walk_rows _ _ _ _ _ _ _ _ _ _ _ Hr W) as [E [p [vs' [E1 [E2 E3]]]]]. subst ts vs.
  destruct (walk_allowed _ _ _ _ _ _ _ _ _ _ _ W) as [p1 [vs1 [Ev1 [[c0 Hs] _]]]].
  injection Ev1 as <- <-. unfold open_source in Hs. destruct (Nat.eqb_spec (fst p) 0) as [Ep|]; [|discriminate].
  cbn [fst] in E2.
  assert (G : forall ks vs ts q c, walk (@productions N [Tables.W 1 1 [(0, 0, (1, 1)%Z)]]) (cell (padded lm)) (nr lm + 1) (nc lm) open_source
       (fun i j => 1 <= i /\ in_window (r_windowFunction d) (r_windowArgs d) (nr lm + 1) (nc lm) i j) ks vs ts q c ->
       snd q < nc lm /\ exists p vs', vs = p :: vs' /\ snd q = snd p + List.length ks /\ map snd vs' = seq (S (snd p)) (List.length ks)).
  { clear. intros ks vs ts q c Hw. induction Hw as [i j c Hso Hi Hj | ks vs ts i0 j0 c k r Hwk IH Hk Hi Hj Ha].
    - split; [exact Hj|]. exists (i, j), []. cbn. split; [reflexivity|]. split; [lia|reflexivity].
    - split; [exact Hj|]. destruct IH as [_ [p [vs' [-> [F1 F2]]]]]. exists p. eexists. split; [reflexivity|].
      assert (Er : r_dj r = 1).
      { destruct k as [|[|[|k]]]; try discriminate. injection Hk as <-. reflexivity. }
      cbn [snd] in *. rewrite app_length. cbn [List.length]. split; [lia|].
      rewrite map_app, F2, seq_app. cbn [map seq snd]. do 2 f_equal. lia. }
  destruct (G _ _ _ _ _ W) as [Gj [p' [vs2 [G1 [G2 G3]]]]]. injection G1 as <- <-. cbn [snd] in *.
  split; [lia|]. exists mp, (S (snd p)). split; [exact Em|]. split; [lia|].
  destruct D as [p0 [v0 [t0 [F1 [F2 [_ [-> _]]]]]]]. injection F2 as <- <-.
  transitivity (map Z.of_nat (map snd vs')); [rewrite map_map; reflexivity|]. rewrite G3.
  do 2 f_equal. lia.
Qed.

Theorem rigid_open_begin_raises cdist x y o (lm : mat N) sp rules w :
  well_posed cdist x y o lm sp rules w -> sp = rigid -> o_open_begin o = true -> nc lm <= nr lm ->
  dtw cdist x y o = Raise (if o_open_end o then ValueError "All-NaN slice encountered" else no_path).
Proof.
  intros WP Esp Hb Hle. pose proof (wp_query _ _ _ _ _ _ _ _ WP) as Hn. pose proof (wp_costs _ _ _ _ _ _ _ _ WP) as HC.
  assert (F : forall d, dtw cdist x y o = Ok d -> r_stepPattern d = sp -> False).
  { intros d H E. destruct (rigid_open_begin_short _ _ _ _ _ _ HC H (eq_trans E Esp) Hb Hn). lia. }
  destruct (o_open_end o) eqn:He.
  - destruct (dtw_open_end_iff L _ _ _ _ _ _ _ _ WP He) as [[H _]|[d [H [E _]]]]; [exact H|]. destruct (F d H E).
  - destruct (dtw_closed_end_iff L _ _ _ _ _ _ _ _ WP He) as [[H _]|[d [H [E _]]]]; [exact H|]. destruct (F d H E).
Qed.

(** ** Minimum variance matching *)
Lemma mvm_table e : mx (@mvmStepPattern N e) = table (productions (mvm_productions e)).
Proof.
  unfold mvmStepPattern, table, mvm_productions, productions. cbn [mx]. rewrite map_map.
  enough (G : forall k, mvm_rows (Z.of_nat k) e = table_from k (map (fun x => @production N (W 1 x [(0, 0, (1, 1)%Z)])) (seq k e))).
  { apply (G 1). }
  induction e as [|e IH]; intros k; [reflexivity|].
  cbn [mvm_rows seq map table_from]. unfold rule_rows at 1. cbn [production w_di w_dj w_add r_di r_dj r_add map fst snd app].
  unfold ofN. rewrite Z.mul_1_r, Z.mul_0_r. f_equal. f_equal. rewrite <- IH. f_equal. lia.
Qed.
Lemma mvm_good e : 1 <= e -> (8 * Z.of_nat e <= INT_MAX)%Z -> wgood (mvm_productions e).
Proof.
  intros He Hi. split; [destruct e; [lia|discriminate]|]. split.
  - apply forallb_forall. intros r Hr. apply in_map_iff in Hr. destruct Hr as [k [<- Hk]]. apply in_seq in Hk.
    unfold wvalid. cbn [w_di w_dj w_add wdown forallb fst snd]. unfold wweight_ok, INT_MAX in *. cbn [fst snd]. lia.
  - assert (E : wsize (mvm_productions e) = 2 * e).
    { unfold wsize, mvm_productions. rewrite map_map. cbn [w_add List.length]. clear.
      assert (G : forall k, list_sum (map (fun _ : nat => 1 + 1) (seq k e)) = 2 * e).
      { induction e as [|e IH]; intros k; [reflexivity|]. cbn [seq map list_sum fold_right].
        unfold list_sum in IH. rewrite IH. lia. }
      apply G. }
    rewrite E. lia.
Qed.
Lemma mvm_light e : forallb wlight (mvm_productions e) = true.
Proof.
  apply forallb_forall. intros r Hr. apply in_map_iff in Hr. destruct Hr as [k [<- _]]. vm_compute. reflexivity.
Qed.
Lemma mvm_rules e : 1 <= e -> (8 * Z.of_nat e <= INT_MAX)%Z ->
  pattern_rules (@mvmStepPattern N e) (productions (mvm_productions e)).
Proof. intros. apply (wgood_rules L); [apply mvm_good; assumption|apply mvm_table]. Qed.
Lemma mvm_in e r : In r (@productions N (mvm_productions e)) ->
  r_di r = 1 /\ 1 <= r_dj r <= e /\ forall a, In a (r_add r) -> fst a = (0, 0).
Proof.
  intros Hr. apply in_map_iff in Hr. destruct Hr as [w [<- Hw]]. apply in_map_iff in Hw. destruct Hw as [k [<- Hk]].
  apply in_seq in Hk. cbn [production r_di r_dj r_add w_di w_dj w_add]. split; [reflexivity|]. split; [lia|].
  intros a [<-|[]]. reflexivity.
Qed.
Lemma mvm_row_by_row e : row_by_row (@productions N (mvm_productions e)).
Proof. intros r Hr. destruct (mvm_in e r Hr) as [A [_ B]]. auto. Qed.

Lemma walk_mvm e cost n m source allowed ks vs ts q (c : N) :
  walk (productions (mvm_productions e)) cost n m source allowed ks vs ts q c ->
  ts = vs /\ (exists vs', vs = vs' ++ [q]) /\
  forall t p p', nth_error vs t = Some p -> nth_error vs (S t) = Some p' ->
    fst p' = fst p + 1 /\ snd p + 1 <= snd p' <= snd p + e.
Proof.
  intros Hw. split; [exact (proj1 (walk_rows _ _ _ _ _ _ _ _ _ _ _ (mvm_row_by_row e) Hw))|].
  induction Hw as [i j c Hso Hi Hj | ks vs ts i0 j0 c k r Hwk IH Hk Hi Hj Ha].
  - split; [exists []; reflexivity|]. intros t p p' _ H. destruct t; discriminate.
  - split; [eexists; reflexivity|]. destruct IH as [[vs' ->] IH].
    destruct (mvm_in e r (rule_no_In _ _ _ Hk)) as [D1 [D2 _]].
    intros t p p' H1 H2. unfold point in *.
    assert (Lt : S t < List.length ((vs' ++ [(i0, j0)]) ++ [(i0 + r_di r, j0 + r_dj r)])) by (apply nth_error_Some; unfold point in *; rewrite H2; discriminate).
    rewrite !app_length in Lt. cbn [List.length] in Lt.
    destruct (Nat.eq_dec (S t) (List.length (vs' ++ [(i0, j0)]))) as [El|El].
    + rewrite nth_error_app2 in H2 by lia. rewrite El, Nat.sub_diag in H2. injection H2 as <-.
      rewrite nth_error_app1 in H1 by lia. rewrite app_length in El. cbn in El.
      rewrite nth_error_app2 in H1 by lia. replace (t - List.length vs') with 0 in H1 by lia. injection H1 as <-.
      cbn [fst snd]. lia.
    + rewrite app_length in El. cbn in El.
      rewrite nth_error_app1 in H1 by (rewrite app_length; cbn; lia).
      rewrite nth_error_app1 in H2 by (rewrite app_length; cbn; lia). eapply IH; eassumption.
Qed.

Theorem mvm_alignment cdist x y o (lm : mat N) d e : costs_of cdist x y lm ->
  dtw cdist x y o = Ok d -> r_stepPattern d = mvmStepPattern e -> 1 <= e -> (8 * Z.of_nat e <= INT_MAX)%Z ->
  o_distance_only o = false -> o_open_begin o = false -> 0 < nr lm ->
  exists mp, r_map d = Some mp /\ index1 mp = map Z.of_nat (seq 0 (nr lm)) /\
    List.length (index2 mp) = nr lm /\ first_is 0 (index2 mp) /\ last_is (Z.of_nat (r_jmin d)) (index2 mp) /\
    (o_open_end o = false -> r_jmin d = nc lm - 1) /\
    forall t j j', nth_error (index2 mp) t = Some j -> nth_error (index2 mp) (S t) = Some j' ->
      (j + 1 <= j' <= j + Z.of_nat e)%Z.
Proof.
  intros HC H Esp He Hi Hd Hb Hn.
  assert (Hp : pattern_rules (r_stepPattern d) (productions (mvm_productions e))) by (rewrite Esp; apply mvm_rules; assumption).
  destruct (row_by_row_closed L _ _ _ _ _ _ _ HC H Hp Hd Hn (mvm_row_by_row e)) as [mp [Em [E1 [E2 [E3 E4]]]]].
  destruct (monotone_closed L _ _ _ _ _ _ _ HC H Hp Hd Hb) as [mp' [Em' M]]. rewrite Em in Em'. injection Em' as <-.
  destruct (dtw_fields L _ _ _ _ _ _ _ HC H Hp) as [_ [_ [_ [_ [_ [_ [_ [_ [J _]]]]]]]]].
  exists mp. split; [exact Em|]. split; [exact E1|]. split; [exact E4|].
  destruct M as [_ [_ [_ [_ [M5 [_ [_ [_ [M9 _]]]]]]]]].
  split; [exact M5|]. split; [exact M9|]. split; [exact J|].
  destruct (dtw_alignment L _ _ _ _ _ _ _ HC H Hp Hd) as [mp' [ks [vs [ts [Em' [W [U [Hl D]]]]]]]].
  rewrite Em in Em'. injection Em' as <-. rewrite Hb in *. unfold admissible, end_cell, closed_walk in W.
  destruct (walk_mvm _ _ _ _ _ _ _ _ _ _ _ W) as [-> [_ G]]. destruct D as [_ [-> _]].
  intros t j j' H1 H2. rewrite nth_error_map in H1, H2.
  destruct (nth_error vs t) as [p|] eqn:F1; [|discriminate]. destruct (nth_error vs (S t)) as [p'|] eqn:F2; [|discriminate].
  injection H1 as <-. injection H2 as <-. specialize (G t p p' F1 F2). unfold ref_ix. lia.
Qed.

Theorem mvm_limits cdist x y o (lm : mat N) sp rules w e :
  well_posed cdist x y o lm sp rules w -> sp = mvmStepPattern e -> 1 <= e -> (8 * Z.of_nat e <= INT_MAX)%Z ->
  o_open_begin o = false -> o_open_end o = false ->
  ~ (nr lm - 1 <= nc lm - 1 <= e * (nr lm - 1)) -> dtw cdist x y o = Raise no_path.
Proof.
  intros WP Esp He Hi Hb Ho Hlim.
  assert (Hp : pattern_rules sp (productions (mvm_productions e))) by (rewrite Esp; apply mvm_rules; assumption).
  assert (WP' : well_posed cdist x y o lm sp (productions (mvm_productions e)) w) by (destruct WP; constructor; auto).
  destruct (dtw_closed_end_iff L _ _ _ _ _ _ _ _ WP' Ho) as [[H _]|[d [H [E [_ [ks [vs [ts [c [W _]]]]]]]]]]; [exact H|].
  exfalso. apply Hlim. rewrite Hb in W.
  destruct (slope_lower _ _ _ _ _ _ _ _ _ _ 1 1 ltac:(intros r Hr; destruct (mvm_in e r Hr); lia) W) as [j0 [E0 [E1 E2]]].
  destruct (slope_upper _ _ _ _ _ _ _ _ _ _ e 1 ltac:(intros r Hr; destruct (mvm_in e r Hr) as [A [B _]]; rewrite A; lia) W) as [j0' [E0' [E1' E2']]].
  subst. lia.
Qed.

Theorem mvm_feasible bnd (BL : BoundLaws N bnd) cdist x y o (lm : mat N) sp rules e :
  well_posed cdist x y o lm sp rules NoWindow -> sp = mvmStepPattern e -> 1 <= e -> (8 * Z.of_nat e <= INT_MAX)%Z ->
  o_open_begin o = false -> o_open_end o = false -> all_moderate bnd lm ->
  ((exists d, dtw cdist x y o = Ok d) <-> nr lm - 1 <= nc lm - 1 <= e * (nr lm - 1)).
Proof.
  intros WP Esp He Hi Hb Ho Hm.
  assert (Hp : pattern_rules sp (productions (mvm_productions e))) by (rewrite Esp; apply mvm_rules; assumption).
  assert (WP' : well_posed cdist x y o lm sp (productions (mvm_productions e)) NoWindow) by (destruct WP; constructor; auto).
  split.
  - intros [d H]. destruct (Nat.le_decidable (nr lm - 1) (nc lm - 1)) as [D1|D1];
    destruct (Nat.le_decidable (nc lm - 1) (e * (nr lm - 1))) as [D2|D2]; auto;
    exfalso; rewrite (mvm_limits _ _ _ _ _ _ _ _ _ WP Esp He Hi Hb Ho) in H; try discriminate; lia.
  - intros D. eapply (feasible_closed_end L bnd BL); eauto.
    { apply mvm_good; assumption. } { apply mvm_light. }
    rewrite Hb. unfold admissible, end_cell. pose proof (wp_query _ _ _ _ _ _ _ _ WP). pose proof (wp_size _ _ _ _ _ _ _ _ WP) as [_ [Q _]].
    apply reach_closed_walk; auto. apply (reach_mvm _ e); try lia.
    intros k Hk. exists (production (W 1 k [(0, 0, (1, 1)%Z)])). split; [|split; reflexivity].
    apply in_map. unfold mvm_productions. apply (in_map (fun k => W 1 k [(0, 0, (1, 1)%Z)])). apply in_seq. lia.
Qed.

End Thm10.
