(** Sim.v - two runs of the recursion in different arithmetics that go the same way
    (proofs only). *)
From Coq Require Import ZifyBool ZifyNat.
From Verif Require Import Base Num StepPattern Window Core Backtrack Dtw Spec Api Tables Vocab Terms
  CoreProof DPProof DtwProof ApiProof ApiThms Uniq Thm7 Thm27.
Open Scope list_scope.
Open Scope nat_scope.

Lemma forall2_len {A B} (R : A -> B -> Prop) l l' : Forall2 R l l' -> List.length l = List.length l'.
Proof. induction 1; cbn; congruence. Qed.
Lemma forall2_nth {A B} (R : A -> B -> Prop) l l' q x y : Forall2 R l l' -> nth_error l q = Some x -> nth_error l' q = Some y -> R x y.
Proof. intros F. revert q. induction F; intros [|q] E E'; cbn in *; try discriminate; [congruence|eauto]. Qed.

Section Sim.
Context {N N' : Num}.
Variable L : NumLaws N.
Variable L' : NumLaws N'.

(** Productions with the same displacements and charged points. *)
Definition same_shape (r : rule N) (r' : rule N') : Prop :=
  r_di r = r_di r' /\ r_dj r = r_dj r' /\ map fst (r_add r) = map fst (r_add r').

Variable rules : list (rule N).
Variable rules' : list (rule N').
Variable Hshape : Forall2 same_shape rules rules'.
Variable Hv : forallb valid_rule rules = true.
Variables n m : nat.
Variables (cost seed : nat -> nat -> N) (cost' seed' : nat -> nat -> N').
Variable win : nat -> nat -> bool.

(** [C i j]: cell values that correspond; [K i j]: proposals that correspond. *)
Variable C K : nat -> nat -> N -> N' -> Prop.
Variable Hseed : forall i j, i < n -> j < m -> isnan (seed i j) = isnan (seed' i j) /\ C i j (seed i j) (seed' i j).
Variable Hcharge : forall q r r' i j a a', nth_error rules q = Some r -> nth_error rules' q = Some r' ->
  i < n -> j < m -> r_di r <= i -> r_dj r <= j -> C (i - r_di r) (j - r_dj r) a a' ->
  K i j (charge cost r i j a) (charge cost' r' i j a').
Variable Kgood : forall i j v v', K i j v v' -> (good v <-> good v').
Variable Kord : forall i j v v' u u', i < n -> j < m -> K i j v v' -> K i j u u' -> good v -> good u ->
  leb v u = leb v' u' /\ ltb v u = ltb v' u'.
Variable KC : forall i j v v', K i j v v' -> good v -> C i j v v'.

Definition rel_cands i j (l : list N) (l' : list N') : Prop :=
  List.length l = List.length l' /\
  forall q v v', nth_error l q = Some v -> nth_error l' q = Some v' ->
    K i j v v' \/ (isnan v = true /\ isnan v' = true).

Lemma rel_good i j l l' q v : rel_cands i j l l' -> nth_error l q = Some v -> good v ->
  exists v', nth_error l' q = Some v' /\ K i j v v' /\ good v'.
Proof.
  intros [Hl H] Hq G. destruct (nth_error l' q) as [v'|] eqn:E.
  - exists v'. split; [reflexivity|]. destruct (H q v v' Hq E) as [Hk|[Hn _]].
    + split; [exact Hk|]. apply (Kgood _ _ _ _ Hk). exact G.
    + apply (law_good_not_nan _ L) in G. congruence.
  - apply nth_error_None in E. assert (q < List.length l) by (apply nth_error_Some; congruence). lia.
Qed.
Lemma rel_good' i j l l' q v' : rel_cands i j l l' -> nth_error l' q = Some v' -> good v' ->
  exists v, nth_error l q = Some v /\ K i j v v' /\ good v.
Proof.
  intros [Hl H] Hq G. destruct (nth_error l q) as [v|] eqn:E.
  - exists v. split; [reflexivity|]. destruct (H q v v' E Hq) as [Hk|[_ Hn]].
    + split; [exact Hk|]. apply (Kgood _ _ _ _ Hk). exact G.
    + apply (law_good_not_nan _ L') in G. congruence.
  - apply nth_error_None in E. assert (q < List.length l') by (apply nth_error_Some; congruence). lia.
Qed.

Lemma first_min_sim i j l l' a b : i < n -> j < m -> rel_cands i j l l' -> first_min l a -> first_min l' b ->
  a = b /\ forall k v v', a = Z.of_nat k -> nth_error l k = Some v -> nth_error l' k = Some v' -> C i j v v'.
Proof.
  intros Hi Hj R Ha Hb.
  destruct Ha as [[-> Ha]|[k [x [-> [Hk [G [Hmin Hfst]]]]]]];
  destruct Hb as [[-> Hb]|[k' [x' [-> [Hk' [G' [Hmin' Hfst']]]]]]].
  - split; [reflexivity|]. intros k v v' E. lia.
  - exfalso. destruct (rel_good' _ _ _ _ _ _ R Hk' G') as [v [Hv' [_ Gv]]]. eapply Ha; eauto.
  - exfalso. destruct (rel_good _ _ _ _ _ _ R Hk G) as [v' [Hv' [_ Gv]]]. eapply Hb; eauto.
  - destruct (rel_good _ _ _ _ _ _ R Hk G) as [u' [Hu' [Ku Gu']]].
    destruct (rel_good' _ _ _ _ _ _ R Hk' G') as [u [Hu [Ku' Gu]]].
    destruct (Kord i j x u' u x' Hi Hj Ku Ku' G Gu) as [O1 O2].
    destruct (Kord i j u x' x u' Hi Hj Ku' Ku Gu G) as [O3 O4].
    assert (k = k').
    { destruct (Nat.lt_trichotomy k k') as [Hlt|[->|Hlt]]; [|reflexivity|].
      - pose proof (Hfst' k u' Hlt Hu' Gu') as A. pose proof (Hmin k' u Hu Gu) as B. rewrite O1 in B.
        pose proof (law_lt_le_trans _ L' _ _ _ A B) as Z. rewrite (law_lt_irrefl _ L') in Z. discriminate.
      - pose proof (Hfst k' u Hlt Hu Gu) as A. rewrite O2 in A. pose proof (Hmin' k u' Hu' Gu') as B.
        pose proof (law_lt_le_trans _ L' _ _ _ A B) as Z. rewrite (law_lt_irrefl _ L') in Z. discriminate. }
    subst k'. split; [reflexivity|]. intros k0 v v' E Hv1 Hv2. assert (k0 = k) by lia. subst k0.
    apply KC; congruence.
Qed.

Theorem bellman_sim cmf smf cmf' smf' :
  @bellman N rules n m cost seed win cmf smf -> @bellman N' rules' n m cost' seed' win cmf' smf' ->
  forall i j, i < n -> j < m -> C i j (cmf i j) (cmf' i j) /\ smf i j = smf' i j.
Proof.
  intros HB HB' i j. remember (i + j) as s eqn:Es. revert i j Es.
  induction s as [s IH] using (well_founded_induction lt_wf). intros i j -> Hi Hj.
  pose proof (HB i j Hi Hj) as Ce. pose proof (HB' i j Hi Hj) as Ce'. unfold cell_eq in Ce, Ce'.
  destruct (Hseed i j Hi Hj) as [En Cs]. rewrite <- En in Ce'.
  destruct (negb (isnan (seed i j))).
  { destruct Ce as [-> ->], Ce' as [-> ->]. auto. }
  destruct (negb (win i j)).
  { destruct Ce as [-> ->], Ce' as [-> ->]. auto. }
  destruct Ce as [l [a [Hc [Hm Hd]]]], Ce' as [l' [a' [Hc' [Hm' Hd']]]].
  assert (R : rel_cands i j l l').
  { destruct Hc as [Hl Hc], Hc' as [Hl' Hc'].
    assert (Hlen : List.length rules = List.length rules') by (eapply forall2_len; exact Hshape).
    split; [congruence|]. intros q v v' Hq Hq'.
    assert (Hq0 : q < List.length rules) by (rewrite <- Hl; apply nth_error_Some; congruence).
    destruct (nth_error rules q) as [r|] eqn:Er; [|apply nth_error_None in Er; lia].
    destruct (nth_error rules' q) as [r'|] eqn:Er'; [|apply nth_error_None in Er'; lia].
    assert (Sh : same_shape r r').
    { eapply forall2_nth; eauto. }
    destruct Sh as [S1 [S2 S3]].
    destruct (Hc q r Er) as [w [Hw1 Hw2]]. destruct (Hc' q r' Er') as [w' [Hw1' Hw2']].
    rewrite Hq in Hw1. rewrite Hq' in Hw1'. injection Hw1 as <-. injection Hw1' as <-.
    unfold cand_is in Hw2, Hw2'. rewrite <- S1, <- S2 in Hw2'.
    destruct (Nat.leb_spec (r_di r) i), (Nat.leb_spec (r_dj r) j); cbn [andb] in *; auto.
    left. rewrite Hw2, Hw2'.
    assert (Hr : valid_rule r = true).
    { rewrite forallb_forall in Hv. apply Hv. eapply nth_error_In. exact Er. }
    assert (Hpos : 0 < r_di r + r_dj r) by (unfold valid_rule in Hr; lia).
    eapply Hcharge; eauto. apply (IH (i - r_di r + (j - r_dj r))); lia. }
  destruct (first_min_sim _ _ _ _ _ _ Hi Hj R Hm Hm') as [<- Hk].
  destruct Hd as [[-> [-> ->]]|[k [-> [Hn ->]]]].
  - destruct Hd' as [[_ [-> ->]]|[k' [E _]]]; [auto|lia].
  - destruct Hd' as [[E _]|[k' [E [Hn' ->]]]]; [lia|]. assert (k' = k) by lia. subst k'.
    split; [|reflexivity]. eapply Hk; eauto.
Qed.
End Sim.

(** ** The trace of one run in the other *)
Section TracedSim.
Context {N N' : Num}.
Lemma inner_shape (r : rule N) (r' : rule N') i j : same_shape r r' -> inner_points r i j = inner_points r' i j.
Proof.
  intros [_ [_ E]]. unfold inner_points.
  assert (G : forall (l : list (nat * nat * N)) (l' : list (nat * nat * N')), map fst l = map fst l' ->
     map (fun a => (i - fst (fst a), j - snd (fst a))) (filter (fun a => negb ((fst (fst a) =? 0) && (snd (fst a) =? 0))) l) =
     map (fun a => (i - fst (fst a), j - snd (fst a))) (filter (fun a => negb ((fst (fst a) =? 0) && (snd (fst a) =? 0))) l')).
  { induction l as [|a l IHl]; intros [|a' l'] H; try discriminate; [reflexivity|]. cbn [map] in H. injection H as H1 H2.
    cbn [filter]. rewrite <- H1. destruct (negb _); cbn [map]; rewrite ?(IHl _ H2), ?H1; reflexivity. }
  apply G. exact E.
Qed.
Lemma traced_sim (rules : list (rule N)) (rules' : list (rule N')) smf smf' i j ks vs ts :
  Forall2 same_shape rules rules' -> traced rules smf i j ks vs ts ->
  (forall a b, a <= i -> b <= j -> smf' a b = smf a b) -> traced rules' smf' i j ks vs ts.
Proof.
  intros F T. induction T as [i j H|i j k r ks vs ts H Hr Hi Hj T IH]; intros E.
  - constructor. rewrite E; auto.
  - assert (X : exists r', rule_no rules' k = Some r' /\ same_shape r r').
    { clear -F Hr. unfold rule_no in *. destruct k as [|k]; [discriminate|].
      revert k Hr. induction F as [|x y lx ly Hxy _ IHF]; intros [|k] Hr; cbn in *; try discriminate.
      - injection Hr as <-. eauto.
      - apply IHF. exact Hr. }
    destruct X as [r' [Hr' Sh]]. rewrite (inner_shape r r' i j Sh). destruct Sh as [S1 [S2 S3]]. rewrite S1, S2 in *.
    econstructor; eauto; [rewrite E; auto|]. apply IH. intros a b Ha Hb. apply E; lia.
Qed.
End TracedSim.
