(** Uniq.v - the recursion determines the matrices (proofs only). *)
From Coq Require Import ZifyBool ZifyNat.
From Verif Require Import Base Num StepPattern Window Core Spec CoreProof DPProof Terms.
Open Scope list_scope.
Open Scope nat_scope.

Section Uniq.
Context {N : Num}.
Variable L : NumLaws N.

(** candidate lists that agree where it matters *)
Definition same_cands (l l' : list N) : Prop :=
  List.length l = List.length l' /\
  forall q v v', nth_error l q = Some v -> nth_error l' q = Some v' ->
    v = v' \/ (isnan v = true /\ isnan v' = true).

Lemma same_cands_good l l' q v : same_cands l l' -> nth_error l q = Some v -> good v ->
  nth_error l' q = Some v.
Proof.
  intros [Hl H] Hq G. destruct (nth_error l' q) as [v'|] eqn:E.
  - destruct (H q v v' Hq E) as [->|[Hn _]]; [reflexivity|].
    apply (law_good_not_nan _ L) in G. congruence.
  - apply nth_error_None in E. assert (q < List.length l) by (apply nth_error_Some; congruence). lia.
Qed.

Lemma same_cands_sym l l' : same_cands l l' -> same_cands l' l.
Proof.
  intros [Hl H]. split; [congruence|]. intros q v v' Hv Hv'. destruct (H q v' v Hv' Hv) as [->|[A B]]; auto.
Qed.

Lemma first_min_unique l l' a b : same_cands l l' -> first_min l a -> first_min l' b ->
  a = b /\ forall k, a = Z.of_nat k -> nth_error l k = nth_error l' k.
Proof.
  intros S Ha Hb. pose proof (same_cands_sym _ _ S) as S'.
  destruct Ha as [[-> Ha]|[k [x [-> [Hk [G [Hmin Hfst]]]]]]];
  destruct Hb as [[-> Hb]|[k' [x' [-> [Hk' [G' [Hmin' Hfst']]]]]]].
  - split; [reflexivity|]. intros k E. lia.
  - exfalso. eapply Ha; [|exact G']. eapply same_cands_good; eauto.
  - exfalso. eapply Hb; [|exact G]. eapply same_cands_good; eauto.
  - assert (k = k').
    { destruct (Nat.lt_trichotomy k k') as [Hlt|[->|Hlt]]; [|reflexivity|].
      - pose proof (same_cands_good _ _ _ _ S Hk G) as E. pose proof (Hfst' k x Hlt E G) as C.
        pose proof (same_cands_good _ _ _ _ S' Hk' G') as E'. pose proof (Hmin k' x' E' G') as C'.
        pose proof (law_lt_le_trans _ L _ _ _ C C') as Z. rewrite (law_lt_irrefl _ L) in Z. discriminate.
      - pose proof (same_cands_good _ _ _ _ S' Hk' G') as E. pose proof (Hfst k' x' Hlt E G') as C.
        pose proof (same_cands_good _ _ _ _ S Hk G) as E'. pose proof (Hmin' k x E' G) as C'.
        pose proof (law_lt_le_trans _ L _ _ _ C C') as Z. rewrite (law_lt_irrefl _ L) in Z. discriminate. }
    subst k'. split; [reflexivity|]. intros k0 E. assert (k0 = k) by lia. subst k0.
    pose proof (same_cands_good _ _ _ _ S Hk G). congruence.
Qed.

Lemma charge_ext (cost cost' : nat -> nat -> N) r i j c :
  (forall a b, a <= i -> b <= j -> cost a b = cost' a b) ->
  charge cost r i j c = charge cost' r i j c.
Proof.
  intros H. unfold charge. revert c. induction (r_add r) as [|a l IH]; intros c; [reflexivity|].
  cbn [fold_left]. rewrite H by lia. apply IH.
Qed.

Lemma bellman_prefix rules n m n' m' cost seed win cmf smf : n' <= n -> m' <= m ->
  @bellman N rules n m cost seed win cmf smf -> bellman rules n' m' cost seed win cmf smf.
Proof. intros Hn Hm H i j Hi Hj. apply H; lia. Qed.

Theorem bellman_unique rules n m cost seed win cmf smf cost' seed' win' cmf' smf' :
  forallb valid_rule rules = true ->
  (forall i j, i < n -> j < m -> cost i j = cost' i j /\ seed i j = seed' i j /\ win i j = win' i j) ->
  @bellman N rules n m cost seed win cmf smf -> bellman rules n m cost' seed' win' cmf' smf' ->
  forall i j, i < n -> j < m -> cmf i j = cmf' i j /\ smf i j = smf' i j.
Proof.
  intros Hv He HB HB' i j. remember (i + j) as s eqn:Es. revert i j Es.
  induction s as [s IH] using (well_founded_induction lt_wf). intros i j -> Hi Hj.
  pose proof (HB i j Hi Hj) as C. pose proof (HB' i j Hi Hj) as C'. unfold cell_eq in C, C'.
  destruct (He i j Hi Hj) as [Ec [Eseed Ew]]. rewrite <- Eseed, <- Ew in C'.
  destruct (negb (isnan (seed i j))).
  { destruct C as [-> ->], C' as [-> ->]. auto. }
  destruct (negb (win i j)).
  { destruct C as [-> ->], C' as [-> ->]. auto. }
  destruct C as [l [a [Hc [Hm Hd]]]], C' as [l' [a' [Hc' [Hm' Hd']]]].
  assert (S : same_cands l l').
  { destruct Hc as [Hl Hc], Hc' as [Hl' Hc']. split; [congruence|].
    intros q v v' Hq Hq'.
    assert (Hq0 : q < List.length rules) by (rewrite <- Hl; apply nth_error_Some; congruence).
    destruct (nth_error rules q) as [r|] eqn:Er; [|apply nth_error_None in Er; lia].
    destruct (Hc q r Er) as [w [Hw1 Hw2]]. destruct (Hc' q r Er) as [w' [Hw1' Hw2']].
    rewrite Hq in Hw1. rewrite Hq' in Hw1'. injection Hw1 as <-. injection Hw1' as <-.
    unfold cand_is in Hw2, Hw2'.
    destruct (Nat.leb_spec (r_di r) i), (Nat.leb_spec (r_dj r) j); cbn [andb] in *; auto.
    left. rewrite Hw2, Hw2'.
    assert (Hr : valid_rule r = true).
    { rewrite forallb_forall in Hv. apply Hv. eapply nth_error_In. exact Er. }
    assert (Hpos : 0 < r_di r + r_dj r) by (unfold valid_rule in Hr; lia).
    destruct (IH (i - r_di r + (j - r_dj r)) ltac:(lia) _ _ eq_refl ltac:(lia) ltac:(lia)) as [-> _].
    apply charge_ext. intros x y Hx Hy. apply He; lia. }
  destruct (first_min_unique _ _ _ _ S Hm Hm') as [<- Hk].
  destruct Hd as [[-> [-> ->]]|[k [-> [Hn ->]]]].
  - destruct Hd' as [[_ [-> ->]]|[k' [E _]]]; [auto|lia].
  - destruct Hd' as [[E _]|[k' [E [Hn' ->]]]]; [lia|]. assert (k' = k) by lia. subst k'.
    split; [|reflexivity]. rewrite (Hk k eq_refl) in Hn. congruence.
Qed.

(** ** Transposition *)

Lemma T_charge (cost : nat -> nat -> N) r i j c :
  charge (fun a b => cost b a) (T_rule r) j i c = charge cost r i j c.
Proof.
  unfold charge, T_rule. cbn [r_add]. revert c. induction (r_add r) as [|a l IH]; intros c; [reflexivity|].
  cbn [map fold_left fst snd]. apply IH.
Qed.

Lemma T_valid (r : rule N) : valid_rule (T_rule r) = valid_rule r.
Proof.
  unfold valid_rule, T_rule. cbn [r_di r_dj r_add]. f_equal.
  - f_equal; [rewrite andb_comm; reflexivity|].
    generalize (r_di r) (r_dj r). induction (r_add r) as [|[[oi oj] w] l IH]; intros di dj; [reflexivity|].
    cbn [map going_down fst snd]. rewrite IH. f_equal. apply andb_comm.
  - induction (r_add r) as [|a l IH]; [reflexivity|]. cbn [map forallb snd]. rewrite IH. reflexivity.
Qed.

Lemma bellman_T rules n m cost seed win cmf smf :
  @bellman N rules n m cost seed win cmf smf ->
  bellman (map T_rule rules) m n (fun a b => cost b a) (fun a b => seed b a) (fun a b => win b a)
          (fun a b => cmf b a) (fun a b => smf b a).
Proof.
  intros HB j i Hj Hi. pose proof (HB i j Hi Hj) as C. unfold cell_eq in *.
  destruct (negb (isnan (seed i j))); [exact C|]. destruct (negb (win i j)); [exact C|].
  destruct C as [l [a [[Hl Hc] [Hm Hd]]]]. exists l, a. split; [|split; assumption].
  split; [rewrite map_length; exact Hl|]. intros q r Hq.
  rewrite nth_error_map in Hq. destruct (nth_error rules q) as [r0|] eqn:Er; [|discriminate].
  injection Hq as <-. destruct (Hc q r0 Er) as [v [Hv1 Hv2]]. exists v. split; [exact Hv1|].
  unfold cand_is in *. cbn [T_rule r_di r_dj].
  rewrite (andb_comm (Nat.leb (r_dj r0) j)). destruct (Nat.leb (r_di r0) i && Nat.leb (r_dj r0) j)%bool; [|exact Hv2].
  rewrite Hv2. symmetry. apply T_charge.
Qed.

(** ** Mapping the values *)
Lemma bellman_map (h : N -> N) rules n m cost seed win cmf smf :
  (forall x, isnan (h x) = isnan x) ->
  (forall x y, ltb (h x) (h y) = ltb x y) ->
  (forall x y, leb (h x) (h y) = leb x y) ->
  (forall x, good (h x) <-> good x) ->
  (forall a w x, macc (h a) w (h x) = h (macc a w x)) ->
  @bellman N rules n m cost seed win cmf smf ->
  bellman rules n m (fun a b => h (cost a b)) (fun a b => h (seed a b)) win (fun a b => h (cmf a b)) smf.
Proof.
  intros Hn Hlt Hle Hg Hm HB i j Hi Hj. pose proof (HB i j Hi Hj) as C. unfold cell_eq in *.
  rewrite Hn. destruct (negb (isnan (seed i j))); [destruct C as [-> ->]; auto|].
  destruct (negb (win i j)); [destruct C as [-> ->]; auto|].
  destruct C as [l [a [[Hl Hc] [Hmin Hd]]]]. exists (map h l), a. split; [|split].
  - split; [rewrite map_length; exact Hl|]. intros q r Hq. destruct (Hc q r Hq) as [v [Hv1 Hv2]].
    exists (h v). split; [rewrite nth_error_map, Hv1; reflexivity|].
    unfold cand_is in *. destruct (Nat.leb (r_di r) i && Nat.leb (r_dj r) j)%bool; [|rewrite Hn; exact Hv2].
    rewrite Hv2. unfold charge. generalize (cmf (i - r_di r) (j - r_dj r)).
    induction (r_add r) as [|x xs IH]; intros c; [reflexivity|]. cbn [fold_left]. rewrite IH, Hm. reflexivity.
  - destruct Hmin as [[-> H]|[k [x [-> [Hk [G [H1 H2]]]]]]].
    + left. split; [reflexivity|]. intros k x Hk. rewrite nth_error_map in Hk.
      destruct (nth_error l k) as [y|] eqn:E; [|discriminate]. injection Hk as <-. rewrite Hg. eapply H; exact E.
    + right. exists k, (h x). split; [reflexivity|]. rewrite nth_error_map, Hk. split; [reflexivity|].
      split; [apply Hg; exact G|]. split; intros k' y.
      * rewrite nth_error_map. destruct (nth_error l k') as [z|] eqn:E; [|discriminate].
        intros Hy Gy. injection Hy as <-. rewrite Hle. eapply H1; [exact E|apply Hg; exact Gy].
      * intros Hlt'. rewrite nth_error_map. destruct (nth_error l k') as [z|] eqn:E; [|discriminate].
        intros Hy Gy. injection Hy as <-. rewrite Hlt. eapply H2; [exact Hlt'|exact E|apply Hg; exact Gy].
  - destruct Hd as [[-> [-> ->]]|[k [-> [Hk ->]]]]; [left; auto|]. right. exists k. split; [reflexivity|].
    rewrite nth_error_map, Hk. auto.
Qed.

End Uniq.
