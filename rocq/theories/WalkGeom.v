(** WalkGeom.v - geometry of walks (proofs only). *)
From Coq Require Import ZifyBool ZifyNat Sorting.Sorted.
From Verif Require Import Base Num StepPattern Window Spec.
Open Scope list_scope.
Open Scope nat_scope.

Definition le_pt (p p' : point) : Prop := fst p <= fst p' /\ snd p <= snd p'.

Section Geom.
Context {N : Num}.

Lemma rule_no_In (rules : list (rule N)) k r : rule_no rules k = Some r -> In r rules.
Proof. destruct k; simpl; [discriminate|]. apply nth_error_In. Qed.

Lemma rule_no_range (rules : list (rule N)) k r : rule_no rules k = Some r -> 1 <= k <= List.length rules.
Proof.
  destruct k; cbn [rule_no]; [discriminate|]. intros H.
  assert (k < List.length rules) by (apply nth_error_Some; congruence). lia.
Qed.

Lemma In_rule_no (rules : list (rule N)) r : In r rules -> exists k, rule_no rules k = Some r.
Proof. intros H. apply In_nth_error in H. destruct H as [k H]. exists (S k). exact H. Qed.

(** points of the steps after the first vertex *)
Fixpoint refined (rules : list (rule N)) (ks : list nat) (vs : list point) : list point :=
  match ks, vs with
  | k :: ks', p :: vs' =>
      (match rule_no rules k with
       | Some r => inner_points r (fst p) (snd p)
       | None => []
       end) ++ p :: refined rules ks' vs'
  | _, _ => []
  end.

Lemma refined_snoc rules ks vs k p : List.length ks = List.length vs ->
  refined rules (ks ++ [k]) (vs ++ [p]) =
  refined rules ks vs ++
  (match rule_no rules k with Some r => inner_points r (fst p) (snd p) | None => [] end) ++ [p].
Proof.
  revert vs. induction ks as [|k' ks IH]; intros [|v vs] H; try discriminate; [reflexivity|].
  cbn [app refined]. rewrite IH by (cbn in H; lia). rewrite <- app_assoc. reflexivity.
Qed.

Lemma going_down_le di dj (l : list (nat * nat * N)) a : going_down di dj l = true -> In a l ->
  fst (fst a) <= di /\ snd (fst a) <= dj.
Proof.
  revert di dj. induction l as [|[[oi oj] w] l IH]; intros di dj H Ha; [destruct Ha|].
  cbn [going_down] in H. apply andb_prop in H. destruct H as [H1 H2]. destruct Ha as [<-|Ha].
  - cbn. lia.
  - destruct (IH _ _ H2 Ha). lia.
Qed.

Lemma valid_adds (r : rule N) a : valid_rule r = true -> In a (r_add r) ->
  fst (fst a) <= r_di r /\ snd (fst a) <= r_dj r.
Proof.
  unfold valid_rule. intros H Ha. apply andb_prop in H. destruct H as [H _].
  apply andb_prop in H. destruct H as [_ H]. eapply going_down_le; eauto.
Qed.

Lemma inner_bounds (r : rule N) i j p : valid_rule r = true -> In p (inner_points r (i + r_di r) (j + r_dj r)) ->
  le_pt (i, j) p /\ le_pt p (i + r_di r, j + r_dj r).
Proof.
  intros Hr Hp. unfold inner_points in Hp. apply in_map_iff in Hp. destruct Hp as [a [<- Ha]].
  apply filter_In in Ha. destruct Ha as [Ha _]. destruct (valid_adds _ _ Hr Ha).
  unfold le_pt. cbn [fst snd]. lia.
Qed.

Lemma sorted_inner (r : rule N) i j : valid_rule r = true ->
  StronglySorted le_pt (inner_points r (i + r_di r) (j + r_dj r)).
Proof.
  intros Hr. unfold valid_rule in Hr. apply andb_prop in Hr. destruct Hr as [Hr _].
  apply andb_prop in Hr. destruct Hr as [_ Hr]. unfold inner_points.
  generalize (i + r_di r) (j + r_dj r). intros I J. revert Hr. generalize (r_di r) (r_dj r).
  induction (r_add r) as [|[[oi oj] w] l IH]; intros di dj H; [constructor|].
  cbn [going_down] in H. apply andb_prop in H. destruct H as [H1 H2]. specialize (IH _ _ H2).
  cbn [filter]. destruct (negb _); [|exact IH]. cbn [map fst snd]. constructor; [exact IH|].
  apply Forall_forall. intros p Hp. apply in_map_iff in Hp. destruct Hp as [a [<- Ha]].
  apply filter_In in Ha. destruct Ha as [Ha _]. destruct (going_down_le _ _ _ _ H2 Ha).
  unfold le_pt. cbn [fst snd]. lia.
Qed.

Lemma SS_app (R : point -> point -> Prop) l l' : StronglySorted R l -> StronglySorted R l' ->
  (forall x y, In x l -> In y l' -> R x y) -> StronglySorted R (l ++ l').
Proof.
  induction 1 as [|a l Hl IH Hf]; intros H' Hx; [exact H'|]. cbn [app]. constructor.
  - apply IH; [exact H'|]. intros. apply Hx; [right|]; assumption.
  - apply Forall_forall. intros y Hy. apply in_app_iff in Hy. destruct Hy as [Hy|Hy].
    + rewrite Forall_forall in Hf. apply Hf. exact Hy.
    + apply Hx; [left; reflexivity|exact Hy].
Qed.

Section W.
Variables (rules : list (rule N)) (cost : nat -> nat -> N) (n m : nat)
          (source : nat -> nat -> option N) (allowed : nat -> nat -> Prop).
Notation wk := (walk rules cost n m source allowed).

Lemma walk_length ks vs ts q c : wk ks vs ts q c -> List.length vs = S (List.length ks).
Proof. induction 1; [reflexivity|]. rewrite !app_length. cbn [List.length]. lia. Qed.

Lemma walk_refined ks vs ts q c : wk ks vs ts q c ->
  exists p vs', vs = p :: vs' /\ ts = p :: refined rules ks vs'.
Proof.
  induction 1 as [i j c Hs Hi Hj | ks vs ts i0 j0 c k r Hw IH Hk Hi Hj Ha].
  - exists (i, j), []. split; reflexivity.
  - destruct IH as [p [vs' [-> ->]]]. exists p. eexists. split; [reflexivity|].
    pose proof (walk_length _ _ _ _ _ Hw) as Hl. cbn in Hl.
    rewrite refined_snoc by lia. rewrite Hk. reflexivity.
Qed.

Lemma walk_steps ks vs ts q c : wk ks vs ts q c -> forall t k, nth_error ks t = Some k ->
  exists r p, rule_no rules k = Some r /\ nth_error vs t = Some p /\
    nth_error vs (S t) = Some (fst p + r_di r, snd p + r_dj r) /\
    allowed (fst p + r_di r) (snd p + r_dj r).
Proof.
  induction 1 as [i j c Hs Hi Hj | ks vs ts i0 j0 c k r Hw IH Hk Hi Hj Ha]; intros t k' Ht.
  - destruct t; discriminate.
  - pose proof (walk_length _ _ _ _ _ Hw) as Hl.
    destruct (Nat.lt_ge_cases t (List.length ks)) as [Hlt|Hge].
    + rewrite nth_error_app1 in Ht by exact Hlt.
      destruct (IH t k' Ht) as [r' [p [H1 [H2 [H3 H4]]]]]. exists r', p.
      split; [exact H1|]. rewrite !nth_error_app1 by lia. auto.
    + rewrite nth_error_app2 in Ht by exact Hge.
      destruct (t - List.length ks) eqn:E; [|destruct n0; discriminate].
      injection Ht as <-. assert (t = List.length ks) by lia. subst t.
      exists r, (i0, j0). split; [exact Hk|].
      assert (G : nth_error vs (List.length ks) = Some (i0, j0)).
      { assert (Hq : exists vs0, vs = vs0 ++ [(i0, j0)]).
        { clear -Hw. inversion Hw; subst; [exists []; reflexivity|eexists; reflexivity]. }
        destruct Hq as [vs0 ->]. rewrite app_length in Hl. cbn in Hl.
        rewrite nth_error_app2 by lia. replace (List.length ks - List.length vs0) with 0 by lia. reflexivity. }
      rewrite nth_error_app1 by lia. split; [exact G|].
      rewrite nth_error_app2 by lia. rewrite Hl, Nat.sub_diag. split; [reflexivity|exact Ha].
Qed.

Lemma walk_vertex_range ks vs ts q c : wk ks vs ts q c -> forall p, In p vs -> fst p < n /\ snd p < m.
Proof.
  induction 1 as [i j c Hs Hi Hj | ks vs ts i0 j0 c k r Hw IH Hk Hi Hj Ha]; intros p Hp.
  - destruct Hp as [<-|[]]. auto.
  - apply in_app_iff in Hp. destruct Hp as [Hp|[<-|[]]]; auto.
Qed.

(** the source and the allowed cells *)
Lemma walk_allowed ks vs ts q c : wk ks vs ts q c ->
  exists p vs', vs = p :: vs' /\ (exists c0, source (fst p) (snd p) = Some c0) /\
    forall v, In v vs' -> allowed (fst v) (snd v).
Proof.
  induction 1 as [i j c Hs Hi Hj | ks vs ts i0 j0 c k r Hw IH Hk Hi Hj Ha].
  - exists (i, j), []. split; [reflexivity|]. split; [exists c; exact Hs|]. intros v [].
  - destruct IH as [p [vs' [-> [H1 H2]]]]. exists p. eexists. split; [reflexivity|].
    split; [exact H1|]. intros v Hv. apply in_app_iff in Hv. destruct Hv as [Hv|[<-|[]]]; auto.
Qed.

(** linear invariants: a p-q weighted potential *)
Lemma walk_displacement ks vs ts q c : wk ks vs ts q c ->
  exists p vs', vs = p :: vs' /\
    forall f : nat -> nat -> Z, (forall a b c d, f (a + c) (b + d) = (f a b + f c d)%Z) ->
      (forall r, In r rules -> (0 <= f (r_di r) (r_dj r))%Z) ->
      (f (fst p) (snd p) <= f (fst q) (snd q))%Z.
Proof.
  induction 1 as [i j c Hs Hi Hj | ks vs ts i0 j0 c k r Hw IH Hk Hi Hj Ha].
  - exists (i, j), []. split; [reflexivity|]. intros. lia.
  - destruct IH as [p [vs' [-> IH]]]. exists p. eexists. split; [reflexivity|].
    intros f Hf Hr. specialize (IH f Hf Hr). cbn [fst snd] in *. rewrite Hf.
    specialize (Hr r (rule_no_In _ _ _ Hk)). lia.
Qed.

Section Valid.
Hypothesis Hv : forallb valid_rule rules = true.

Lemma rule_valid (r : rule N) : In r rules -> valid_rule r = true.
Proof. rewrite forallb_forall in Hv. auto. Qed.

Lemma walk_sorted ks vs ts q c : wk ks vs ts q c ->
  StronglySorted le_pt vs /\ StronglySorted le_pt ts /\
  (forall p, In p vs -> le_pt p q) /\ (forall p, In p ts -> le_pt p q).
Proof.
  induction 1 as [i j c Hs Hi Hj | ks vs ts i0 j0 c k r Hw IH Hk Hi Hj Ha].
  - repeat split; try (repeat constructor; fail);
      destruct H as [<-|[]]; cbn; lia.
  - destruct IH as [S1 [S2 [B1 B2]]]. pose proof (rule_valid r (rule_no_In _ _ _ Hk)) as Hr.
    assert (Bt : forall p, In p ts -> le_pt p (i0, j0)) by exact B2.
    assert (T : forall a b d, le_pt a b -> le_pt b d -> le_pt a d) by (unfold le_pt; intros; lia).
    assert (E : le_pt (i0, j0) (i0 + r_di r, j0 + r_dj r)) by (unfold le_pt; cbn; lia).
    split.
    { apply SS_app; [exact S1|repeat constructor|]. intros x y Hx [<-|[]]. eapply T; [apply B1; exact Hx|exact E]. }
    split.
    { apply SS_app; [exact S2| |].
      - apply SS_app; [apply sorted_inner; exact Hr|repeat constructor|].
        intros x y Hx [<-|[]]. apply (inner_bounds _ _ _ _ Hr Hx).
      - intros x y Hx Hy. apply T with (i0, j0); [apply B2; exact Hx|].
        apply in_app_iff in Hy. destruct Hy as [Hy|[<-|[]]]; [|exact E].
        apply (inner_bounds _ _ _ _ Hr Hy). }
    split.
    + intros p Hp. apply in_app_iff in Hp. destruct Hp as [Hp|[<-|[]]].
      * eapply T; [apply B1; exact Hp|exact E].
      * unfold le_pt. cbn. lia.
    + intros p Hp. apply in_app_iff in Hp. destruct Hp as [Hp|Hp].
      * eapply T; [apply B2; exact Hp|exact E].
      * apply in_app_iff in Hp. destruct Hp as [Hp|[<-|[]]].
        -- apply (inner_bounds _ _ _ _ Hr Hp).
        -- unfold le_pt. cbn. lia.
Qed.

Lemma walk_trace_range ks vs ts q c : wk ks vs ts q c -> forall p, In p ts -> fst p < n /\ snd p < m.
Proof.
  intros W p Hp. destruct (walk_sorted _ _ _ _ _ W) as [_ [_ [_ B]]]. specialize (B p Hp).
  assert (fst q < n /\ snd q < m). { clear - W. induction W; cbn; auto. }
  unfold le_pt in B. lia.
Qed.
End Valid.
End W.

Lemma SS_nth (R : point -> point -> Prop) l : (forall x, R x x) -> StronglySorted R l ->
  forall a b x y, a <= b -> nth_error l a = Some x -> nth_error l b = Some y -> R x y.
Proof.
  intros Rr. induction 1 as [|h l Hl IH Hf]; intros a b x y Hab Hx Hy.
  - destruct a; discriminate.
  - destruct a as [|a], b as [|b]; cbn in *.
    + injection Hx as <-. injection Hy as <-. apply Rr.
    + injection Hx as <-. rewrite Forall_forall in Hf. apply Hf. eapply nth_error_In. exact Hy.
    + lia.
    + eapply IH; [|exact Hx|exact Hy]. lia.
Qed.

End Geom.
