(** Accuracy2.v - accuracy of the computed distance (proofs). *)
From Coq Require Import ZifyBool ZifyNat Reals Lra Psatz Lia.
From Flocq Require Import Core BinarySingleNaN.
From Verif Require Import Base Num NumF NumFLaws StepPattern Window Core Backtrack Dtw Spec Api Tables Vocab Terms
  DPProof ApiThms Thm2 Laws2 Exact Accuracy.
Open Scope string_scope.
Open Scope list_scope.
Open Scope nat_scope.
Local Arguments bpow : simpl never.

(** A production charges at most as many costs as it makes unit steps. *)
Definition wshort (r : wrule) : bool := List.length (w_add r) <=? w_di r + w_dj r.
Definition weights_ok (e : nat) (l : list wrule) : Prop :=
  (e = 0 /\ forallb (fun r => forallb (fun a => wexact (snd a)) (w_add r)) l = true) \/
  (e = 2 /\ forallb (fun r => forallb (fun a => wmid (snd a)) (w_add r)) l = true).

Section Acc.
Variable M : f64 -> f64 -> f64 -> f64.
Notation N := (NumG M).
Variable HM : Mok M.
Variable l : list wrule.
Variable e : nat.
Hypothesis Hshort : forallb wshort l = true.
Hypothesis Hw : weights_ok e l.
Variable n m : nat.
Variable cost : nat -> nat -> N.
Variable rc : nat -> nat -> R.
Hypothesis Hc : forall i j, i < n -> j < m ->
  is_finite (cost i j : f64) = true /\ rc i j = B2R (cost i j : f64) /\ (0 <= rc i j)%R /\
  (e = 2 -> not_tiny (rc i j)).
Variable source : nat -> nat -> option N.
Variable rsource : nat -> nat -> option R.
Hypothesis Hs : forall i j c, source i j = Some c -> i < n -> j < m ->
  is_finite (c : f64) = true /\ (0 <= B2R (c : f64))%R.
Hypothesis Hsr : forall i j r, i < n -> j < m ->
  (rsource i j = Some r <-> exists c, source i j = Some c /\ r = B2R (c : f64)).
Variable allowed : nat -> nat -> Prop.

Lemma suits_cell r a i j : In r l -> In a (w_add r) -> i < n -> j < m ->
  suits e (snd a) (cost (i - fst (fst a)) (j - snd (fst a))).
Proof.
  intros Hr Ha Hi Hj. destruct (Hc (i - fst (fst a)) (j - snd (fst a)) ltac:(lia) ltac:(lia)) as [F [E [P T]]].
  rewrite E in P, T. split; [exact F|]. split; [exact P|].
  destruct Hw as [[He G]|[He G]]; rewrite forallb_forall in G; specialize (G r Hr); rewrite forallb_forall in G; specialize (G a Ha).
  - left. auto.
  - right. auto.
Qed.

Lemma charge_approx r i j k c x : In r l -> i < n -> j < m -> approx (k + e) c x ->
  approx (k + List.length (w_add r) + e) (charge cost (@production N r) i j c) (real_charge rc r i j x).
Proof.
  intros Hr Hi Hj. unfold charge, real_charge, production. cbn [r_add].
  assert (G : forall adds, (forall a, In a adds -> In a (w_add r)) -> forall k c x, approx (k + e) c x ->
    approx (k + List.length adds + e)
      (fold_left (fun (c : N) a => macc c (snd a) (cost (i - fst (fst a)) (j - snd (fst a))))
         (map (fun a => (fst a, @weight N (snd a))) adds) c)
      (fold_left (fun c a => (c + real_weight (snd a) * rc (i - fst (fst a))%nat (j - snd (fst a))%nat)%R) adds x)).
  { induction adds as [|a adds IH]; intros Hin k' c' x' H.
    - cbn. replace (k' + 0 + e) with (k' + e) by lia. exact H.
    - cbn [map fold_left List.length fst snd]. replace (k' + S (List.length adds) + e) with (S k' + List.length adds + e) by lia.
      apply IH; [intros b Hb; apply Hin; right; exact Hb|].
      pose proof (suits_cell r a i j Hr (Hin a (or_introl eq_refl)) Hi Hj) as S.
      destruct (Hc (i - fst (fst a)) (j - snd (fst a)) ltac:(lia) ltac:(lia)) as [_ [E _]]. rewrite E.
      exact (HM k' e c' x' (snd a) _ H S). }
  intros H. apply G; auto.
Qed.

Lemma prod_no k r : nth_error l k = Some r -> rule_no (@productions N l) (S k) = Some (production r).
Proof. intros H. cbn. unfold productions. rewrite nth_error_map, H. reflexivity. Qed.
Lemma prod_no_inv k r : rule_no (@productions N l) k = Some r ->
  exists k' w, k = S k' /\ nth_error l k' = Some w /\ r = production w.
Proof.
  destruct k as [|k]; [discriminate|]. cbn. unfold productions. rewrite nth_error_map.
  destruct (nth_error l k) as [w|] eqn:E; [|discriminate]. intros H. injection H as <-. exists k, w. auto.
Qed.
Lemma short r : In r l -> List.length (w_add r) <= w_di r + w_dj r.
Proof. intros H. rewrite forallb_forall in Hshort. specialize (Hshort r H). unfold wshort in Hshort. lia. Qed.

Lemma walk_real ks vs ts q c : walk (@productions N l) cost n m source allowed ks vs ts q c ->
  exists r, real_walk l rc n m rsource allowed ks q r /\ approx (fst q + snd q + e) c r.
Proof.
  intros W. induction W as [i j c H Hi Hj | ks vs ts i0 j0 c k r W [x [RW A]] Hk Hi Hj Ha].
  - destruct (Hs i j c H Hi Hj) as [F P]. exists (B2R (c : f64)). split.
    + constructor; [|assumption|assumption]. apply Hsr; [assumption|assumption|]. exists c. auto.
    + apply approx_mono with 0; [lia|]. apply approx_exact; assumption.
  - destruct (prod_no_inv _ _ Hk) as [k' [w [-> [Hw' ->]]]]. cbn [production r_di r_dj] in *.
    pose proof (nth_error_In _ _ Hw') as Hin.
    exists (real_charge rc w (i0 + w_di w) (j0 + w_dj w) x). split.
    + econstructor; eassumption.
    + cbn [fst snd] in *. pose proof (charge_approx w _ _ (i0 + j0) c x Hin Hi Hj A) as G.
      eapply approx_mono; [|exact G]. pose proof (short w Hin). lia.
Qed.

Lemma real_walk_float ks q r : real_walk l rc n m rsource allowed ks q r ->
  exists vs ts c, walk (@productions N l) cost n m source allowed ks vs ts q c /\ approx (fst q + snd q + e) c r.
Proof.
  intros W. induction W as [i j c H Hi Hj | ks i0 j0 x k w W [vs [ts [c [FW A]]]] Hk Hi Hj Ha].
  - apply Hsr in H; [|assumption|assumption]. destruct H as [c' [H ->]].
    destruct (Hs i j c' H Hi Hj) as [F P]. exists [(i, j)], [(i, j)], c'. split.
    + constructor; assumption.
    + apply approx_mono with 0; [lia|]. apply approx_exact; assumption.
  - pose proof (nth_error_In _ _ Hk) as Hin. pose proof (prod_no _ _ Hk) as Hk'.
    exists (vs ++ [(i0 + w_di w, j0 + w_dj w)]),
      (ts ++ inner_points (@production N w) (i0 + w_di w) (j0 + w_dj w) ++ [(i0 + w_di w, j0 + w_dj w)]),
      (charge cost (@production N w) (i0 + w_di w) (j0 + w_dj w) c). split.
    + exact (walk_step _ _ _ _ _ _ _ _ _ _ _ _ _ (production w) FW Hk' Hi Hj Ha).
    + cbn [fst snd] in *. pose proof (charge_approx w _ _ (i0 + j0) c x Hin Hi Hj A) as G.
      eapply approx_mono; [|exact G]. pose proof (short w Hin). lia.
Qed.
End Acc.
