(** Thm28.v - closed forms of countPaths (proofs for C59). *)
From Coq Require Import ZifyBool ZifyNat Permutation.
From Verif Require Import Base Num StepPattern Window Core Backtrack Dtw Spec Api Tables Vocab Terms
  CoreProof DPProof DtwProof ApiProof ApiThms CountPaths CountSpec CountProof CountThm CountThm2 Derived PathSpec.
Open Scope string_scope.
Open Scope list_scope.
Open Scope nat_scope.

Lemma delannoy_0 j : delannoy 0 j = 1. Proof. reflexivity. Qed.
Lemma delannoy_i0 i : delannoy i 0 = 1. Proof. destruct i; reflexivity. Qed.
Lemma delannoy_SS i j : delannoy (S i) (S j) = delannoy i j + delannoy i (S j) + delannoy (S i) j.
Proof. reflexivity. Qed.
Lemma delannoy_pos i j : 1 <= delannoy i j.
Proof. revert j. induction i as [|i IH]; intros j; [rewrite delannoy_0; lia|]. destruct j; [rewrite delannoy_i0; lia|]. rewrite delannoy_SS. pose proof (IH j). lia. Qed.
Lemma delannoy_i i j : delannoy i j <= delannoy (S i) j.
Proof. destruct j; [rewrite !delannoy_i0; lia|]. rewrite delannoy_SS. lia. Qed.
Lemma delannoy_j i j : delannoy i j <= delannoy i (S j).
Proof. destruct i; [rewrite !delannoy_0; lia|]. rewrite delannoy_SS. lia. Qed.
Lemma delannoy_mono i i' j j' : i <= i' -> j <= j' -> delannoy i j <= delannoy i' j'.
Proof.
  intros Hi Hj. apply Nat.le_trans with (delannoy i' j).
  - induction Hi; [lia|]. eapply Nat.le_trans; [exact IHHi|apply delannoy_i].
  - induction Hj; [lia|]. eapply Nat.le_trans; [exact IHHj|apply delannoy_j].
Qed.
Lemma trinomial_pow n k : trinomial n k <= 3 ^ n.
Proof.
  revert k. induction n as [|n IH]; intros k; [destruct k; cbn; lia|]. cbn [trinomial Nat.pow].
  pose proof (IH k). destruct k as [|[|k]]; [lia|pose proof (IH 0); lia|pose proof (IH (S k)); pose proof (IH k); lia].
Qed.

Definition moves {N : Num} (rules : list (rule N)) : list (nat * nat) := map (fun r => (r_di r, r_dj r)) rules.

Lemma list_sum_perm {A} (f : A -> nat) l l' : Permutation l l' -> list_sum (map f l) = list_sum (map f l').
Proof. unfold list_sum. induction 1; cbn [map fold_right]; lia. Qed.

Ltac perm := apply NoDup_Permutation; [repeat constructor; cbn; intuition discriminate|repeat constructor; cbn; intuition discriminate|cbn; intuition].

Section Counts.
Context {N : Num}.
Variable L : NumLaws N.

Lemma okb_none n m i j : okb n m (@NoWindow N) [] i j = true.
Proof.
  unfold okb, call_window, noWindow. destruct (Z.lor (Z.of_nat i) 1 =? 0)%Z eqn:E; [|reflexivity].
  apply Z.eqb_eq in E. apply Z.lor_eq_0_iff in E. lia.
Qed.

Lemma cnt_moves (rules : list (rule N)) sb ob i j : forallb valid_rule rules = true -> sb i j = false -> ob i j = true ->
  cnt rules sb ob i j = list_sum (map (fun d => if (fst d <=? i) && (snd d <=? j) then cnt rules sb ob (i - fst d) (j - snd d) else 0) (moves rules)).
Proof. intros Hv E O. rewrite (cnt_step rules Hv sb ob i j E O). unfold moves. rewrite map_map. reflexivity. Qed.

Lemma cnt_delannoy (rules : list (rule N)) n m : forallb valid_rule rules = true ->
  Permutation (moves rules) [(1, 1); (0, 1); (1, 0)] -> forall i j, cnt rules (srcb false) (okb n m (@NoWindow N) []) i j = delannoy i j.
Proof.
  intros Hv Hm. assert (G : forall f i j, i + j <= f -> cnt rules (srcb false) (okb n m (@NoWindow N) []) i j = delannoy i j).
  { induction f as [|f IH]; intros i j Hf.
    - replace i with 0 by lia. replace j with 0 by lia. rewrite cnt_src by reflexivity. reflexivity.
    - destruct (Nat.eq_dec (i + j) 0) as [Z0|Z0]; [apply IH; lia|].
      rewrite (cnt_moves rules _ _ i j Hv); [|unfold srcb; cbn [orb]; lia|apply okb_none].
      rewrite (list_sum_perm _ _ _ Hm). unfold list_sum. cbn [map fold_right fst snd].
      destruct i as [|i], j as [|j]; cbn [Nat.leb andb]; rewrite ?Nat.sub_0_r, ?Nat.add_0_r; cbn [Nat.sub]; rewrite ?Nat.sub_0_r.
      + lia.
      + rewrite IH by lia. rewrite !delannoy_0. lia.
      + rewrite IH by lia. rewrite !delannoy_i0. lia.
      + rewrite !IH by lia. rewrite delannoy_SS. lia. }
  intros i j. apply (G (i + j)). lia.
Qed.

Lemma cnt_trinomial (rules : list (rule N)) n m : forallb valid_rule rules = true ->
  Permutation (moves rules) [(1, 0); (1, 1); (1, 2)] -> forall i j, cnt rules (srcb false) (okb n m (@NoWindow N) []) i j = trinomial i j.
Proof.
  intros Hv Hm. induction i as [|i IH]; intros j.
  - destruct j as [|j]; [rewrite cnt_src by reflexivity; reflexivity|].
    rewrite (cnt_moves rules _ _ 0 (S j) Hv); [|reflexivity|apply okb_none]. rewrite (list_sum_perm _ _ _ Hm). reflexivity.
  - rewrite (cnt_moves rules _ _ (S i) j Hv); [|reflexivity|apply okb_none]. rewrite (list_sum_perm _ _ _ Hm).
    unfold list_sum. cbn [map fold_right fst snd trinomial Nat.leb andb Nat.sub]. rewrite ?Nat.sub_0_r. rewrite IH.
    destruct j as [|[|j]]; cbn [Nat.leb Nat.sub]; rewrite ?Nat.sub_0_r, ?IH; lia.
Qed.

Lemma count_of_cells cdist x y o (lm : mat N) d k (f : nat -> nat -> nat) :
  costs_of cdist x y lm -> dtw cdist x y o = Ok d ->
  k <> "_symmetricVelichkoZagoruyko" -> lookup k pattern_table = Some (r_stepPattern d) ->
  r_windowFunction d = NoWindow -> r_windowArgs d = [] ->
  o_open_begin o = false -> o_open_end o = false ->
  (forall l, lookup k predefined = Some l -> forallb (@valid_rule N) (productions l) = true ->
    forall i j, cnt (@productions N l) (srcb false) (okb (nr lm) (nc lm) (@NoWindow N) []) i j = f i j) ->
  (forall i j, i < nr lm -> j < nc lm -> (Z.of_nat (f i j) <= 2 ^ 53)%Z) ->
  countPaths d = Ok (Z.of_nat (f (nr lm - 1) (nc lm - 1))).
Proof.
  intros HC H Hk Hs Hw Ha Ob Oe Hf Hb.
  destruct (predefined_rules L _ _ Hs) as [l [Hl Hp]].
  assert (Hv : forallb (@valid_rule N) (productions l) = true) by apply Hp.
  pose proof (named_no_marker L k l Hl Hk) as NM.
  assert (Call : window_callable (@NoWindow N) [] (nr lm) (nc lm)) by (intros i j _ _; eexists; reflexivity).
  destruct (dtw_shape L _ _ _ _ _ _ _ HC H Hp Ob) as [Hn Hm].
  destruct (count_closed L _ _ _ _ _ _ _ HC H Hp NM Ob Oe (fun _ => Ha)) as [c [Hc E]].
  - rewrite Hw, Ha. intros i j c Hi Hj Hc.
    rewrite (numbers_unique _ _ _ Hc (admitted_count _ lm _ _ i j Hv Call Hi Hj)), (Hf l Hl Hv). apply Hb; assumption.
  - rewrite Hw, Ha in Hc. rewrite E. f_equal. f_equal.
    rewrite (numbers_unique _ _ _ Hc (admitted_count _ lm _ _ (nr lm - 1) (nc lm - 1) Hv Call ltac:(lia) ltac:(lia))). apply (Hf l Hl Hv).
Qed.

(** ** C59 *)
Theorem count_delannoy cdist x y o (lm : mat N) d k :
  costs_of cdist x y lm -> dtw cdist x y o = Ok d ->
  In k ["symmetric1"; "symmetric2"; "symmetricP0"] -> lookup k pattern_table = Some (r_stepPattern d) ->
  r_windowFunction d = NoWindow -> r_windowArgs d = [] ->
  o_open_begin o = false -> o_open_end o = false ->
  (Z.of_nat (delannoy (nr lm - 1) (nc lm - 1)) <= 2 ^ 53)%Z ->
  countPaths d = Ok (Z.of_nat (delannoy (nr lm - 1) (nc lm - 1))).
Proof.
  intros HC H Hk Hs Hw Ha Ob Oe Hb.
  apply (count_of_cells cdist x y o lm d k delannoy); auto.
  - intros ->. cbn in Hk. intuition discriminate.
  - intros l Hl Hv. apply cnt_delannoy; [exact Hv|]. clear - Hk Hl. revert l Hl.
    repeat (destruct Hk as [<-|Hk]; [intros l Hl; vm_compute in Hl; injection Hl as <-; cbn; perm|]). destruct Hk.
  - intros i j Hi Hj. pose proof (delannoy_mono i (nr lm - 1) j (nc lm - 1) ltac:(lia) ltac:(lia)). lia.
Qed.

Theorem count_trinomial cdist x y o (lm : mat N) d :
  costs_of cdist x y lm -> dtw cdist x y o = Ok d -> r_stepPattern d = asymmetric ->
  r_windowFunction d = NoWindow -> r_windowArgs d = [] ->
  o_open_begin o = false -> o_open_end o = false ->
  (3 ^ Z.of_nat (nr lm - 1) <= 2 ^ 53)%Z ->
  countPaths d = Ok (Z.of_nat (trinomial (nr lm - 1) (nc lm - 1))).
Proof.
  intros HC H Hs Hw Ha Ob Oe Hb.
  apply (count_of_cells cdist x y o lm d "asymmetric" trinomial); auto; try discriminate.
  - rewrite Hs. reflexivity.
  - intros l Hl Hv. apply cnt_trinomial; [exact Hv|]. clear - Hl. vm_compute in Hl. injection Hl as <-. cbn. perm.
  - intros i j Hi Hj. pose proof (trinomial_pow i j). eapply Z.le_trans; [|exact Hb].
    change 3%Z with (Z.of_nat 3). rewrite <- Nat2Z.inj_pow. apply inj_le. eapply Nat.le_trans; [eassumption|]. apply Nat.pow_le_mono_r; lia.
Qed.
End Counts.
