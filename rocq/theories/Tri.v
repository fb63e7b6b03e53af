(** Tri.v - the weak triangle inequality of DTW (proofs for C68). *)
From Coq Require Import QArith Qcanon Lqa ZifyBool ZifyNat.
From Verif Require Import Base Num NumQ NumQLaws StepPattern Window Core Backtrack Dtw Spec Api Tables Vocab Terms
  CoreProof DPProof DtwProof ApiProof ApiThms Uniq Thm2 Thm5 Thm9 WalkGeom Thm11 Derived Derived2 Thm22 Thm23 Sim Thm31 StableSpec Stable TriSpec.
Open Scope string_scope.
Open Scope list_scope.
Open Scope nat_scope.

Definition qc (n : nat) : Qc := qc_ofZ (Z.of_nat n).
Lemma this_qc n : (this (qc n) == inject_Z (Z.of_nat n))%Q.
Proof. unfold qc. rewrite this_ofZ. reflexivity. Qed.

(** the productions of symmetric1 and symmetric2 *)
Definition moves (W : Z) (rules : list (rule NumQ)) : Prop :=
  (forall r, In r rules -> r = Rule 1 1 [(0, 0, ofZ W)] \/ r = Rule 0 1 [(0, 0, ofZ 1)] \/ r = Rule 1 0 [(0, 0, ofZ 1)]) /\
  In (Rule 1 1 [(0, 0, ofZ W)]) rules /\ In (Rule 0 1 [(0, 0, ofZ 1)]) rules /\ In (Rule 1 0 [(0, 0, ofZ 1)]) rules.

Definition val (x : NumQ) : Qc := match x with XFin q => q | _ => Q2Qc 0 end.

Section Tri.
Variable W : Z.
Hypothesis HW : (1 <= W)%Z.
Variable rules : list (rule NumQ).
Hypothesis Hm : moves W rules.

(** how far a production goes in each direction, and what it costs *)
Inductive move : nat -> nat -> Z -> Prop := mdiag : move 1 1 W | mright : move 0 1 1 | mdown : move 1 0 1.

Section One.
Variable lm : mat NumQ.
Variable a : nat -> nat -> Qc.
Variable allowed : nat -> nat -> Prop.
Hypothesis Ha : forall i j, i < nr lm -> j < nc lm -> cell lm i j = XFin (a i j) /\ (0 <= a i j)%Qc.
Notation wk := (walk rules (cell lm) (nr lm) (nc lm) (closed_source lm) allowed).

Lemma charge_move di dj w i j c : move di dj w -> i < nr lm -> j < nc lm ->
  charge (cell lm) (Rule di dj [(0, 0, ofZ w)]) i j (XFin c) = XFin (c + qc_ofZ w * a i j)%Qc.
Proof.
  intros _ Hi Hj. unfold charge. cbn [r_add fold_left fst snd]. rewrite !Nat.sub_0_r. destruct (Ha i j Hi Hj) as [-> _]. reflexivity.
Qed.
Lemma rule_move r : In r rules -> exists di dj w, move di dj w /\ r = Rule di dj [(0, 0, ofZ w)].
Proof. destruct Hm as [H _]. intros Hr. destruct (H r Hr) as [E|[E|E]]; rewrite E; eexists _, _, _; split; try reflexivity; constructor. Qed.
Lemma move_rule di dj w : move di dj w -> exists k, rule_no rules k = Some (Rule di dj [(0, 0, ofZ w)]).
Proof. destruct Hm as [_ [H1 [H2 H3]]]. intros []; apply in_rule_no; assumption. Qed.

Lemma walk_cases ks vs ts q c : wk ks vs ts q c ->
  (ks = [] /\ q = (0, 0) /\ c = cell lm 0 0 /\ 0 < nr lm /\ 0 < nc lm) \/
  exists ks' vs' ts' i0 j0 c0 di dj w k, ks = ks' ++ [k] /\ wk ks' vs' ts' (i0, j0) c0 /\ move di dj w /\ q = (i0 + di, j0 + dj) /\
    i0 + di < nr lm /\ j0 + dj < nc lm /\ allowed (i0 + di) (j0 + dj) /\
    c = charge (cell lm) (Rule di dj [(0, 0, ofZ w)]) (i0 + di) (j0 + dj) c0.
Proof.
  intros X. destruct X as [i j c Hs Hi Hj | ks vs ts i0 j0 c k r X Hk Hi Hj Hal].
  - left. destruct (source_inv _ _ _ _ Hs) as [-> [-> ->]]. auto.
  - right. destruct (rule_move r (rule_no_in _ _ _ Hk)) as [di [dj [w [M ->]]]]. cbn [r_di r_dj] in *.
    exists ks, vs, ts, i0, j0, c, di, dj, w, k. auto 10.
Qed.

Lemma walk_finite ks vs ts q c : wk ks vs ts q c -> fst q < nr lm /\ snd q < nc lm /\
  exists v, c = XFin v /\ (0 <= v)%Qc /\ (a (fst q) (snd q) <= v)%Qc.
Proof.
  intros X. induction X as [i j c Hs Hi Hj | ks vs ts i0 j0 c k r X IH Hk Hi Hj Hal]; cbn [fst snd] in *.
  - split; [exact Hi|]. split; [exact Hj|]. destruct (source_inv _ _ _ _ Hs) as [-> [-> ->]].
    destruct (Ha 0 0 Hi Hj) as [E P]. exists (a 0 0). split; [exact E|]. split; [exact P|apply Qcle_refl].
  - split; [exact Hi|]. split; [exact Hj|]. destruct IH as [_ [_ [v [-> [Pv _]]]]].
    destruct (rule_move r (rule_no_in _ _ _ Hk)) as [di [dj [w [M ->]]]]. cbn [r_di r_dj] in *.
    rewrite (charge_move _ _ _ _ _ _ M Hi Hj). destruct (Ha _ _ Hi Hj) as [_ P]. eexists. split; [reflexivity|].
    assert (1 <= w)%Z by (destruct M; lia).
    assert (Q1 : (1 <= inject_Z w)%Q) by (change 1%Q with (inject_Z 1); rewrite <- Zle_Qle; assumption).
    unfold Qcle in *. rewrite this_add, this_mul, this_ofZ. change (this (Q2Qc 0)) with 0%Q in *. split; nra.
Qed.
End One.

(** Composing an alignment of x with y and one of y with z. *)
Variable xy yz xz : mat NumQ.
Variables A1 A2 A : nat -> nat -> Prop.
Hypothesis T : triangle xy yz xz.
Hypothesis H10 : A1 0 0.
Hypothesis H20 : A2 0 0.
Hypothesis HA : forall i j k, i < nr xy -> j < nc xy -> k < nc yz -> A1 i j -> A2 j k -> A i k.
Notation a := (fun i j => val (cell xy i j)).
Notation b := (fun j k => val (cell yz j k)).
Notation e := (fun i k => val (cell xz i k)).

Lemma tri i j k : i < nr xy -> j < nc xy -> k < nc yz ->
  cell xy i j = XFin (a i j) /\ cell yz j k = XFin (b j k) /\ cell xz i k = XFin (e i k) /\
  (0 <= a i j)%Qc /\ (0 <= b j k)%Qc /\ (e i k <= a i j + b j k)%Qc.
Proof.
  intros Hi Hj Hk. destruct T as [_ [_ [_ H]]]. destruct (H i j k Hi Hj Hk) as [p [q [r [-> [-> [-> ?]]]]]]. cbn [val]. auto.
Qed.


Lemma ineq_both (c0 e a b v1 v2 w1 w2 w K I K' I' : Q) : (c0 <= K * v1 + I * v2 -> e <= a + b -> 0 <= a -> 0 <= b -> 0 <= v1 -> 0 <= v2 ->
  0 <= w -> w <= w1 -> w <= w2 -> 1 <= K -> K <= K' -> 1 <= I -> I <= I' ->
  c0 + w * e <= K' * (v1 + w1 * a) + I' * (v2 + w2 * b))%Q.
Proof.
  intros H1 H2 Pa Pb P1 P2 Pw Hw1 Hw2 K1 K2 I1 I2.
  assert (E1 : (w * e <= w * a + w * b)%Q) by nra.
  assert (E2 : (w * a <= w1 * a)%Q) by nra. assert (E3 : (w * b <= w2 * b)%Q) by nra.
  assert (E4 : (0 <= w1 * a)%Q) by nra. assert (E5 : (0 <= w2 * b)%Q) by nra.
  set (p := (w1 * a)%Q) in *. set (q := (w2 * b)%Q) in *.
  assert (E6 : (K * v1 + p <= K' * (v1 + p))%Q) by nra. assert (E7 : (I * v2 + q <= I' * (v2 + q))%Q) by nra. lra.
Qed.
Lemma ineq_one (c0 e a b v1 v2 K I : Q) : (c0 <= K * v1 + I * v2 -> e <= a + b -> 0 <= a -> b <= v2 -> 1 <= K ->
  c0 + 1 * e <= K * (v1 + 1 * a) + (I + 1) * v2)%Q.
Proof. intros H1 H2 Pa Hb K1. assert ((0 <= (K - 1) * a)%Q) by nra. nra. Qed.

Lemma extend ks vs ts i0 k0 c0 di dk w : 
  walk rules (cell xz) (nr xz) (nc xz) (closed_source xz) A ks vs ts (i0, k0) (XFin c0 : NumQ) -> move di dk w ->
  i0 + di < nr xy -> k0 + dk < nc yz -> 0 < nc xy -> A (i0 + di) (k0 + dk) ->
  exists ks vs ts, walk rules (cell xz) (nr xz) (nc xz) (closed_source xz) A ks vs ts (i0 + di, k0 + dk)
    (XFin (c0 + qc_ofZ w * e (i0 + di)%nat (k0 + dk)%nat)%Qc : NumQ).
Proof.
  intros X M Hi Hk Hj Hal. destruct T as [T1 [T2 [T3 _]]]. destruct (move_rule _ _ _ M) as [kk Hn].
  pose proof (walk_step rules (cell xz) (nr xz) (nc xz) (closed_source xz) A _ _ _ _ _ _ kk _ X Hn) as Y. cbn [r_di r_dj] in Y.
  specialize (Y ltac:(lia) ltac:(lia) Hal).
  destruct (tri (i0 + di) 0 (k0 + dk) Hi Hj Hk) as [_ [_ [E _]]].
  replace (charge (cell xz) (Rule di dk [(0, 0, ofZ w)]) (i0 + di) (k0 + dk) (XFin c0 : NumQ)) with
    (XFin (c0 + qc_ofZ w * e (i0 + di)%nat (k0 + dk)%nat)%Qc : NumQ) in Y; [eauto|].
  unfold charge. cbn [r_add fold_left fst snd]. rewrite !Nat.sub_0_r, E. reflexivity.
Qed.

Lemma one_le n : (1 <= this (qc (n + 1)))%Q.
Proof. rewrite this_qc. change 1%Q with (inject_Z 1). rewrite <- Zle_Qle. lia. Qed.
Lemma qc_S n : (this (qc (n + 1 + 1)) == this (qc (n + 1)) + 1)%Q.
Proof. rewrite !this_qc. change 1%Q with (inject_Z 1). rewrite <- inject_Z_plus. apply inject_Z_injective. lia. Qed.
Lemma qc_le n m : n <= m -> (this (qc n) <= this (qc m))%Q.
Proof. intros H. rewrite !this_qc, <- Zle_Qle. lia. Qed.

Ltac toQ := unfold Qcle in *; rewrite ?this_add, ?this_mul, ?this_ofZ in *;
  change (inject_Z 1) with 1%Q in *; change (this (Q2Qc 0)) with 0%Q in *.
Lemma ineq_right (c e a b v1 v2 : Qc) k i : (c <= qc (k + 1) * v1 + qc (i + 1) * v2 -> e <= a + b -> 0 <= b -> a <= v1 ->
  c + qc_ofZ 1 * e <= qc (k + 1 + 1) * v1 + qc (i + 1) * (v2 + qc_ofZ 1 * b))%Qc.
Proof.
  intros H1 H2 H3 H4. pose proof (one_le i) as O. pose proof (qc_S k) as S1. toQ. rewrite this_add, this_mul, this_ofZ. rewrite S1.
  pose proof (ineq_one c e b a v2 v1 (qc (i + 1)) (qc (k + 1))) as Q. change (inject_Z 1) with 1%Q. lra.
Qed.
Lemma ineq_down (c e a b v1 v2 : Qc) k i : (c <= qc (k + 1) * v1 + qc (i + 1) * v2 -> e <= a + b -> 0 <= a -> b <= v2 ->
  c + qc_ofZ 1 * e <= qc (k + 1) * (v1 + qc_ofZ 1 * a) + qc (i + 1 + 1) * v2)%Qc.
Proof.
  intros H1 H2 H3 H4. pose proof (one_le k) as O. pose proof (qc_S i) as S1. toQ. rewrite this_add, this_mul, this_ofZ. rewrite S1.
  pose proof (ineq_one c e a b v1 v2 (qc (k + 1)) (qc (i + 1))) as Q. change (inject_Z 1) with 1%Q. lra.
Qed.
Lemma ineq_step (c e a b v1 v2 : Qc) k i dk di w w1 w2 : (0 <= w <= w1)%Z -> (w <= w2)%Z ->
  (c <= qc (k + 1) * v1 + qc (i + 1) * v2 -> e <= a + b -> 0 <= a -> 0 <= b -> 0 <= v1 -> 0 <= v2 ->
  c + qc_ofZ w * e <= qc (k + dk + 1) * (v1 + qc_ofZ w1 * a) + qc (i + di + 1) * (v2 + qc_ofZ w2 * b))%Qc.
Proof.
  intros [W0 W1] W2 H1 H2 H3 H4 H5 H6. pose proof (one_le i) as O. pose proof (one_le k) as O'.
  pose proof (qc_le (k + 1) (k + dk + 1) ltac:(lia)) as M1. pose proof (qc_le (i + 1) (i + di + 1) ltac:(lia)) as M2.
  rewrite Zle_Qle in W0, W1, W2. change (inject_Z 0) with 0%Q in W0. toQ. rewrite !this_add, !this_mul, !this_ofZ.
  apply (ineq_both c e a b v1 v2 (inject_Z w1) (inject_Z w2) (inject_Z w) (qc (k + 1)) (qc (i + 1))); assumption.
Qed.

Lemma compose s : forall ks1 vs1 ts1 i j c1 ks2 vs2 ts2 k c2, List.length ks1 + List.length ks2 <= s ->
  walk rules (cell xy) (nr xy) (nc xy) (closed_source xy) A1 ks1 vs1 ts1 (i, j) c1 ->
  walk rules (cell yz) (nr yz) (nc yz) (closed_source yz) A2 ks2 vs2 ts2 (j, k) c2 ->
  exists ks vs ts c v1 v2, walk rules (cell xz) (nr xz) (nc xz) (closed_source xz) A ks vs ts (i, k) (XFin c : NumQ) /\
    c1 = XFin v1 /\ c2 = XFin v2 /\ (c <= qc (k + 1) * v1 + qc (i + 1) * v2)%Qc.
Proof.
  destruct T as [T1 [T2 [T3 _]]].
  assert (F1 : 0 < nc yz -> forall i j, i < nr xy -> j < nc xy -> cell xy i j = XFin (a i j) /\ (0 <= a i j)%Qc)
    by (intros H i j Hi Hj; destruct (tri i j 0 Hi Hj H) as [? [? [? [? [? ?]]]]]; auto).
  assert (F2 : 0 < nr xy -> forall j k, j < nr yz -> k < nc yz -> cell yz j k = XFin (b j k) /\ (0 <= b j k)%Qc)
    by (intros H j k Hj Hk; rewrite <- T2 in Hj; destruct (tri 0 j k H Hj Hk) as [? [? [? [? [? ?]]]]]; auto).
  assert (G1 : forall ks vs ts i j c, walk rules (cell xy) (nr xy) (nc xy) (closed_source xy) A1 ks vs ts (i, j) c -> i < nr xy /\ j < nc xy /\ A1 i j).
  { intros ks vs ts i j c X. destruct (walk_cases _ _ _ _ _ _ _ X) as [[_ [E [_ [? ?]]]]|X'].
    - injection E as -> ->. auto.
    - destruct X' as [? [? [? [i0 [j0 [? [di [dj [w [? [_ [_ [_ [E [? [? [? _]]]]]]]]]]]]]]]]]. injection E as -> ->. auto. }
  assert (G2 : forall ks vs ts i j c, walk rules (cell yz) (nr yz) (nc yz) (closed_source yz) A2 ks vs ts (i, j) c -> i < nr yz /\ j < nc yz /\ A2 i j).
  { intros ks vs ts i j c X. destruct (walk_cases _ _ _ _ _ _ _ X) as [[_ [E [_ [? ?]]]]|X'].
    - injection E as -> ->. auto.
    - destruct X' as [? [? [? [i0 [j0 [? [di [dj [w [? [_ [_ [_ [E [? [? [? _]]]]]]]]]]]]]]]]]. injection E as -> ->. auto. }
  induction s as [s IH] using lt_wf_ind. intros ks1 vs1 ts1 i j c1 ks2 vs2 ts2 k c2 Hlen X1 X2.
  destruct (G1 _ _ _ _ _ _ X1) as [Hi [Hj Al1]]. destruct (G2 _ _ _ _ _ _ X2) as [Hj' [Hk Al2]].
  specialize (F1 ltac:(lia)). specialize (F2 ltac:(lia)).
  pose proof (HA i j k Hi Hj Hk Al1 Al2) as Al.
  destruct (walk_finite xy a A1 F1 _ _ _ _ _ X1) as [_ [_ [u1 [E1 [P1 L1]]]]].
  destruct (walk_finite yz b A2 F2 _ _ _ _ _ X2) as [_ [_ [u2 [E2 [P2 L2]]]]].
  cbn [fst snd] in L1, L2.
  destruct (tri i j k Hi Hj Hk) as [_ [_ [_ [Pa [Pb Te]]]]].
  assert (Hj0 : 0 < nc xy) by lia.
  (* the last step of the second alignment stays in the same sample of y *)
  assert (Right : forall ks' vs' ts' k0 c0 kk, ks2 = ks' ++ [kk] -> k = k0 + 1 ->
     walk rules (cell yz) (nr yz) (nc yz) (closed_source yz) A2 ks' vs' ts' (j, k0) c0 ->
     c2 = charge (cell yz) (Rule 0 1 [(0, 0, ofZ 1)]) j k c0 ->
     exists ks vs ts c v1 v2, walk rules (cell xz) (nr xz) (nc xz) (closed_source xz) A ks vs ts (i, k) (XFin c : NumQ) /\
       c1 = XFin v1 /\ c2 = XFin v2 /\ (c <= qc (k + 1) * v1 + qc (i + 1) * v2)%Qc).
  { intros ks' vs' ts' k0 c0 kk Ek Ekk X2' Ec. rewrite Ek, app_length in Hlen. cbn [List.length] in Hlen.
    destruct (IH (List.length ks1 + List.length ks') ltac:(lia) _ _ _ _ _ _ _ _ _ _ _ (Nat.le_refl _) X1 X2')
      as [ks [vs [ts [c [v1 [v2 [Y [Ev1 [Ev2 Lc]]]]]]]]].
    destruct (extend _ _ _ _ _ _ 0 1 1%Z Y mright) as [ks3 [vs3 [ts3 Y3]]]; [lia|lia|exact Hj0|rewrite Nat.add_0_r, <- Ekk; exact Al|].
    rewrite Nat.add_0_r, <- Ekk in Y3. subst c0. rewrite (charge_move yz b F2 _ _ _ _ _ _ mright Hj' Hk) in Ec.
    eexists ks3, vs3, ts3, _, v1, _. split; [exact Y3|]. split; [exact Ev1|]. split; [exact Ec|].
    assert (v1 = u1) as -> by congruence. rewrite Ekk in *. apply (ineq_right _ _ (a i j)); assumption. }
  assert (Down : forall ks' vs' ts' i0 c0 kk, ks1 = ks' ++ [kk] -> i = i0 + 1 ->
     walk rules (cell xy) (nr xy) (nc xy) (closed_source xy) A1 ks' vs' ts' (i0, j) c0 ->
     c1 = charge (cell xy) (Rule 1 0 [(0, 0, ofZ 1)]) i j c0 ->
     exists ks vs ts c v1 v2, walk rules (cell xz) (nr xz) (nc xz) (closed_source xz) A ks vs ts (i, k) (XFin c : NumQ) /\
       c1 = XFin v1 /\ c2 = XFin v2 /\ (c <= qc (k + 1) * v1 + qc (i + 1) * v2)%Qc).
  { intros ks' vs' ts' i0 c0 kk Ek Ekk X1' Ec. rewrite Ek, app_length in Hlen. cbn [List.length] in Hlen.
    destruct (IH (List.length ks' + List.length ks2) ltac:(lia) _ _ _ _ _ _ _ _ _ _ _ (Nat.le_refl _) X1' X2)
      as [ks [vs [ts [c [v1 [v2 [Y [Ev1 [Ev2 Lc]]]]]]]]].
    destruct (extend _ _ _ _ _ _ 1 0 1%Z Y mdown) as [ks3 [vs3 [ts3 Y3]]]; [lia|lia|exact Hj0|rewrite Nat.add_0_r, <- Ekk; exact Al|].
    rewrite Nat.add_0_r, <- Ekk in Y3. subst c0. rewrite (charge_move xy a F1 _ _ _ _ _ _ mdown Hi Hj) in Ec.
    eexists ks3, vs3, ts3, _, _, v2. split; [exact Y3|]. split; [exact Ec|]. split; [exact Ev2|].
    assert (v2 = u2) as -> by congruence. rewrite Ekk in *. apply (ineq_down _ _ _ (b j k)); assumption. }
  destruct (walk_cases _ _ _ _ _ _ _ X1) as [[Ek1 [Eq1 [Ec1 _]]]|X1'].
  - injection Eq1 as Ei Ej. destruct (walk_cases _ _ _ _ _ _ _ X2) as [[Ek2 [Eq2 [Ec2 _]]]|X2'].
    + injection Eq2 as _ Ekk. destruct (tri i j k Hi Hj Hk) as [_ [_ [Ez _]]].
      exists [], [(0, 0)], [(0, 0)], (e i k), u1, u2. split.
      { rewrite <- Ez, Ei, Ekk. apply walk_start; [reflexivity|lia|lia]. }
      split; [exact E1|]. split; [exact E2|]. clear -L1 L2 Te Ei Ej Ekk. subst i j k. toQ. rewrite ?this_add, ?this_mul. change (this (qc (0 + 1))) with 1%Q. lra.
    + destruct X2' as [ks' [vs' [ts' [j0 [k0 [c0 [dj [dk [w [kk [Ek [X2' [M [Eq [Bj [Bk [_ Ec]]]]]]]]]]]]]]]]]. injection Eq as Ej' Ekk.
      assert (Z : dj = 0) by lia. destruct M; try discriminate Z.
      rewrite <- Ej', <- Ekk in Ec. replace j0 with j in X2' by lia. exact (Right _ _ _ _ _ _ Ek Ekk X2' Ec).
  - destruct X1' as [ks' [vs' [ts' [i0 [j0 [c0 [di [dj [w [kk [Ek [X1' [M [Eq [Bi [Bj [_ Ec]]]]]]]]]]]]]]]]]. injection Eq as Ei Ej.
    rewrite <- Ei, <- Ej in Ec.
    destruct (Nat.eq_dec dj 0) as [Z|Z].
    { destruct M; try discriminate Z. replace j0 with j in X1' by lia. exact (Down _ _ _ _ _ _ Ek Ei X1' Ec). }
    assert (D1 : dj = 1) by (destruct M; lia).
    destruct (walk_cases _ _ _ _ _ _ _ X2) as [[_ [Eq2 _]]|X2']; [injection Eq2 as ? ?; lia|].
    destruct X2' as [ks'' [vs'' [ts'' [j0' [k0 [c0' [dj' [dk [w' [kk' [Ek' [X2' [M' [Eq' [_ [Bk [_ Ec']]]]]]]]]]]]]]]]]. injection Eq' as Ej' Ekk.
    rewrite <- Ej', <- Ekk in Ec'.
    destruct (Nat.eq_dec dj' 0) as [Z'|Z'].
    { destruct M'; try discriminate Z'. replace j0' with j in X2' by lia. exact (Right _ _ _ _ _ _ Ek' Ekk X2' Ec'). }
    assert (D1' : dj' = 1) by (destruct M'; lia). replace j0' with j0 in X2' by lia.
    rewrite Ek, Ek', !app_length in Hlen. cbn [List.length] in Hlen.
    destruct (IH (List.length ks' + List.length ks'') ltac:(lia) _ _ _ _ _ _ _ _ _ _ _ (Nat.le_refl _) X1' X2')
      as [ks [vs [ts [c [v1 [v2 [Y [Ev1 [Ev2 Lc]]]]]]]]]. subst c0 c0'.
    rewrite (charge_move xy a F1 _ _ _ _ _ _ M Hi Hj) in Ec. rewrite (charge_move yz b F2 _ _ _ _ _ _ M' Hj' Hk) in Ec'.
    assert (Pv1 : (0 <= v1)%Qc) by (destruct (walk_finite xy a A1 F1 _ _ _ _ _ X1') as [_ [_ [z [Ez [Pz _]]]]]; injection Ez as ->; exact Pz).
    assert (Pv2 : (0 <= v2)%Qc) by (destruct (walk_finite yz b A2 F2 _ _ _ _ _ X2') as [_ [_ [z [Ez [Pz _]]]]]; injection Ez as ->; exact Pz).
    assert (Fin : forall w3 ks3 vs3 ts3, (0 <= w3 <= w)%Z -> (w3 <= w')%Z ->
       walk rules (cell xz) (nr xz) (nc xz) (closed_source xz) A ks3 vs3 ts3 (i, k) (XFin (c + qc_ofZ w3 * e i k)%Qc : NumQ) ->
       exists ks vs ts c v1 v2, walk rules (cell xz) (nr xz) (nc xz) (closed_source xz) A ks vs ts (i, k) (XFin c : NumQ) /\
       c1 = XFin v1 /\ c2 = XFin v2 /\ (c <= qc (k + 1) * v1 + qc (i + 1) * v2)%Qc).
    { intros w3 ks3 vs3 ts3 B1 B2 Y3. eexists ks3, vs3, ts3, _, _, _. split; [exact Y3|]. split; [exact Ec|]. split; [exact Ec'|].
      replace (k + 1) with (k0 + dk + 1) by lia. replace (i + 1) with (i0 + di + 1) by lia.
      apply ineq_step; assumption. }
    destruct M as [| |]; try discriminate D1; (destruct M' as [| |]; try discriminate D1').
    + destruct (extend _ _ _ _ _ _ 1 1 W Y mdiag) as [ks3 [vs3 [ts3 Y3]]]; [lia|lia|exact Hj0|rewrite <- Ei, <- Ekk; exact Al|].
      rewrite <- Ei, <- Ekk in Y3. apply (Fin W _ _ _ ltac:(lia) ltac:(lia) Y3).
    + destruct (extend _ _ _ _ _ _ 1 0 1%Z Y mdown) as [ks3 [vs3 [ts3 Y3]]]; [lia|lia|exact Hj0|rewrite <- Ei, <- Ekk; exact Al|].
      rewrite <- Ei, <- Ekk in Y3. apply (Fin 1%Z _ _ _ ltac:(lia) ltac:(lia) Y3).
    + destruct (extend _ _ _ _ _ _ 0 1 1%Z Y mright) as [ks3 [vs3 [ts3 Y3]]]; [lia|lia|exact Hj0|rewrite <- Ei, <- Ekk; exact Al|].
      rewrite <- Ei, <- Ekk in Y3. apply (Fin 1%Z _ _ _ ltac:(lia) ltac:(lia) Y3).
    + replace i0 with i in Y by lia. replace k0 with k in Y by lia. apply (Fin 0%Z ks vs ts ltac:(lia) ltac:(lia)).
      replace (c + qc_ofZ 0 * e i k)%Qc with c; [exact Y|]. rewrite ofZ_0. ring.
Qed.
End Tri.

Lemma moves_named nm l : In nm ["symmetric1"; "symmetric2"; "symmetricP0"] -> lookup nm predefined = Some l ->
  exists W, (1 <= W)%Z /\ moves W (productions l).
Proof.
  intros H Hl. destruct H as [<-|[<-|[<-|[]]]]; injection Hl as <-; [exists 1%Z|exists 2%Z|exists 2%Z]; (split; [lia|]);
  (split; [intros r Hr; cbn in Hr; intuition|]); cbn; auto 6.
Qed.

Theorem weak_triangle nm sp cdist1 x1 y1 o1 xy d1 cdist2 x2 y2 o2 yz d2 cdist x y o xz w :
  In nm ["symmetric1"; "symmetric2"; "symmetricP0"] -> lookup nm pattern_table = Some sp ->
  costs_of cdist1 x1 y1 xy -> dtw cdist1 x1 y1 o1 = Ok d1 -> r_stepPattern d1 = sp ->
  o_open_begin o1 = false -> o_open_end o1 = false ->
  costs_of cdist2 x2 y2 yz -> dtw cdist2 x2 y2 o2 = Ok d2 -> r_stepPattern d2 = sp ->
  o_open_begin o2 = false -> o_open_end o2 = false ->
  costs_of cdist x y xz -> native_array x y -> pattern_of (o_step_pattern o) sp -> window_of (o_window_type o) w ->
  window_total w (o_window_args o) (nr xz) (nc xz) -> size_ok (nr xz) (nc xz) ->
  o_open_begin o = false -> o_open_end o = false ->
  triangle xy yz xz ->
  windows_compose (r_windowFunction d1) (r_windowArgs d1) (r_windowFunction d2) (r_windowArgs d2) w (o_window_args o) (nr xy) (nc xy) (nc yz) ->
  exists d v1 v2 v, dtw cdist x y o = Ok d /\
    r_distance d1 = XFin v1 /\ r_distance d2 = XFin v2 /\ r_distance d = XFin v /\
    (v <= qc_ofZ (Z.of_nat (nc xz)) * v1 + qc_ofZ (Z.of_nat (nr xz)) * v2)%Qc.
Proof.
  intros Hnm Hl HC1 Hd1 S1 B1 O1 HC2 Hd2 S2 B2 O2 HC Hn Hpo Hwo Hwt Hsz Hob Hoe T [Hw1 [Hw2 Hw]].
  destruct (predefined_rules NumQ_laws _ _ Hl) as [l [Hl' Hp]]. destruct (moves_named _ _ Hnm Hl') as [W [HW Hm]].
  assert (Hq0 : 0 < nr xz /\ 0 < nc xz) by (destruct Hsz as [? [? _]]; auto).
  assert (Hp1 : pattern_rules (r_stepPattern d1) (productions l)) by (rewrite S1; exact Hp).
  assert (Hp2 : pattern_rules (r_stepPattern d2) (productions l)) by (rewrite S2; exact Hp).
  destruct (dtw_fields NumQ_laws _ _ _ _ _ _ _ HC1 Hd1 Hp1) as [_ [_ [_ [_ [_ [_ [_ [_ [J1 _]]]]]]]]]. specialize (J1 O1).
  destruct (dtw_fields NumQ_laws _ _ _ _ _ _ _ HC2 Hd2 Hp2) as [_ [_ [_ [_ [_ [_ [_ [_ [J2 _]]]]]]]]]. specialize (J2 O2).
  pose proof (dtw_best NumQ_laws _ _ _ _ _ _ _ HC1 Hd1 Hp1) as [[ks1 [vs1 [ts1 [X1 _]]]] _].
  pose proof (dtw_best NumQ_laws _ _ _ _ _ _ _ HC2 Hd2 Hp2) as [[ks2 [vs2 [ts2 [X2 _]]]] _].
  rewrite B1, J1 in X1. rewrite B2, J2 in X2. unfold admissible, closed_walk, end_cell in X1, X2.
  pose proof T as [T1 [T2 [T3 _]]]. rewrite <- T2 in X2 at 3.
  assert (Hw' : forall i j k, i < nr xy -> j < nc xy -> k < nc yz -> in_window (r_windowFunction d1) (r_windowArgs d1) (nr xy) (nc xy) i j ->
     in_window (r_windowFunction d2) (r_windowArgs d2) (nr yz) (nc yz) j k -> in_window w (o_window_args o) (nr xz) (nc xz) i k).
  { rewrite T1, T3, <- T2. exact Hw. }
  rewrite T2 in Hw2.
  destruct (compose W HW (productions l) Hm xy yz xz _ _ (in_window w (o_window_args o) (nr xz) (nc xz)) T Hw1 Hw2 Hw' _ _ _ _ _ _ _ _ _ _ _ _ (Nat.le_refl _) X1 X2)
    as [ks [vs [ts [c [v1 [v2 [Y [E1 [E2 Le]]]]]]]]].
  rewrite <- T1, <- T3 in Y, Le. replace (nc xz - 1 + 1) with (nc xz) in Le by lia. replace (nr xz - 1 + 1) with (nr xz) in Le by lia.
  assert (WP : well_posed cdist x y o xz sp (productions l) w).
  { constructor; auto; unfold rows_used; rewrite ?Hob; auto; try congruence; lia. }
  assert (U : usable ks (XFin c : NumQ)) by (split; [reflexivity|intros _; reflexivity]).
  destruct (dtw_closed_end_iff NumQ_laws _ _ _ _ _ _ _ _ WP Hoe) as [[_ F]|[d [E [Q1 [Q2 _]]]]].
  - exfalso. rewrite Hob in F. exact (F _ _ _ _ Y U).
  - assert (Hp3 : pattern_rules (r_stepPattern d) (productions l)) by (rewrite Q1; exact Hp).
    destruct (dtw_fields NumQ_laws _ _ _ _ _ _ _ HC E Hp3) as [_ [_ [_ [_ [_ [Ea [_ [_ [J _]]]]]]]]]. specialize (J Hoe).
    pose proof (dtw_best NumQ_laws _ _ _ _ _ _ _ HC E Hp3) as [[ks3 [vs3 [ts3 [X3 _]]]] BB]. rewrite Hob, J, Q2, Ea in BB, X3.
    specialize (BB _ _ _ _ Y U).
    assert (Hf : forall i k, i < nr xz -> k < nc xz -> cell xz i k = XFin (val (cell xz i k))).
    { intros i k Hi Hk. assert (Hj : 0 < nc xy).
      { destruct (walk_cases W (productions l) Hm _ _ _ _ _ _ _ X1) as [[_ [_ [_ [_ ?]]]]|X]; [assumption|].
        destruct X as [? [? [? [? [? [? [? [? [? [? [_ [_ [_ [_ [_ [? _]]]]]]]]]]]]]]]]. lia. }
      destruct (tri xy yz xz T i 0 k) as [_ [_ [Ez _]]]; [lia|exact Hj|lia|exact Ez]. }
    assert (Fv : exists v, r_distance d = XFin v).
    { unfold admissible, closed_walk, end_cell in X3.
      assert (G : forall ks vs ts p c, walk (productions l) (cell xz) (nr xz) (nc xz) (closed_source xz) (in_window w (o_window_args o) (nr xz) (nc xz)) ks vs ts p c -> exists v, c = XFin v).
      { intros ks' vs' ts' p c' X. induction X as [i j c0 Hs Hi Hj | ks0 vs0 ts0 i0 j0 c0 k r X [v IH] Hk Hi Hj Hal].
        - destruct (source_inv _ _ _ _ Hs) as [-> [-> ->]]. eexists. apply Hf; assumption.
        - destruct (rule_move W (productions l) Hm r (rule_no_in _ _ _ Hk)) as [di [dj [ww [M ->]]]]. cbn [r_di r_dj] in *. subst c0.
          unfold charge. cbn [r_add fold_left fst snd]. rewrite !Nat.sub_0_r, Hf by assumption. eexists. reflexivity. }
      exact (G _ _ _ _ _ X3). }
    destruct Fv as [v Ev]. exists d, v1, v2, v. split; [exact E|]. split; [exact E1|]. split; [exact E2|]. split; [exact Ev|].
    rewrite Ev in BB. apply xq_leb_fin in BB. eapply Qcle_trans; [exact BB|exact Le].
Qed.
