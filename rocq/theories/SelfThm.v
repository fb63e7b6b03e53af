(** SelfThm.v - what the built-in checks of the native core return (proofs for C81). *)
From Coq Require Import ZifyBool ZifyNat.
From Verif Require Import Base Num NumQ NumQLaws NumF NumFLaws StepPattern Window Core Backtrack Dtw Spec Api Tables Vocab Terms
  CoreProof DPProof DtwProof ApiProof Uniq Laws4 SeriesSpec SelfTest SelfSpec.
Open Scope list_scope.
Open Scope nat_scope.

(** ** The closed form satisfies the recursion *)
Local Notation F := border_then_diagonal.
Lemma F_diag i j : F (S i) (S j) = F i j + (i + 2) * (j + 2).
Proof.
  unfold border_then_diagonal. rewrite <- Nat.succ_max_distr, <- Nat.succ_min_distr.
  replace (S (Nat.max i j) - S (Nat.min i j)) with (Nat.max i j - Nat.min i j) by lia.
  assert (E : exists a b, Nat.max i j = a + b /\ Nat.min i j = a /\ (i + 2) * (j + 2) = (b + a + 2) * (a + 2)).
  { destruct (Nat.le_ge_cases i j) as [H|H].
    - exists i, (j - i). rewrite Nat.max_r, Nat.min_l by exact H. split; [lia|]. split; [reflexivity|].
      replace (j - i + i + 2) with (j + 2) by lia. lia.
    - exists j, (i - j). rewrite Nat.max_l, Nat.min_r by exact H. split; [lia|]. split; [reflexivity|].
      replace (i - j + j + 2) with (i + 2) by lia. lia. }
  destruct E as [a [b [-> [-> ->]]]]. replace (a + b - a) with b by lia. cbn [diagonal].
  replace (b + S a + 1) with (b + a + 2) by lia. replace (S a + 1) with (a + 2) by lia. lia.
Qed.
Lemma F_col i : F (S i) 0 = F i 0 + (i + 2).
Proof. unfold border_then_diagonal. rewrite !Nat.max_0_r, !Nat.min_0_r, !Nat.sub_0_r. cbn [diagonal]. replace (S i + 1) with (S (i + 1)) by lia. cbn [triangle]. lia. Qed.
Lemma F_sym i j : F i j = F j i.
Proof. unfold border_then_diagonal. rewrite (Nat.max_comm j i), (Nat.min_comm j i). reflexivity. Qed.
Lemma F_row j : F 0 (S j) = F 0 j + (j + 2).
Proof. rewrite F_sym, F_col, (F_sym j). reflexivity. Qed.
(** d(F)/di > 0 on and off the diagonal *)
Lemma F_up a d : F (a + S d) a = F (a + d) a + triangle (S a) + d + 1.
Proof.
  induction a as [|a IH].
  - cbn [Nat.add]. rewrite F_col. cbn [triangle]. lia.
  - cbn [Nat.add] in *. rewrite !F_diag, IH. cbn [triangle]. lia.
Qed.
Lemma triangle_le n : triangle n <= n * n.
Proof. induction n as [|n IH]; [apply Nat.le_refl|]. cbn [triangle]. lia. Qed.
Lemma F_out a d : F (a + S d) a < F (a + S d) (S a).
Proof.
  rewrite F_up. replace (a + S d) with (S (a + d)) by lia. rewrite F_diag. pose proof (triangle_le (S a)). lia.
Qed.
Lemma F_less i j : F i j < F (S i) j.
Proof.
  destruct (Nat.le_gt_cases j i) as [H|H].
  - replace i with (j + (i - j)) by lia. replace (S (j + (i - j))) with (j + S (i - j)) by lia. rewrite F_up. lia.
  - rewrite (F_sym i j), (F_sym (S i) j). replace j with (i + S (j - i - 1)) by lia. apply F_out.
Qed.
Lemma F_less_r i j : F i j < F i (S j).
Proof. rewrite (F_sym i j), (F_sym i (S j)). apply F_less. Qed.
Lemma F_bound i j : F i j <= (i + j + 1) * ((i + 1) * (j + 1)).
Proof.
  revert j. induction i as [|i IH]; intros j.
  - induction j as [|j IHj]; [vm_compute; lia|]. rewrite F_row. lia.
  - destruct j as [|j]; [rewrite F_col; specialize (IH 0); lia|]. rewrite F_diag. specialize (IH j). nia.
Qed.

Section Self.
Context {N : Num}.
Variable L : NumLaws N.
Variable L4 : NumLaws4 N.

Definition test_rules : list (rule N) := [Rule 1 0 [(0, 0, ofZ 1)]; Rule 1 1 [(0, 0, ofZ 1)]; Rule 0 1 [(0, 0, ofZ 1)]].
Definition test_pattern : steppat N := StepPat (table test_rules) "NA"%string.
Lemma test_dir_is : get_p test_pattern = test_dir.
Proof. reflexivity. Qed.
Lemma test_pattern_rules : pattern_rules test_pattern test_rules.
Proof.
  split; [reflexivity|]. split; [discriminate|]. split.
  - cbn. rewrite (law_eq_ofZ _ L) by lia. reflexivity.
  - split; [vm_compute; discriminate|]. repeat constructor; vm_compute; discriminate.
Qed.
Lemma test_lm_wf ts : wf_mat (@test_lm N ts).
Proof. unfold wf_mat, test_lm. cbn [dat nr nc]. rewrite map_length. apply indices_length. Qed.
Lemma test_cell ts i j : i < ts -> j < ts -> cell (@test_lm N ts) i j = ofZ (Z.of_nat ((i + 1) * (j + 1))).
Proof.
  intros Hi Hj. unfold cell, mget, test_lm. cbn [nr nc dat]. replace (_ && _) with true by lia.
  rewrite nth_error_map, (indices_nth ts ts i j Hi Hj). cbn [option_map fst snd]. f_equal. lia.
Qed.
Lemma test_is_gcm ts : test_computeCM ts = globalCostMatrix true (@test_lm N ts) test_pattern NoWindow None [].
Proof.
  unfold test_computeCM, globalCostMatrix, window_matrix. cbn [bind]. change (nr (test_lm ts)) with ts. change (nc (test_lm ts)) with ts.
  destruct (mget (test_lm ts) 0 0); reflexivity.
Qed.

(** The recursion at one cell, all entries being integers. *)
Lemma charge_test (cost : nat -> nat -> N) (r : rule N) i j a b : r_add r = [(0, 0, ofZ 1)] ->
  cost i j = ofZ (Z.of_nat b) -> (Z.of_nat (a + b) <= 2 ^ 53)%Z ->
  charge cost r i j (ofZ (Z.of_nat a)) = ofZ (Z.of_nat (a + b)).
Proof.
  intros E Hc Hs. unfold charge. rewrite E. cbn [fold_left fst snd]. rewrite !Nat.sub_0_r, Hc.
  rewrite (law_macc_ofZ _ L4) by lia. f_equal. lia.
Qed.

Definition cm_test (i j : nat) : N := ofZ (Z.of_nat (F i j)).

Definition small (z : Z) : Prop := (0 <= z <= 2 ^ 53)%Z.
Lemma F_small i j : (Z.of_nat i < 46341)%Z -> (Z.of_nat j < 46341)%Z -> (Z.of_nat (F i j) <= 300000000000000)%Z.
Proof.
  intros Hi Hj. pose proof (F_bound i j) as H. apply inj_le in H. eapply Z.le_trans; [exact H|].
  rewrite !Nat2Z.inj_mul. apply Z.le_trans with (92682 * (46341 * 46341))%Z; [|discriminate].
  apply Z.mul_le_mono_nonneg; [lia|lia|apply Z.mul_nonneg_nonneg; lia|]. apply Z.mul_le_mono_nonneg; lia.
Qed.
Lemma prod_small i j : (Z.of_nat i < 46341)%Z -> (Z.of_nat j < 46341)%Z -> (Z.of_nat ((i + 1) * (j + 1)) <= 3000000000)%Z.
Proof.
  intros Hi Hj. rewrite Nat2Z.inj_mul. apply Z.le_trans with (46341 * 46341)%Z; [|discriminate]. apply Z.mul_le_mono_nonneg; lia.
Qed.

Lemma first_min_k (l : list N) k x : nth_error l k = Some x -> good x ->
  (forall k' y, nth_error l k' = Some y -> good y -> leb x y = true) ->
  (forall k' y, k' < k -> nth_error l k' = Some y -> good y -> ltb x y = true) -> first_min l (Z.of_nat k).
Proof. intros. right. exists k, x. auto. Qed.

Lemma test_bellman ts win : (Z.of_nat ts < 46341)%Z -> (forall i j, i < ts -> j < ts -> win i j = true) ->
  bellman test_rules ts ts (cell (@test_lm N ts)) (seed0 (test_lm ts)) win cm_test test_direction.
Proof.
  intros Hts Hwin i j Hi Hj. unfold cell_eq.
  assert (V : forall r a b, ((Z.of_nat i < 46341)%Z) -> ((Z.of_nat j < 46341)%Z) -> r_add r = [(0, 0, ofZ 1)] -> (Z.of_nat a < 46341)%Z -> (Z.of_nat b < 46341)%Z ->
     charge (cell (@test_lm N ts)) r i j (cm_test a b) = ofZ (Z.of_nat (F a b + (i + 1) * (j + 1)))).
  { intros r a b H1 H2 E Ha Hb. unfold cm_test. apply charge_test; [exact E|apply test_cell; assumption|].
    pose proof (F_small a b Ha Hb). pose proof (prod_small i j H1 H2). lia. }
  assert (P : forall a b, (Z.of_nat a < 46341)%Z -> (Z.of_nat b < 46341)%Z -> (Z.of_nat (F a b + (i + 1) * (j + 1)) <= 2 ^ 53)%Z).
  { intros a b Ha Hb. pose proof (F_small a b Ha Hb). pose proof (prod_small i j ltac:(lia) ltac:(lia)). lia. }
  assert (Gd : forall z, (0 <= z <= 2 ^ 53)%Z -> good (@ofZ N z)).
  { intros z Hz. apply (law_fin_good _ L), (law_fin_ofZ _ L). lia. }
  assert (NG : ~ good (@nan N)).
  { intros G. apply (law_good_not_nan _ L) in G. rewrite (law_nan _ L) in G. discriminate. }
  unfold seed0. destruct (Nat.eqb i 0 && Nat.eqb j 0)%bool eqn:E0.
  - replace i with 0 in * by lia. replace j with 0 in * by lia. rewrite test_cell by assumption.
    rewrite (law_fin_not_nan _ L) by (apply (law_fin_ofZ _ L); cbn; lia). cbn [negb]. split; reflexivity.
  - rewrite (law_nan _ L), Hwin by assumption. cbn [negb].
    destruct i as [|i], j as [|j]; [discriminate| | |].
    + exists [nan; nan; cm_test 0 (S j)], 2%Z. split; [|split].
      * split; [reflexivity|]. intros q r Hq. unfold cand_is.
        destruct q as [|[|[|q]]]; [| | |destruct q; discriminate]; injection Hq as <-; eexists; (split; [reflexivity|]); cbn [r_di r_dj Nat.leb andb].
        -- apply (law_nan _ L).
        -- apply (law_nan _ L).
        -- rewrite V by (auto; lia). unfold cm_test. do 2 f_equal. replace (S j - 1) with j by lia. rewrite Nat.sub_0_r, F_row. lia.
      * apply (first_min_k _ 2 (cm_test 0 (S j))); [reflexivity|apply Gd; pose proof (F_small 0 (S j)); lia| |].
        -- intros [|[|[|k]]] y Hy; [| | |destruct k; discriminate]; injection Hy as <-; intros G; try contradiction. 
           apply (law_le_refl _ L), (law_good_not_nan _ L), G.
        -- intros [|[|k]] y Hk Hy; [| |lia]; injection Hy as <-; intros G; contradiction.
      * right. exists 2. split; [reflexivity|]. split; reflexivity.
    + exists [cm_test (S i) 0; nan; nan], 0%Z. split; [|split].
      * split; [reflexivity|]. intros q r Hq. unfold cand_is.
        destruct q as [|[|[|q]]]; [| | |destruct q; discriminate]; injection Hq as <-; eexists; (split; [reflexivity|]); cbn [r_di r_dj Nat.leb andb].
        -- rewrite V by (auto; lia). unfold cm_test. do 2 f_equal. replace (S i - 1) with i by lia. rewrite Nat.sub_0_r, F_col. lia.
        -- apply (law_nan _ L).
        -- apply (law_nan _ L).
      * apply (first_min_k _ 0 (cm_test (S i) 0)); [reflexivity|apply Gd; pose proof (F_small (S i) 0); lia| |].
        -- intros [|[|[|k]]] y Hy; [| | |destruct k; discriminate]; injection Hy as <-; intros G; try contradiction. 
           apply (law_le_refl _ L), (law_good_not_nan _ L), G.
        -- intros k y Hk. lia.
      * right. exists 0. split; [reflexivity|]. split; reflexivity.
    + set (p := (S i + 1) * (S j + 1)) in *.
      exists [ofZ (Z.of_nat (F i (S j) + p)); cm_test (S i) (S j); ofZ (Z.of_nat (F (S i) j + p))], 1%Z.
      assert (EF : F (S i) (S j) = F i j + p) by (rewrite F_diag; unfold p; lia).
      pose proof (P i j ltac:(lia) ltac:(lia)) as P1. pose proof (P i (S j) ltac:(lia) ltac:(lia)) as P2. pose proof (P (S i) j ltac:(lia) ltac:(lia)) as P3.
      pose proof (F_less i j) as Q1. pose proof (F_less_r i j) as Q2.
      split; [|split].
      * split; [reflexivity|]. intros q r Hq. unfold cand_is.
        destruct q as [|[|[|q]]]; [| | |destruct q; discriminate]; injection Hq as <-; eexists; (split; [reflexivity|]); cbn [r_di r_dj Nat.leb andb];
          rewrite V by (auto; lia); rewrite ?Nat.sub_0_r; replace (S i - 1) with i by lia; replace (S j - 1) with j by lia; try reflexivity.
        unfold cm_test. rewrite EF. reflexivity.
      * apply (first_min_k _ 1 (cm_test (S i) (S j))); [reflexivity|unfold cm_test; rewrite EF; apply Gd; lia| |].
        -- intros [|[|[|k]]] y Hy; [| | |destruct k; discriminate]; injection Hy as <-; intros G; unfold cm_test; rewrite EF;
             rewrite (law_le_ofZ _ L) by lia; lia.
        -- intros [|k] y Hk Hy; [|lia]. injection Hy as <-. intros G. unfold cm_test. rewrite EF. rewrite (law_lt_ofZ _ L) by lia. lia.
      * right. exists 1. split; [reflexivity|]. split; reflexivity.
Qed.

Theorem self_test ts : 1 <= ts -> (Z.of_nat ts * Z.of_nat ts <= INT_MAX)%Z ->
  exists cm sm, @test_computeCM N ts = Ok (cm, sm) /\ nr cm = ts /\ nc cm = ts /\ nr sm = ts /\ nc sm = ts /\
    forall i j, i < ts -> j < ts ->
      mget cm i j = Some (ofZ (Z.of_nat (border_then_diagonal i j))) /\ mget sm i j = Some (test_direction i j).
Proof.
  intros H1 Hs. assert (Hts : (Z.of_nat ts < 46341)%Z) by (unfold INT_MAX in Hs; nia).
  destruct (gcm_run L (test_lm ts) test_pattern NoWindow None [] test_rules (seed0 (test_lm ts)) test_pattern_rules (test_lm_wf ts))
    as [cm [sm [cmf [smf [win [E [C [S [W B]]]]]]]]].
  - reflexivity.
  - split; [exact H1|]. split; [exact H1|]. exact Hs.
  - exact I.
  - change (nr (test_lm ts)) with ts in *. change (nc (test_lm ts)) with ts in *.
    rewrite test_is_gcm, E. eexists _, _. split; [reflexivity|]. do 4 (split; [reflexivity|]).
    assert (Hwin : forall i j, i < ts -> j < ts -> win i j = true) by (intros; apply W; auto; exact I).
    intros i j Hi Hj. destruct (bellman_unique L test_rules ts ts _ _ _ _ _ _ _ _ _ _ (proj1 (proj2 (proj2 test_pattern_rules)))
      (fun i j _ _ => conj eq_refl (conj eq_refl eq_refl)) B (test_bellman ts win Hts Hwin) i j Hi Hj) as [E1 E2].
    unfold mget. cbn [nr nc dat]. replace (_ && _) with true by lia. rewrite (proj2 C i j Hi Hj), (proj2 S i j Hi Hj), E1, E2. auto.
Qed.
Theorem self_test_empty : @test_computeCM N 0 = Raise IndexError.
Proof. reflexivity. Qed.
End Self.

Theorem self_test_any {N : Num} (M : modelled N) ts : 1 <= ts -> (Z.of_nat ts * Z.of_nat ts <= INT_MAX)%Z ->
  exists cm sm, @test_computeCM N ts = Ok (cm, sm) /\ nr cm = ts /\ nc cm = ts /\ nr sm = ts /\ nc sm = ts /\
    forall i j, i < ts -> j < ts ->
      mget cm i j = Some (ofZ (Z.of_nat (border_then_diagonal i j))) /\ mget sm i j = Some (test_direction i j).
Proof.
  destruct M as [-> | [-> | ->]].
  - apply (self_test NumQ_laws NumQ_laws4).
  - apply (self_test NumF_laws NumF_laws4).
  - apply (self_test NumFMA_laws NumFMA_laws4).
Qed.
