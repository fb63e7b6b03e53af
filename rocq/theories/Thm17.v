(** Thm17.v - warpArea() on the results of dtw() (C36). *)
From Coq Require Import ZifyBool ZifyNat Permutation.
From Verif Require Import Base Num StepPattern Window Core Backtrack Dtw Spec Api Tables Vocab Terms SumLaws
  CoreProof DtwProof WalkGeom ApiThms Thm1 Thm3 Thm10 Derived Warp WarpSpec WarpProof Laws2 Thm16.
Open Scope string_scope.
Open Scope list_scope.
Open Scope Z_scope.

Lemma list_choice {A} (P : nat -> A -> Prop) n : (forall k, (k < n)%nat -> exists v, P k v) ->
  exists l, List.length l = n /\ forall k, (k < n)%nat -> exists v, nth_error l k = Some v /\ P k v.
Proof.
  revert P; induction n as [|n IH]; intros P H.
  - exists []. split; [reflexivity|lia].
  - destruct (H 0%nat ltac:(lia)) as [v Hv].
    destruct (IH (fun k => P (S k))) as [l [Hl Hk]]; [intros k Hk; apply H; lia|].
    exists (v :: l). split; [cbn; lia|]. intros [|k] Hk'.
    + exists v. split; [reflexivity|exact Hv].
    + apply Hk. lia.
Qed.

Section Area.
Context {N : Num} (L : NumLaws N) (L2 : NumLaws2 N).

Lemma last_exists (l : list (Z * N)) x : sorted l -> forall p, nth_error l 0 = Some p -> fst p <= x ->
  exists j a, nth_error l j = Some a /\ fst a <= x /\ (forall b, nth_error l (S j) = Some b -> x < fst b).
Proof.
  induction l as [|q l IH]; intros Hs p Hp Hx; [discriminate|]. injection Hp as ->.
  destruct l as [|b l'].
  - exists 0%nat, p. split; [reflexivity|]. split; [exact Hx|]. intros b Hb. discriminate Hb.
  - destruct (Z.le_gt_cases (fst b) x) as [Hb|Hb].
    + destruct (IH ltac:(intros u v p' q' Huv Hu Hv; apply (Hs (S u) (S v)); [lia|exact Hu|exact Hv]) b eq_refl Hb) as [j [a [H1 [H2 H3]]]].
      exists (S j), a. split; [exact H1|]. split; [exact H2|]. exact H3.
    + exists 0%nat, p. split; [reflexivity|]. split; [exact Hx|]. intros b' Hb'. injection Hb' as <-. exact Hb.
Qed.

Lemma between_finite a ja b jb i : 0 <= ja <= jb -> a < i < b -> 0 <= a -> b <= 2 ^ 51 -> jb <= 2 ^ 51 -> (jb - ja) * (b - a) <= 2 ^ 51 ->
  isnan (add (mul (div (@ofZ N (jb - ja)) (ofZ (b - a))) (ofZ (i - a))) (ofZ ja)) = false.
Proof.
  intros Hj Hi Ha Hb Hjb Hm. apply (law_add_fin N L2); [|apply (law_fin_ofZ N L); lia].
  rewrite <- (law_mul_comm_ofZ N L2). apply (law_spread_fin N L2); lia.
Qed.

Lemma interp_curve i1 i2 n x : List.length i1 = List.length i2 -> nondecreasing i1 -> nondecreasing i2 ->
  first_is 0 i1 -> In (n - 1) i1 -> (forall z, In z i1 -> 0 <= z < n) -> (forall z, In z i2 -> 0 <= z <= 2 ^ 51) ->
  n <= 2 ^ 51 -> (forall z, In z i2 -> z * n <= 2 ^ 51) -> 0 <= x < n ->
  exists v, interp_at (combine i1 (map ofZ i2)) x = Ok v /\ @curve_value N i1 i2 x v.
Proof.
  intros Hl M1 M2 F1 Hlast W1 W2 Hn W2' Hx.
  set (l := combine i1 (map (@ofZ N) i2)).
  assert (Hs : sorted l).
  { intros a b [p p'] [q q'] Hab Ha Hb. apply nth_combine in Ha as [Ha _]. apply nth_combine in Hb as [Hb _]. cbn. eapply M1; eassumption. }
  assert (GET : forall t p v, nth_error l t = Some (p, v) -> nth_error i1 t = Some p /\ exists j, nth_error i2 t = Some j /\ v = ofZ j).
  { intros t p v H. apply nth_combine in H as [H1 H2]. split; [exact H1|]. rewrite nth_error_map in H2.
    destruct (nth_error i2 t) as [j|]; [|discriminate]. injection H2 as <-. exists j. auto. }
  assert (PUT : forall t p, nth_error i1 t = Some p -> exists v, nth_error l t = Some (p, v)).
  { intros t p H. destruct (nth_error i2 t) as [j|] eqn:E.
    - exists (ofZ j). apply nth_combine. split; [exact H|]. rewrite nth_error_map, E. reflexivity.
    - apply nth_error_None in E. assert (t < List.length i1)%nat by (apply nth_error_Some; congruence). lia. }
  destruct (PUT 0%nat 0 F1) as [v0 Hv0].
  destruct (last_exists l x Hs (0, v0) Hv0 ltac:(cbn; lia)) as [j [[a va] [Ha [Hax Hnext]]]]. cbn [fst] in Hax.
  destruct (GET j a va Ha) as [Ga [ja [Gja ->]]].
  destruct (Z.eq_dec a x) as [->|Hne].
  - exists (ofZ ja). split.
    + exact (interp_node l j (x, ofZ ja) Hs Ha Hnext).
    + left. exists ja. split; [|reflexivity]. exists j. split; [exact Ga|]. split; [exact Gja|].
      intros t' Ht' E. destruct (nth_error i1 (S j)) as [b|] eqn:Eb.
      * destruct (PUT _ _ Eb) as [vb Hvb]. specialize (Hnext _ Hvb). cbn in Hnext.
        assert (b <= x) by (apply (M1 (S j) t'); [lia|exact Eb|exact E]). lia.
      * apply nth_error_None in Eb. assert (t' < List.length i1)%nat by (apply nth_error_Some; congruence). lia.
  - assert (Hax' : a < x) by lia.
    destruct (nth_error i1 (S j)) as [b|] eqn:Eb.
    + destruct (PUT _ _ Eb) as [vb Hvb]. pose proof (Hnext _ Hvb) as Hxb. cbn in Hxb.
      destruct (GET _ _ _ Hvb) as [_ [jb [Gjb ->]]].
      exists (add (mul (div (ofZ (jb - ja)) (ofZ (b - a))) (ofZ (x - a))) (ofZ ja)).
      assert (Bjb : In jb i2) by (eapply nth_error_In; exact Gjb).
      assert (Bja : In ja i2) by (eapply nth_error_In; exact Gja).
      assert (Bb : In b i1) by (eapply nth_error_In; exact Eb).
      assert (Ba : In a i1) by (eapply nth_error_In; exact Ga).
      pose proof (W2 _ Bjb). pose proof (W2 _ Bja). pose proof (W1 _ Bb). pose proof (W1 _ Ba). pose proof (W2' _ Bjb).
      assert (Hjj : ja <= jb) by (apply (M2 j (S j)); [lia|exact Gja|exact Gjb]).
      split.
      * unfold interp_at. destruct l as [|p l'] eqn:El; [destruct j; discriminate|].
        rewrite (last_node_spec (p :: l') x Hs j (a, ofZ ja) Ha ltac:(cbn; lia) Hnext), Ha, Hvb.
        cbn in Hv0. injection Hv0 as ->. cbn [fst snd].
        destruct (x <? 0) eqn:E0; [lia|]. destruct (a =? x) eqn:E1; [lia|].
        unfold on_segment. cbn [fst snd]. rewrite !(law_sub_ofZ N L) by lia.
        rewrite between_finite by nia. reflexivity.
      * right. exists a, ja, b, jb. split; [|reflexivity]. exists j. repeat split; try assumption; lia.
    + exfalso. apply In_nth_error in Hlast as [t Ht]. apply nth_error_None in Eb.
      assert (t < List.length i1)%nat by (apply nth_error_Some; congruence).
      assert (n - 1 <= a) by (apply (M1 t j); [lia|exact Ht|exact Ga]). lia.
Qed.

(** numpy.linspace *)
Lemma removelast_nth {A} (l : list A) k : (S k < List.length l)%nat -> nth_error (removelast l) k = nth_error l k.
Proof.
  revert k; induction l as [|a l IH]; intros k H; [reflexivity|]. destruct l as [|b l]; [cbn in H; lia|].
  cbn [removelast]. destruct k as [|k]; [reflexivity|]. cbn [nth_error]. apply IH. cbn in *. lia.
Qed.
Lemma removelast_length {A} (l : list A) : List.length (removelast l) = (List.length l - 1)%nat.
Proof. induction l as [|a [|b l] IH]; [reflexivity|reflexivity|]. cbn [removelast List.length] in *. lia. Qed.

Lemma linspace_length stop num : 0 <= num -> List.length (@linspace0 N stop num) = Z.to_nat num.
Proof.
  intros H. unfold linspace0. destruct (1 <? num) eqn:E.
  - rewrite app_length, removelast_length, map_length, arange_length. cbn. lia.
  - rewrite map_length. apply arange_length.
Qed.
Lemma linspace_nth m n i : 1 <= m <= 2 ^ 53 -> 1 <= n <= 2 ^ 53 -> 0 <= i < n ->
  nth_error (@linspace0 N (m - 1) n) (Z.to_nat i) = Some (diagonal_value n m i).
Proof.
  intros Hm Hn Hi. unfold linspace0, diagonal_value. destruct (1 <? n) eqn:E.
  - destruct (i =? n - 1) eqn:Ei.
    + rewrite nth_error_app2; rewrite removelast_length, map_length, arange_length; [|lia].
      replace (Z.to_nat i - (Z.to_nat n - 1))%nat with 0%nat by lia. cbn. destruct (i =? 0) eqn:E0; [lia|reflexivity].
    + rewrite nth_error_app1; [|rewrite removelast_length, map_length, arange_length; lia].
      rewrite removelast_nth by (rewrite map_length, arange_length; lia).
      rewrite nth_error_map. replace (nth_error (arange n) (Z.to_nat i)) with (Some i) by (symmetry; apply nth_arange; lia).
      cbn [option_map]. destruct (n - 1 <=? 0) eqn:E2; [lia|].
      destruct (m =? 1) eqn:Em.
      * replace (m - 1) with 0 by lia. assert (ED : div (@ofZ N 0) (ofZ (n - 1)) = ofZ 0).
        { rewrite <- (Z.mul_0_l (n - 1)) at 1. apply (law_div_exact N L); lia. }
        rewrite ED. rewrite (law_eq_ofZ N L) by lia. reflexivity.
      * rewrite (law_frac_pos N L2) by lia. reflexivity.
  - assert (n = 1) by lia. assert (i = 0) by lia. subst.
    change (arange 1) with [0]. change (Z.to_nat 0) with 0%nat. cbn [map nth_error].
    change (1 - 1 <=? 0) with true. change (0 =? 1 - 1) with true. change (0 =? 0) with true. cbv iota.
    rewrite (law_mul_ofZ N L2) by lia. reflexivity.
Qed.
Lemma diagonal_finite n m i : 1 <= m -> 1 <= n -> m * n <= 2 ^ 51 -> 0 <= i < n -> isfin (@diagonal_value N n m i) = true.
Proof.
  intros Hm Hn Hmn Hi. assert (m <= 2 ^ 51) by nia. assert (n <= 2 ^ 51) by nia. unfold diagonal_value. destruct (i =? n - 1) eqn:Ei; [|destruct (m =? 1) eqn:Em].
  - destruct (i =? 0); apply (law_fin_ofZ N L); lia.
  - apply (law_mul_zero N L2). apply (law_frac_fin N L); lia.
  - apply (law_spread_fin N L2); nia.
Qed.

Lemma zip_nth_inv {A B C} (f : A -> B -> C) l l' k c : nth_error (zip_with f l l') k = Some c ->
  exists a b, nth_error l k = Some a /\ nth_error l' k = Some b /\ c = f a b.
Proof.
  revert l' k; induction l as [|x l IH]; intros [|y l'] [|k] H; cbn in *; try discriminate.
  - injection H as <-. exists x, y. auto.
  - apply IH. exact H.
Qed.


Lemma area_sum (d : DTW N) mp : r_map d = Some mp ->
  List.length (index1 mp) = List.length (index2 mp) -> nondecreasing (index1 mp) -> nondecreasing (index2 mp) ->
  first_is 0 (index1 mp) -> In (Z.of_nat (r_N d) - 1) (index1 mp) ->
  within 0 (Z.of_nat (r_N d)) (index1 mp) -> within 0 (Z.of_nat (r_M d)) (index2 mp) ->
  Z.of_nat (r_M d) * Z.of_nat (r_N d) <= 2 ^ 51 ->
  exists ts, warpArea d = Ok (np_sum ts) /\ area_terms (index1 mp) (index2 mp) (r_N d) (r_M d) ts.
Proof.
  intros Em Hl M1 M2 F1 Hin W1 W2 Hsz. unfold warpArea. rewrite Em.
  assert (Hn : 1 <= Z.of_nat (r_N d)) by (specialize (W1 _ Hin); lia).
  assert (Hm : 1 <= Z.of_nat (r_M d)).
  { destruct (index2 mp) as [|j l2]; [destruct (index1 mp); [discriminate F1|discriminate Hl]|]. specialize (W2 j (or_introl eq_refl)). lia. }
  set (n := r_N d) in *. set (m := r_M d) in *. clearbody n m.
  assert (Hn51 : Z.of_nat n <= 2 ^ 51) by nia. assert (Hm51 : Z.of_nat m <= 2 ^ 51) by nia.
  destruct (list_choice (fun i v => interp_at (combine (index1 mp) (map ofZ (index2 mp))) (Z.of_nat i) = Ok v /\ @curve_value N (index1 mp) (index2 mp) (Z.of_nat i) v) n) as [vs [Lv Hv]].
  { intros i Hi. apply (interp_curve _ _ (Z.of_nat n)); try assumption; try lia.
    - intros z Hz. specialize (W2 z Hz). lia.
    - intros z Hz. specialize (W2 z Hz). nia. }
  assert (Hs : sorted (combine (index1 mp) (map (@ofZ N) (index2 mp)))).
  { intros a b [p p'] [q q'] Hab Ha Hb. apply nth_combine in Ha as [Ha _]. apply nth_combine in Hb as [Hb _]. cbn. eapply M1; eassumption. }
  assert (EI : interp1d (index1 mp) (map ofZ (index2 mp)) (arange (Z.of_nat n)) = Ok vs).
  { unfold interp1d. rewrite map_length, Hl, Nat.eqb_refl. cbn [negb]. rewrite (sort_sorted _ Hs).
    apply mapM_nth; [|rewrite arange_length; lia]. intros k a Ha. apply nth_arange in Ha as [-> Hk].
    destruct (Hv k ltac:(lia)) as [v [E [E' _]]]. exists v. auto. }
  rewrite EI. cbn [bind].
  assert (NN : forall v x, 0 <= x < Z.of_nat n -> @curve_value N (index1 mp) (index2 mp) x v -> isnan v = false).
  { intros v x Hx [[j [[t [_ [Hj _]]] ->]]|[a [ja [b [jb [[t [Ha [Hja [Hb [Hjb Hi]]]]] ->]]]]]].
    - apply (law_fin_not_nan N L), (law_fin_ofZ N L). apply nth_error_In in Hj. specialize (W2 _ Hj). lia.
    - assert (ja <= jb) by (apply (M2 t (S t)); [lia|assumption|assumption]).
      apply nth_error_In in Ha, Hja, Hb, Hjb. pose proof (W1 _ Ha). pose proof (W1 _ Hb). pose proof (W2 _ Hja). pose proof (W2 _ Hjb).
      apply between_finite; nia. }
  destruct (Hv 0%nat ltac:(lia)) as [v0 [E0 [_ C0]]].
  destruct vs as [|w vs']; [discriminate E0|]. cbn in E0. injection E0 as ->.
  cbn [repair]. rewrite (NN v0 0 ltac:(lia) C0). cbn [bind].
  eexists. split; [reflexivity|]. split.
  - rewrite zip_with_length, linspace_length by lia. lia.
  - intros i Hi. destruct (Hv i Hi) as [v [Ev [_ Cv]]]. exists v. split; [exact Cv|]. split; [apply (NN v (Z.of_nat i)); [lia|exact Cv]|].
    apply (zip_with_nth (fun a b : N => vabs (sub a b))); [exact Ev|].
    rewrite <- (Nat2Z.id i) at 1. apply linspace_nth; lia.
Qed.

Lemma sum_nonneg (l : list N) : (forall x, In x l -> leb (ofZ 0) x = true) -> leb (ofZ 0) (np_sum l) = true.
Proof.
  apply (np_sum_tree (fun l v => (forall x, In x l -> leb (ofZ 0) x = true) -> leb (ofZ 0) v = true)).
  - intros _. rewrite (law_le_ofZ N L) by lia. reflexivity.
  - intros x H. apply H. left. reflexivity.
  - intros l1 l2 v1 v2 H1 H2 H. apply (law_add_nonneg N L2); [apply H1|apply H2]; intros x Hx; apply H; apply in_app_iff; auto.
  - intros l1 l2 v P H1 H. apply H1. intros x Hx. apply H. eapply Permutation_in; eassumption.
Qed.
Lemma terms_nonneg i1 i2 n m (ts : list N) : (1 <= m)%nat -> Z.of_nat m * Z.of_nat n <= 2 ^ 51 ->
  area_terms i1 i2 n m ts -> leb (ofZ 0) (np_sum ts) = true.
Proof.
  intros Hm Hsz [Hl Ht]. apply sum_nonneg. intros x Hx. apply In_nth_error in Hx as [k Hk].
  assert (k < n)%nat by (rewrite <- Hl; apply nth_error_Some; congruence).
  destruct (Ht k H) as [v [_ [Nv E]]]. rewrite E in Hk. injection Hk as <-.
  apply (law_abs_nonneg N L2). apply (law_sub_fin N L2); [exact Nv|]. apply diagonal_finite; lia.
Qed.
End Area.
