(** SumLaws.v - numpy.sum as a tree of additions (proofs only). *)
From Coq Require Import Permutation ZifyBool ZifyNat.
From Verif Require Import Base Num.
Open Scope list_scope.
Open Scope nat_scope.
Ltac Zify.zify_post_hook ::= Z.div_mod_to_equations.

Section Tree.
Context {N : Num}.
Variable P : list N -> N -> Prop.
Hypothesis P_nil : P [] (ofZ 0).
Hypothesis P_one : forall x, P [x] x.
Hypothesis P_add : forall l1 l2 v1 v2, P l1 v1 -> P l2 v2 -> P (l1 ++ l2) (add v1 v2).
Hypothesis P_perm : forall l l' v, Permutation l l' -> P l v -> P l' v.

Lemma tree_fold l : forall l0 v, P l0 v -> P (l0 ++ l) (fold_left add l v).
Proof.
  induction l as [|x l IH]; intros l0 v H; [rewrite app_nil_r; exact H|].
  cbn [fold_left]. replace (l0 ++ x :: l) with ((l0 ++ [x]) ++ l) by (rewrite <- app_assoc; reflexivity).
  apply IH. apply P_add; [exact H|apply P_one].
Qed.

(** Lanes: each lane holds the sum of some of the elements. *)
Lemma lanes_step (ls : list (list N)) r l8 : Forall2 P ls r -> List.length l8 = List.length r ->
  exists ls', Forall2 P ls' (List.map (fun p => add (fst p) (snd p)) (combine r l8)) /\
    Permutation (List.concat ls') (List.concat ls ++ l8).
Proof.
  intros H. revert l8. induction H as [|l v ls r Hl Hr IH]; intros [|x l8] E; try discriminate.
  - exists []. split; [constructor|reflexivity].
  - destruct (IH l8) as [ls' [A B]]; [cbn in E; lia|]. exists ((l ++ [x]) :: ls'). cbn [combine List.map fst snd List.concat].
    split; [constructor; [apply P_add; [exact Hl|apply P_one]|exact A]|].
    rewrite <- !app_assoc. apply Permutation_app_head. cbn [app]. rewrite B.
    rewrite Permutation_middle. reflexivity.
Qed.

Lemma lanes_all fuel : forall (ls : list (list N)) r l, Forall2 P ls r -> List.length r = 8 -> List.length l <= 8 * fuel ->
  exists ls' r' rest, sum_lanes fuel r l = (r', rest) /\ Forall2 P ls' r' /\ List.length r' = 8 /\
    Permutation (List.concat ls' ++ rest) (List.concat ls ++ l).
Proof.
  induction fuel as [|f IH]; intros ls r l H Hr Hl; cbn [sum_lanes].
  - exists ls, r, l. auto.
  - destruct (Nat.ltb_spec (List.length l) 8) as [Hlt|Hge]; [exists ls, r, l; auto|].
    destruct (lanes_step ls r (firstn 8 l) H) as [ls1 [A B]]; [rewrite firstn_length; lia|].
    edestruct (IH ls1) as [ls' [r' [rest [E [F [G K]]]]]]; [exact A| | |].
    + rewrite map_length, combine_length, firstn_length. lia.
    + instantiate (1 := skipn 8 l). rewrite skipn_length. lia.
    + exists ls', r', rest. repeat split; auto. rewrite K, B, <- app_assoc, firstn_skipn. reflexivity.
Qed.

Lemma tree_lanes ls (r : list N) : Forall2 P ls r -> List.length r = 8 -> P (List.concat ls) (lane_tree r).
Proof.
  intros H Hr. do 8 (destruct r as [|? r]; [discriminate|]). destruct r; [|discriminate].
  repeat match goal with H : Forall2 _ _ (_ :: _) |- _ => inversion H; clear H; subst end.
  match goal with H : Forall2 _ _ [] |- _ => inversion H; subst end. cbn [List.concat lane_tree].
  rewrite app_nil_r.
  match goal with |- P (?a ++ ?b ++ ?c ++ ?d ++ ?e ++ ?f ++ ?g ++ ?h) _ =>
    replace (a ++ b ++ c ++ d ++ e ++ f ++ g ++ h) with (((a ++ b) ++ (c ++ d)) ++ ((e ++ f) ++ (g ++ h)))
      by (rewrite <- !app_assoc; reflexivity) end.
  repeat apply P_add; assumption.
Qed.

Lemma tree_pairwise fuel : forall l, List.length l <= fuel -> P l (pairwise_sum fuel l).
Proof.
  assert (Small : forall l : list N, List.length l < 8 -> P l (fold_left add l (ofZ 0))).
  { intros l _. apply (tree_fold l [] _ P_nil). }
  assert (Mid : forall l : list N, 8 <= List.length l ->
    P l (let '(r, rest) := sum_lanes (List.length l) (firstn 8 l) (skipn 8 l) in fold_left add rest (lane_tree r))).
  { intros l Hl.
    destruct (lanes_all (List.length l) (List.map (fun x => [x]) (firstn 8 l)) (firstn 8 l) (skipn 8 l)) as [ls [r [rest [E [F [G K]]]]]].
    - induction (firstn 8 l); constructor; [apply P_one|assumption].
    - rewrite firstn_length. lia.
    - rewrite skipn_length. lia.
    - rewrite E. eapply P_perm; [|apply tree_fold; apply tree_lanes; eassumption].
      rewrite K. replace (List.concat (List.map (fun x => [x]) (firstn 8 l))) with (firstn 8 l).
      + rewrite firstn_skipn. reflexivity.
      + clear. induction (firstn 8 l) as [|a q IH]; [reflexivity|]. cbn. f_equal. exact IH. }
  induction fuel as [|f IH]; intros l Hl; cbn [pairwise_sum].
  - destruct (Nat.ltb_spec (List.length l) 8) as [H8|H8]; [apply Small; exact H8|]. cbn in Hl. lia.
  - destruct (Nat.ltb_spec (List.length l) 8) as [H8|H8]; [apply Small; exact H8|].
    destruct (Nat.leb_spec (List.length l) 128) as [H128|H128]; [apply Mid; exact H8|].
    set (n2 := List.length l / 2 - (List.length l / 2) mod 8).
    assert (n2 <= List.length l / 2) by (subst n2; lia).
    assert (List.length l / 2 - 7 <= n2) by (subst n2; lia).
    rewrite <- (firstn_skipn n2 l) at 1.
    apply P_add; apply IH; rewrite ?firstn_length, ?skipn_length; lia.
Qed.

Theorem np_sum_tree l : P l (np_sum l).
Proof. unfold np_sum. apply (P_add [] l); [exact P_nil|]. apply tree_pairwise. lia. Qed.
End Tree.

(** Sums of integers are exact below 2^53. *)
Lemma np_sum_nats {N : Num} (L : NumLaws N) (l : list nat) : (Z.of_nat (list_sum l) <= 2 ^ 53)%Z ->
  np_sum (List.map (fun k => @ofZ N (Z.of_nat k)) l) = ofZ (Z.of_nat (list_sum l)).
Proof.
  set (f := fun k => @ofZ N (Z.of_nat k)).
  assert (Hs : forall a b, list_sum (a ++ b) = list_sum a + list_sum b) by apply list_sum_app.
  assert (Hp : forall a b, Permutation a b -> list_sum a = list_sum b).
  { induction 1; cbn in *; unfold list_sum in *; cbn in *; lia. }
  assert (G : forall (q : list N) v, q = List.map f l -> np_sum q = v ->
     forall zs, Permutation (List.map f zs) q -> (Z.of_nat (list_sum zs) <= 2 ^ 53)%Z -> v = f (list_sum zs)).
  { intros q v _ <-.
    apply (np_sum_tree (fun q v => forall zs, Permutation (List.map f zs) q -> (Z.of_nat (list_sum zs) <= 2 ^ 53)%Z -> v = f (list_sum zs))).
    - intros zs H _. apply Permutation_sym, Permutation_nil in H. apply map_eq_nil in H. subst. reflexivity.
    - intros x zs H _. apply Permutation_sym, Permutation_length_1_inv in H.
      destruct zs as [|z [|]]; try discriminate. injection H as <-. unfold list_sum; cbn. rewrite Nat.add_0_r. reflexivity.
    - intros l1 l2 v1 v2 H1 H2 zs H Hb.
      apply Permutation_sym, Permutation_map_inv in H as [zs' [E H]]. symmetry in E. apply map_eq_app in E as [a [b [-> [<- <-]]]].
      rewrite (Hp _ _ H) in *. rewrite Hs in *.
      rewrite (H1 a), (H2 b) by (reflexivity || lia). unfold f. rewrite (law_add_ofZ _ L) by lia.
      f_equal. lia.
    - intros q1 q2 v HP IH zs H Hb. apply IH; [|exact Hb]. rewrite H. symmetry. exact HP. }
  intros H. apply (G (List.map f l) _ eq_refl eq_refl l); [reflexivity|exact H].
Qed.
