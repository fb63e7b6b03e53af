(** RJ.v - the Rabiner-Juang construction: specification and proofs. *)
From Coq Require Import ZifyBool ZifyNat Permutation.
From Verif Require Import Base Num StepPattern Window Spec Tables Vocab Terms SumLaws RJSpec.
Open Scope string_scope.
Open Scope list_scope.
Open Scope nat_scope.

(** ** Specification *)




(** ** Proofs *)
Section RJ.
Context {N : Num}.
Variable L : NumLaws N.

Definition z0 (k : nat) : N := ofZ (Z.of_nat k).

Fixpoint psums (acc : nat) (l : list nat) : list nat :=
  match l with [] => [] | x :: l' => (acc + x) :: psums (acc + x) l' end.

Lemma cumsum_z acc l : (Z.of_nat (acc + list_sum l) <= 2 ^ 53)%Z ->
  cumsum_from (z0 acc) (map z0 l) = map z0 (psums acc l).
Proof.
  revert acc. induction l as [|x l IH]; intros acc H; [reflexivity|]. unfold list_sum in *. cbn [map cumsum_from psums fold_right] in *.
  assert (E : add (z0 acc) (z0 x) = z0 (acc + x)).
  { unfold z0. rewrite (law_add_ofZ _ L) by lia. f_equal. lia. }
  rewrite E. f_equal. apply IH. lia.
Qed.
Lemma max_z acc l : (Z.of_nat (acc + list_sum l) <= 2 ^ 53)%Z ->
  np_max_from (z0 acc) (map z0 (psums acc l)) = z0 (acc + list_sum l).
Proof.
  revert acc. induction l as [|x l IH]; intros acc H; unfold list_sum in *; cbn [map psums np_max_from fold_right] in *.
  - f_equal. lia.
  - assert (F : forall k, (Z.of_nat k <= 2 ^ 53)%Z -> isnan (z0 k) = false).
    { intros k Hk. apply (law_fin_not_nan _ L), (law_fin_ofZ _ L). lia. }
    rewrite !F by lia.
    assert (E : (if ltb (z0 acc) (z0 (acc + x)) then z0 (acc + x) else z0 acc) = z0 (acc + x)).
    { unfold z0. rewrite (law_lt_ofZ _ L) by lia. destruct (Z.ltb_spec (Z.of_nat acc) (Z.of_nat (acc + x))); [reflexivity|]. f_equal. lia. }
    rewrite E. rewrite IH by lia. f_equal. lia.
Qed.

(** remaining distances: total minus partial sums = sums of the rest *)
Fixpoint rests (l : list nat) : list nat := match l with [] => [] | _ :: l' => list_sum l' :: rests l' end.
Lemma sub_z acc l t : t = acc + list_sum l -> (Z.of_nat t <= 2 ^ 53)%Z ->
  map (fun x => sub (z0 t) x) (map z0 (psums acc l)) = map z0 (rests l).
Proof.
  revert acc. induction l as [|x l IH]; intros acc E H; [reflexivity|]. unfold list_sum in *. cbn [map psums rests fold_right] in *. f_equal.
  - unfold z0. rewrite (law_sub_ofZ _ L) by lia. f_equal. unfold list_sum. lia.
  - apply (IH (acc + x)); [lia|exact H].
Qed.

Lemma rests_to_go steps : to_go steps = combine (rests (map fst steps)) (rests (map snd steps)).
Proof. induction steps as [|d steps IH]; [reflexivity|]. cbn [map rests to_go combine]. f_equal. exact IH. Qed.

Lemma np_sum_z (l : list nat) : (Z.of_nat (list_sum l) <= 2 ^ 53)%Z -> np_sum (map z0 l) = z0 (list_sum l).
Proof. exact (np_sum_nats L l). Qed.

Lemma mean_z (l : list nat) : l <> [] -> (Z.of_nat (list_sum l) <= 2 ^ 53)%Z -> (Z.of_nat (List.length l) <= 2 ^ 53)%Z ->
  np_mean (map z0 l) = weight (fraction (list_sum l) (List.length l)).
Proof.
  intros Hl Hs Hn. unfold np_mean. rewrite np_sum_z by exact Hs. rewrite map_length. unfold fraction, weight.
  assert (0 < List.length l) by (destruct l; [contradiction|cbn; lia]).
  pose proof (Nat.div_mod (list_sum l) (List.length l) ltac:(lia)) as D.
  destruct (Nat.eqb_spec (list_sum l mod List.length l) 0) as [E|E]; cbn [fst snd].
  - cbn [Z.eqb]. unfold z0. rewrite E, Nat.add_0_r in D. rewrite D at 1. rewrite Nat.mul_comm, Nat2Z.inj_mul.
    apply (law_div_exact _ L); lia.
  - destruct (Z.eqb_spec (Z.of_nat (List.length l)) 1) as [E1|E1]; [|reflexivity].
    exfalso. apply E. replace (List.length l) with 1 by lia. apply Nat.mod_1_r.
Qed.

Lemma zip_map {A B C D} (f : B -> C -> D) (g : A -> B) (h : A -> C) l :
  zip_with f (map g l) (map h l) = map (fun a => f (g a) (h a)) l.
Proof. induction l as [|a l IH]; [reflexivity|]. cbn [map zip_with]. f_equal. exact IH. Qed.

Lemma rests_length l : List.length (rests l) = List.length l.
Proof. induction l as [|x l IH]; [reflexivity|]. cbn [rests List.length]. f_equal. exact IH. Qed.

Lemma zip_rows_rule pid (ri rj : list nat) (w : list (Z * Z)) :
  zip_rows pid (map z0 ri) (map z0 rj) (map weight w) =
  map (fun a : nat * nat * N => Row (ofZ pid) (z0 (fst (fst a))) (z0 (snd (fst a))) (snd a))
      (map (fun a : nat * nat * (Z * Z) => (fst a, weight (snd a))) (combine (combine ri rj) w)).
Proof.
  unfold zip_rows. revert rj w. induction ri as [|a ri IH]; intros [|b rj] [|c w]; try reflexivity.
  cbn [map zip_with combine fst snd]. f_equal. apply IH.
Qed.

Lemma weight_int k : @weight N (Z.of_nat k, 1%Z) = z0 k.
Proof. reflexivity. Qed.

Lemma weighting_code s wt (steps : list (nat * nat)) :
  weighting s = Some wt -> (Z.of_nat (fst (total steps) + snd (total steps)) <= 2 ^ 53)%Z ->
  (if String.eqb s "a" then Ok (zip_with np_minimum (map z0 (0 :: map fst steps)) (map z0 (0 :: map snd steps)))
        else if String.eqb s "b" then Ok (zip_with np_maximum (map z0 (0 :: map fst steps)) (map z0 (0 :: map snd steps)))
        else if String.eqb s "c" then Ok (map z0 (0 :: map fst steps))
        else if String.eqb s "d" then Ok (zip_with add (map z0 (0 :: map fst steps)) (map z0 (0 :: map snd steps)))
        else Raise (ValueError "Unsupported subtype")) = Ok (map z0 (0 :: map wt steps)).
Proof.
  intros Hw Hb.
  assert (Hin : forall d, In d steps -> (Z.of_nat (fst d) + Z.of_nat (snd d) <= 2 ^ 53)%Z).
  { unfold total, list_sum in Hb. cbn [fst snd] in Hb. revert Hb. clear. induction steps as [|a l IH]; intros Hb d H; [destruct H|]. cbn [map fold_right] in Hb.
    destruct H as [->|H]; [lia|]. apply IH; [lia|exact H]. }
  assert (Nn : forall k, (Z.of_nat k <= 2 ^ 53)%Z -> isnan (z0 k) = false).
  { intros k Hk. apply (law_fin_not_nan _ L), (law_fin_ofZ _ L). lia. }
  assert (Zip : forall f g, (forall a b, (Z.of_nat a + Z.of_nat b <= 2 ^ 53)%Z -> f (z0 a) (z0 b) = z0 (g (a, b))) ->
     zip_with f (map z0 (0 :: map fst steps)) (map z0 (0 :: map snd steps)) = map z0 (g (0, 0) :: map g steps)).
  { intros f g H. cbn [map zip_with]. rewrite H by lia. f_equal. rewrite !map_map, zip_map.
    apply map_ext_in. intros [a b] Hd. apply H. apply (Hin (a, b) Hd). }
  unfold weighting in Hw. destruct (String.eqb s "a").
  { injection Hw as <-. f_equal. rewrite (Zip np_minimum (fun d => Nat.min (fst d) (snd d))); [reflexivity|].
    intros a b Hab. unfold np_minimum. rewrite !Nn by lia. unfold z0. rewrite (law_lt_ofZ _ L) by lia. cbn [fst snd].
    destruct (Z.ltb_spec (Z.of_nat b) (Z.of_nat a)); f_equal; lia. }
  destruct (String.eqb s "b").
  { injection Hw as <-. f_equal. rewrite (Zip np_maximum (fun d => Nat.max (fst d) (snd d))); [reflexivity|].
    intros a b Hab. unfold np_maximum. rewrite !Nn by lia. unfold z0. rewrite (law_lt_ofZ _ L) by lia. cbn [fst snd].
    destruct (Z.ltb_spec (Z.of_nat a) (Z.of_nat b)); f_equal; lia. }
  destruct (String.eqb s "c").
  { injection Hw as <-. reflexivity. }
  destruct (String.eqb s "d"); [|discriminate].
  injection Hw as <-. f_equal. rewrite (Zip add (fun d => fst d + snd d)); [reflexivity|].
  intros a b Hab. unfold z0. rewrite (law_add_ofZ _ L) by lia. f_equal. cbn [fst snd]. lia.
Qed.

Lemma weighting_le s wt d : weighting s = Some wt -> wt d <= fst d + snd d.
Proof.
  unfold weighting. destruct (String.eqb s "a"); [intros E; injection E as <-; lia|].
  destruct (String.eqb s "b"); [intros E; injection E as <-; lia|].
  destruct (String.eqb s "c"); [intros E; injection E as <-; lia|].
  destruct (String.eqb s "d"); [intros E; injection E as <-; lia|discriminate].
Qed.

(** The builder produces the rows of the chain's production. *)
Theorem builder k s wt m steps : weighting s = Some wt -> steps <> [] ->
  (Z.of_nat (fst (total steps) + snd (total steps)) <= 2 ^ 53)%Z ->
  (Z.of_nat (List.length steps) <= 2 ^ 53)%Z ->
  P_get (Z.of_nat k) s m (zs steps) = Ok (@rule_rows N k (production (chain wt m steps))).
Proof.
  intros Hw Hne Hb Hl. unfold P_get.
  assert (Ei : ofZ 0 :: map (fun s => @ofZ N (fst s)) (zs steps) = map z0 (0 :: map fst steps)).
  { unfold zs. cbn [map]. f_equal. rewrite !map_map. reflexivity. }
  assert (Ej : ofZ 0 :: map (fun s => @ofZ N (snd s)) (zs steps) = map z0 (0 :: map snd steps)).
  { unfold zs. cbn [map]. f_equal. rewrite !map_map. reflexivity. }
  rewrite Ei, Ej. rewrite (weighting_code s wt steps Hw Hb). clear Ei Ej.
  unfold total in Hb. cbn [fst snd] in Hb.
  cbn [map cumsum].
  change (ofZ (Z.of_nat 0)) with (z0 0).
  rewrite !cumsum_z by (cbn [Nat.add]; lia). cbn [np_max bind].
  rewrite !max_z by (cbn [Nat.add]; lia). cbn [bind Nat.add map].
  rewrite !(sub_z 0) by (reflexivity || lia).
  assert (E0 : forall t, (Z.of_nat t <= 2 ^ 53)%Z -> sub (z0 t) (z0 0) = z0 t).
  { intros t Ht. unfold z0. rewrite (law_sub_ofZ _ L) by lia. f_equal. lia. }
  rewrite !E0 by lia. cbn [tl bind].
  assert (EW : (if m then map (fun _ : N => np_mean (map z0 (map wt steps))) (map z0 (map wt steps)) else map z0 (map wt steps))
               = map weight (weights wt m steps)).
  { unfold weights. destruct m.
    - rewrite mean_z.
      + rewrite !map_map, map_length. reflexivity.
      + destruct steps; [contradiction|discriminate].
      + assert (G : list_sum (map wt steps) <= list_sum (map fst steps) + list_sum (map snd steps)).
        { clear -Hw. induction steps as [|d l IH]; [cbn; lia|]. unfold list_sum in *. cbn [map fold_right].
          pose proof (weighting_le s wt d Hw). lia. }
        lia.
      + rewrite map_length. exact Hl.
    - rewrite !map_map. reflexivity. }
  rewrite EW. clear EW. f_equal. unfold zip_rows. cbn [zip_with fst snd].
  fold (zip_rows (Z.of_nat k) (map z0 (rests (map fst steps))) (map z0 (rests (map snd steps))) (map weight (weights wt m steps))).
  rewrite zip_rows_rule. unfold rule_rows, production, chain. cbn [w_di w_dj w_add r_di r_dj r_add fst snd total].
  f_equal. rewrite rests_to_go. reflexivity.
Qed.

Theorem builder_unsupported k s m steps : weighting s = None -> (forall d, In d steps -> (0 <= fst d /\ 0 <= snd d)%Z) ->
  @P_get N k s m steps = Raise (ValueError "Unsupported subtype").
Proof.
  intros Hw _. unfold P_get. cbn [cumsum np_max bind map]. unfold weighting in Hw.
  destruct (String.eqb s "a"); [discriminate|]. destruct (String.eqb s "b"); [discriminate|].
  destruct (String.eqb s "c"); [discriminate|]. destruct (String.eqb s "d"); [discriminate|]. reflexivity.
Qed.
End RJ.
