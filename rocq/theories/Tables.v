(** Tables.v - the predefined step patterns as lists of productions.

    The weights are written as fractions (numerator, denominator), independently of
    the arithmetic; [productions] says what they mean in a given arithmetic. *)
From Coq Require Import ZifyBool ZifyNat.
From Verif Require Import Base Num StepPattern Window Spec.
Open Scope string_scope.
Open Scope list_scope.
Open Scope nat_scope.

(** W di dj adds: a step from (i-di, j-dj) to (i,j), charging weight * local cost at
    (i-oi, j-oj) for each (oi, oj, weight) in adds. *)
Record wrule := W { w_di : nat; w_dj : nat; w_add : list (nat * nat * (Z * Z)) }.

Definition weight {N : Num} (q : Z * Z) : N :=
  if (snd q =? 1)%Z then ofZ (fst q) else div (ofZ (fst q)) (ofZ (snd q)).
Definition production {N : Num} (r : wrule) : rule N :=
  Rule (w_di r) (w_dj r) (map (fun a => (fst a, weight (snd a))) (w_add r)).
Definition productions {N : Num} (l : list wrule) : list (rule N) := map production l.

(** The productions printed by the package for each predefined pattern
    (dtw/stepPattern.py:562-990). *)
Definition predefined : list (string * list wrule) :=
  [
    ("symmetric1", [
        W 1 1 [(0, 0, (1, 1)%Z)];
        W 0 1 [(0, 0, (1, 1)%Z)];
        W 1 0 [(0, 0, (1, 1)%Z)]]);
    ("symmetric2", [
        W 1 1 [(0, 0, (2, 1)%Z)];
        W 0 1 [(0, 0, (1, 1)%Z)];
        W 1 0 [(0, 0, (1, 1)%Z)]]);
    ("asymmetric", [
        W 1 0 [(0, 0, (1, 1)%Z)];
        W 1 1 [(0, 0, (1, 1)%Z)];
        W 1 2 [(0, 0, (1, 1)%Z)]]);
    ("_symmetricVelichkoZagoruyko", [
        W 0 1 [];
        W 1 1 [(0, 0, ((-1001), 1000)%Z)];
        W 1 0 []]);
    ("_asymmetricItakura", [
        W 1 2 [(0, 0, (1, 1)%Z)];
        W 1 1 [(0, 0, (1, 1)%Z)];
        W 2 1 [(1, 0, (1, 1)%Z); (0, 0, (1, 1)%Z)];
        W 2 2 [(1, 0, (1, 1)%Z); (0, 0, (1, 1)%Z)]]);
    ("symmetricP0", [
        W 1 1 [(0, 0, (2, 1)%Z)];
        W 0 1 [(0, 0, (1, 1)%Z)];
        W 1 0 [(0, 0, (1, 1)%Z)]]);
    ("asymmetricP0", [
        W 0 1 [(0, 0, (0, 1)%Z)];
        W 1 1 [(0, 0, (1, 1)%Z)];
        W 1 0 [(0, 0, (1, 1)%Z)]]);
    ("_asymmetricP0b", [
        W 0 1 [];
        W 1 1 [(0, 0, (1, 1)%Z)];
        W 1 0 [(0, 0, (1, 1)%Z)]]);
    ("symmetricP05", [
        W 1 3 [(0, 2, (2, 1)%Z); (0, 1, (1, 1)%Z); (0, 0, (1, 1)%Z)];
        W 1 2 [(0, 1, (2, 1)%Z); (0, 0, (1, 1)%Z)];
        W 1 1 [(0, 0, (2, 1)%Z)];
        W 2 1 [(1, 0, (2, 1)%Z); (0, 0, (1, 1)%Z)];
        W 3 1 [(2, 0, (2, 1)%Z); (1, 0, (1, 1)%Z); (0, 0, (1, 1)%Z)]]);
    ("asymmetricP05", [
        W 1 3 [(0, 2, (1, 3)%Z); (0, 1, (1, 3)%Z); (0, 0, (1, 3)%Z)];
        W 1 2 [(0, 1, (1, 2)%Z); (0, 0, (1, 2)%Z)];
        W 1 1 [(0, 0, (1, 1)%Z)];
        W 2 1 [(1, 0, (1, 1)%Z); (0, 0, (1, 1)%Z)];
        W 3 1 [(2, 0, (1, 1)%Z); (1, 0, (1, 1)%Z); (0, 0, (1, 1)%Z)]]);
    ("symmetricP1", [
        W 1 2 [(0, 1, (2, 1)%Z); (0, 0, (1, 1)%Z)];
        W 1 1 [(0, 0, (2, 1)%Z)];
        W 2 1 [(1, 0, (2, 1)%Z); (0, 0, (1, 1)%Z)]]);
    ("asymmetricP1", [
        W 1 2 [(0, 1, (1, 2)%Z); (0, 0, (1, 2)%Z)];
        W 1 1 [(0, 0, (1, 1)%Z)];
        W 2 1 [(1, 0, (1, 1)%Z); (0, 0, (1, 1)%Z)]]);
    ("symmetricP2", [
        W 2 3 [(1, 2, (2, 1)%Z); (0, 1, (2, 1)%Z); (0, 0, (1, 1)%Z)];
        W 1 1 [(0, 0, (2, 1)%Z)];
        W 3 2 [(2, 1, (2, 1)%Z); (1, 0, (2, 1)%Z); (0, 0, (1, 1)%Z)]]);
    ("asymmetricP2", [
        W 2 3 [(1, 2, (2, 3)%Z); (0, 1, (2, 3)%Z); (0, 0, (2, 3)%Z)];
        W 1 1 [(0, 0, (1, 1)%Z)];
        W 3 2 [(2, 1, (1, 1)%Z); (1, 0, (1, 1)%Z); (0, 0, (1, 1)%Z)]]);
    ("typeIa", [
        W 2 1 [(1, 0, (1, 1)%Z); (0, 0, (0, 1)%Z)];
        W 1 1 [(0, 0, (1, 1)%Z)];
        W 1 2 [(0, 1, (1, 1)%Z); (0, 0, (0, 1)%Z)]]);
    ("typeIb", [
        W 2 1 [(1, 0, (1, 1)%Z); (0, 0, (1, 1)%Z)];
        W 1 1 [(0, 0, (1, 1)%Z)];
        W 1 2 [(0, 1, (1, 1)%Z); (0, 0, (1, 1)%Z)]]);
    ("typeIc", [
        W 2 1 [(1, 0, (1, 1)%Z); (0, 0, (1, 1)%Z)];
        W 1 1 [(0, 0, (1, 1)%Z)];
        W 1 2 [(0, 1, (1, 1)%Z); (0, 0, (0, 1)%Z)]]);
    ("typeId", [
        W 2 1 [(1, 0, (2, 1)%Z); (0, 0, (1, 1)%Z)];
        W 1 1 [(0, 0, (2, 1)%Z)];
        W 1 2 [(0, 1, (2, 1)%Z); (0, 0, (1, 1)%Z)]]);
    ("typeIas", [
        W 2 1 [(1, 0, (1, 2)%Z); (0, 0, (1, 2)%Z)];
        W 1 1 [(0, 0, (1, 1)%Z)];
        W 1 2 [(0, 1, (1, 2)%Z); (0, 0, (1, 2)%Z)]]);
    ("typeIbs", [
        W 2 1 [(1, 0, (1, 1)%Z); (0, 0, (1, 1)%Z)];
        W 1 1 [(0, 0, (1, 1)%Z)];
        W 1 2 [(0, 1, (1, 1)%Z); (0, 0, (1, 1)%Z)]]);
    ("typeIcs", [
        W 2 1 [(1, 0, (1, 1)%Z); (0, 0, (1, 1)%Z)];
        W 1 1 [(0, 0, (1, 1)%Z)];
        W 1 2 [(0, 1, (1, 2)%Z); (0, 0, (1, 2)%Z)]]);
    ("typeIds", [
        W 2 1 [(1, 0, (3, 2)%Z); (0, 0, (3, 2)%Z)];
        W 1 1 [(0, 0, (2, 1)%Z)];
        W 1 2 [(0, 1, (3, 2)%Z); (0, 0, (3, 2)%Z)]]);
    ("typeIIa", [
        W 1 1 [(0, 0, (1, 1)%Z)];
        W 1 2 [(0, 0, (1, 1)%Z)];
        W 2 1 [(0, 0, (1, 1)%Z)]]);
    ("typeIIb", [
        W 1 1 [(0, 0, (1, 1)%Z)];
        W 1 2 [(0, 0, (2, 1)%Z)];
        W 2 1 [(0, 0, (2, 1)%Z)]]);
    ("typeIIc", [
        W 1 1 [(0, 0, (1, 1)%Z)];
        W 1 2 [(0, 0, (1, 1)%Z)];
        W 2 1 [(0, 0, (2, 1)%Z)]]);
    ("typeIId", [
        W 1 1 [(0, 0, (2, 1)%Z)];
        W 1 2 [(0, 0, (3, 1)%Z)];
        W 2 1 [(0, 0, (3, 1)%Z)]]);
    ("typeIIIc", [
        W 1 2 [(0, 0, (1, 1)%Z)];
        W 1 1 [(0, 0, (1, 1)%Z)];
        W 2 1 [(1, 0, (1, 1)%Z); (0, 0, (1, 1)%Z)];
        W 2 2 [(1, 0, (1, 1)%Z); (0, 0, (1, 1)%Z)]]);
    ("typeIVc", [
        W 1 1 [(0, 0, (1, 1)%Z)];
        W 1 2 [(0, 0, (1, 1)%Z)];
        W 1 3 [(0, 0, (1, 1)%Z)];
        W 2 1 [(1, 0, (1, 1)%Z); (0, 0, (1, 1)%Z)];
        W 2 2 [(1, 0, (1, 1)%Z); (0, 0, (1, 1)%Z)];
        W 2 3 [(1, 0, (1, 1)%Z); (0, 0, (1, 1)%Z)];
        W 3 1 [(2, 0, (1, 1)%Z); (1, 0, (1, 1)%Z); (0, 0, (1, 1)%Z)];
        W 3 2 [(2, 0, (1, 1)%Z); (1, 0, (1, 1)%Z); (0, 0, (1, 1)%Z)];
        W 3 3 [(2, 0, (1, 1)%Z); (1, 0, (1, 1)%Z); (0, 0, (1, 1)%Z)]]);
    ("mori2006", [
        W 2 1 [(1, 0, (2, 1)%Z); (0, 0, (1, 1)%Z)];
        W 1 1 [(0, 0, (3, 1)%Z)];
        W 1 2 [(0, 1, (3, 1)%Z); (0, 0, (3, 1)%Z)]]);
    ("rigid", [
        W 1 1 [(0, 0, (1, 1)%Z)]])
  ].

(** Checks on fraction tables. *)
Definition wweight_ok (q : Z * Z) : bool :=
  ((Z.abs (fst q) <=? 2 ^ 31) && (1 <=? snd q) && (snd q <=? 2 ^ 10) && negb (fst q =? - snd q))%Z.
Fixpoint wdown (di dj : nat) (l : list (nat * nat * (Z * Z))) : bool :=
  match l with
  | nil => true
  | (oi, oj, w) :: l' => (oi <=? di) && (oj <=? dj) && wdown oi oj l'
  end.
Definition wvalid (r : wrule) : bool :=
  negb ((w_di r =? 0) && (w_dj r =? 0)) && wdown (w_di r) (w_dj r) (w_add r) &&
  forallb (fun a => wweight_ok (snd a)) (w_add r) &&
  (Z.of_nat (w_di r) <=? INT_MAX)%Z && (Z.of_nat (w_dj r) <=? INT_MAX)%Z.
(** Number of rows of the numeric table. *)
Definition wsize (l : list wrule) : nat := list_sum (map (fun r => 1 + List.length (w_add r)) l).
Definition wnonneg (r : wrule) : bool := forallb (fun a => (0 <=? fst (snd a))%Z) (w_add r).

Section Tables.
Context {N : Num}.

Lemma lookup_cons {A} k k' (v : A) l :
  lookup k ((k', v) :: l) = if String.eqb k k' then Some v else lookup k l.
Proof. reflexivity. Qed.

(** Every predefined pattern is the table of its productions. *)
Lemma predefined_table k (sp : steppat N) : lookup k pattern_table = Some sp ->
  exists l, lookup k predefined = Some l /\ mx sp = table (productions l).
Proof.
  unfold pattern_table, predefined.
  rewrite !lookup_cons.
  repeat (destruct (String.eqb _ _); [intros H; injection H as <-; eexists; split; reflexivity|]).
  intros H. discriminate H.
Qed.
Lemma predefined_object k l : lookup k predefined = Some l ->
  exists sp : steppat N, lookup k pattern_table = Some sp /\ mx sp = table (productions l).
Proof.
  unfold pattern_table, predefined.
  rewrite !lookup_cons.
  repeat (destruct (String.eqb _ _); [intros H; injection H as <-; eexists; split; reflexivity|]).
  intros H. discriminate H.
Qed.

Variable L : NumLaws N.

Lemma weight_not_marker q : wweight_ok q = true -> eqb (@weight N q) (ofZ (-1)) = false.
Proof.
  destruct q as [a k]. unfold wweight_ok, weight. cbn [fst snd]. intros H.
  destruct (Z.eqb_spec k 1).
  - rewrite (law_eq_ofZ _ L) by lia. lia.
  - apply (law_frac_neg1 _ L); lia.
Qed.

Lemma weight_nonneg q : wweight_ok q = true -> (0 <= fst q)%Z -> leb (ofZ 0) (@weight N q) = true.
Proof.
  destruct q as [a k]. unfold wweight_ok, weight. cbn [fst snd]. intros H Hn.
  destruct (Z.eqb_spec k 1).
  - rewrite (law_le_ofZ _ L) by lia. lia.
  - apply (law_frac_nonneg _ L); lia.
Qed.

Lemma weight_fin q : wweight_ok q = true -> isfin (@weight N q) = true.
Proof.
  destruct q as [a k]. unfold wweight_ok, weight. cbn [fst snd]. intros H.
  destruct (Z.eqb_spec k 1).
  - apply (law_fin_ofZ _ L). lia.
  - apply (law_frac_fin _ L); lia.
Qed.

Lemma wdown_ok di dj l : wdown di dj l = true ->
  going_down di dj (map (fun a => (fst a, @weight N (snd a))) l) = true.
Proof.
  revert di dj. induction l as [|[[oi oj] q] l IH]; intros di dj H; [reflexivity|].
  cbn [wdown map fst snd going_down] in *. apply andb_prop in H. destruct H as [H1 H2].
  rewrite H1. cbn [andb]. apply IH. exact H2.
Qed.

Lemma wvalid_ok r : wvalid r = true -> @valid_rule N (production r) = true.
Proof.
  unfold wvalid, valid_rule, production. cbn [r_di r_dj r_add]. intros H.
  apply andb_prop in H. destruct H as [H _]. apply andb_prop in H. destruct H as [H _].
  apply andb_prop in H. destruct H as [H H3]. apply andb_prop in H. destruct H as [H1 H2].
  rewrite H1, wdown_ok by exact H2. cbn [andb].
  apply forallb_forall. intros a Ha. apply in_map_iff in Ha. destruct Ha as [b [<- Hb]]. cbn [snd].
  rewrite forallb_forall in H3. rewrite weight_not_marker by (apply H3; exact Hb). reflexivity.
Qed.

Lemma table_from_length k (rs : list (rule N)) :
  List.length (table_from k rs) = list_sum (map (fun r => 1 + List.length (r_add r)) rs).
Proof.
  revert k. induction rs as [|r rs IH]; intros k; [reflexivity|].
  cbn [table_from map list_sum fold_right]. rewrite app_length, IH. unfold rule_rows. cbn [List.length].
  rewrite map_length. reflexivity.
Qed.
Lemma productions_size l :
  list_sum (map (fun r => 1 + List.length (r_add r)) (@productions N l)) =
  wsize l.
Proof.
  unfold productions, wsize. rewrite map_map. f_equal. apply map_ext. intros r. unfold production.
  cbn [r_add]. rewrite map_length. reflexivity.
Qed.

(** A list of fraction productions that passes the checks denotes a pattern. *)
Definition wgood (l : list wrule) : Prop :=
  l <> nil /\ forallb wvalid l = true /\
  (4 * Z.of_nat (wsize l) <= INT_MAX)%Z.

Lemma wgood_rules l (sp : steppat N) : wgood l -> mx sp = table (productions l) ->
  pattern_rules sp (productions l).
Proof.
  intros [H1 [H2 H3]] E. split; [exact E|]. split.
  { destruct l; [contradiction|discriminate]. }
  rewrite forallb_forall in H2. split.
  { apply forallb_forall. intros r Hr. apply in_map_iff in Hr. destruct Hr as [w [<- Hw]].
    apply wvalid_ok. apply H2. exact Hw. }
  split.
  - unfold table. rewrite table_from_length, productions_size. exact H3.
  - apply Forall_forall. intros r Hr. apply in_map_iff in Hr. destruct Hr as [w [<- Hw]].
    specialize (H2 w Hw). unfold wvalid in H2. cbn [production r_di r_dj]. lia.
Qed.

Lemma predefined_good k l : lookup k predefined = Some l -> wgood l.
Proof.
  assert (G : forallb (fun kl => (negb (Nat.eqb (List.length (snd kl)) 0)) &&
     forallb wvalid (snd kl) &&
     (4 * Z.of_nat (wsize (snd kl)) <=? INT_MAX)%Z)
     predefined = true) by (vm_compute; reflexivity).
  rewrite forallb_forall in G.
  assert (In_lookup : forall (t : list (string * list wrule)), lookup k t = Some l -> In (k, l) t).
  { induction t as [|[k' v] t IH]; [discriminate|]. rewrite lookup_cons.
    destruct (String.eqb_spec k k'); [|right; auto]. intros H. injection H as ->. subst. left. reflexivity. }
  intros H. specialize (G _ (In_lookup _ H)). cbn [snd] in G.
  split; [|split; lia]. destruct l; [discriminate|discriminate].
Qed.

Lemma predefined_rules k (sp : steppat N) : lookup k pattern_table = Some sp ->
  exists l, lookup k predefined = Some l /\ pattern_rules sp (productions l).
Proof.
  intros H. destruct (predefined_table _ _ H) as [l [H1 H2]]. exists l. split; [exact H1|].
  apply wgood_rules; [|exact H2]. eapply predefined_good. exact H1.
Qed.

(** The table determines the rules. *)
End Tables.
