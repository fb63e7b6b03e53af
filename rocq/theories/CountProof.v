(** CountProof.v - countPaths counts admitted production sequences (proofs). *)
From Coq Require Import ZifyBool ZifyNat FinFun.
From Verif Require Import Base Num StepPattern Window Core Backtrack Dtw CountPaths Spec Api Vocab CountSpec
  CoreProof DPProof WalkGeom.
Open Scope string_scope.
Open Scope list_scope.
Open Scope nat_scope.

(** ** Lists *)
Lemma foldM_inv {A S : Type} (P : nat -> S -> Prop) (f : A -> S -> out S) l s :
  P 0 s ->
  (forall t x s, nth_error l t = Some x -> P t s -> exists s', f x s = Ok s' /\ P (Datatypes.S t) s') ->
  exists s', foldM f l s = Ok s' /\ P (List.length l) s'.
Proof.
  revert P s. induction l as [|x l IH]; intros P s H0 Hs.
  - exists s. split; [reflexivity|exact H0].
  - destruct (Hs 0 x s eq_refl H0) as [s1 [E1 P1]].
    destruct (IH (fun t => P (Datatypes.S t)) s1 P1) as [s2 [E2 P2]].
    + intros t y s' Ht HP. apply (Hs (Datatypes.S t) y s' Ht HP).
    + exists s2. split; [cbn [foldM]; rewrite E1; exact E2|exact P2].
Qed.

Lemma NoDup_app_disj {A} (l l' : list A) : NoDup l -> NoDup l' -> (forall x, In x l -> In x l' -> False) -> NoDup (l ++ l').
Proof.
  induction l as [|a l IH]; intros H H' D; [exact H'|]. inversion H; subst. cbn [app]. constructor.
  - rewrite in_app_iff. intros [K|K]; [contradiction|]. exact (D a (or_introl eq_refl) K).
  - apply IH; auto. intros x Hx. apply D. right. exact Hx.
Qed.
Lemma NoDup_flat_map {A B} (f : A -> list B) l : NoDup l -> (forall a, In a l -> NoDup (f a)) ->
  (forall a a' b, In a l -> In a' l -> In b (f a) -> In b (f a') -> a = a') -> NoDup (flat_map f l).
Proof.
  induction l as [|a l IH]; intros H Hf D; [constructor|]. cbn [flat_map]. inversion H; subst.
  apply NoDup_app_disj.
  - apply Hf. left. reflexivity.
  - apply IH; auto.
    + intros b Hb. apply Hf. right. exact Hb.
    + intros b b' c Hb Hb'. apply D; right; assumption.
  - intros x Hx Hx'. apply in_flat_map in Hx'. destruct Hx' as [a' [Ha' Hx']].
    rewrite (D a a' x) in H2; auto; [left; reflexivity|right; exact Ha'].
Qed.

(** ** Enumeration of the sequences *)
Section Enum.
Context {N : Num}.
Variable rules : list (rule N).
Hypothesis Hv : forallb valid_rule rules = true.
Variables n m : nat.
Variables srcb okb : nat -> nat -> bool.

Inductive runs : point -> list nat -> point -> Prop :=
| runs_start : forall i j, srcb i j = true -> i < n -> j < m -> runs (i, j) [] (i, j)
| runs_step : forall s ks i j k r, runs s ks (i, j) -> rule_no rules k = Some r ->
    i + r_di r < n -> j + r_dj r < m -> okb (i + r_di r) (j + r_dj r) = true ->
    srcb (i + r_di r) (j + r_dj r) = false ->
    runs s (ks ++ [k]) (i + r_di r, j + r_dj r).

Definition extend (k : nat) (p : point * list nat) : point * list nat := (fst p, snd p ++ [k]).
Fixpoint enum (f i j : nat) : list (point * list nat) :=
  if srcb i j then [((i, j), [])] else
  if okb i j then
    match f with
    | O => []
    | S f' => flat_map (fun k => match rule_no rules k with
                | Some r => if (r_di r <=? i) && (r_dj r <=? j)
                            then map (extend k) (enum f' (i - r_di r) (j - r_dj r)) else []
                | None => [] end) (seq 1 (List.length rules))
    end
  else [].

Lemma rule_forward k r : rule_no rules k = Some r -> 0 < r_di r + r_dj r.
Proof using Hv.
  intros H. apply rule_no_In in H. rewrite forallb_forall in Hv. specialize (Hv r H).
  unfold valid_rule in Hv. apply andb_prop in Hv. destruct Hv as [A _]. apply andb_prop in A. destruct A as [A _]. clear -A. lia.
Qed.

Lemma runs_range s ks q : runs s ks q -> fst q < n /\ snd q < m.
Proof. destruct 1; cbn [fst snd]; auto. Qed.

Lemma enum_runs f : forall i j s ks, i < n -> j < m -> i + j <= f -> (In (s, ks) (enum f i j) <-> runs s ks (i, j)).
Proof.
  induction f as [|f IH]; intros i j s ks Hi Hj Hf.
  - assert (i = 0) by lia. assert (j = 0) by lia. subst. cbn [enum]. split.
    + destruct (srcb 0 0) eqn:E; [|destruct (okb 0 0); intros []]. intros [K|[]]. injection K as <- <-. constructor; assumption.
    + intros R. inversion R as [i j E Hi' Hj' E1 E2 E3|s' ks' i j k r R' Hk H1 H2 H3 H4 E1 E2 E3]; subst.
      * rewrite E. left. reflexivity.
      * exfalso. apply rule_forward in Hk. lia.
  - cbn [enum]. destruct (srcb i j) eqn:E.
    + split.
      * intros [K|[]]. injection K as <- <-. constructor; assumption.
      * intros R. inversion R as [i1 j1 E0 Hi' Hj' E1 E2 E3|s' ks' i1 j1 k r R' Hk H1 H2 H3 H4 E1 E2 E3]; subst.
        -- left. reflexivity.
        -- congruence.
    + destruct (okb i j) eqn:O.
      * rewrite in_flat_map. split.
        -- intros [k [_ Hk]]. destruct (rule_no rules k) as [r|] eqn:Ek; [|destruct Hk].
           destruct ((r_di r <=? i) && (r_dj r <=? j)) eqn:Eb; [|destruct Hk].
           apply in_map_iff in Hk. destruct Hk as [[s' ks'] [Ee Hin]]. unfold extend in Ee. cbn [fst snd] in Ee. injection Ee as <- <-.
           pose proof (rule_forward _ _ Ek).
           apply IH in Hin; [|lia|lia|lia].
           replace (i, j) with ((i - r_di r) + r_di r, (j - r_dj r) + r_dj r) by (f_equal; lia).
           apply runs_step; auto; try lia.
           ++ replace (i - r_di r + r_di r) with i by lia. replace (j - r_dj r + r_dj r) with j by lia. exact O.
           ++ replace (i - r_di r + r_di r) with i by lia. replace (j - r_dj r + r_dj r) with j by lia. exact E.
        -- intros R. inversion R as [i1 j1 E0 Hi' Hj' E1 E2 E3|s' ks' i1 j1 k r R' Hk H1 H2 H3 H4 E1 E2 E3]; subst; [congruence|].
           exists k. split; [apply rule_no_range in Hk; apply in_seq; lia|]. rewrite Hk.
           replace (r_di r <=? i1 + r_di r) with true by lia. replace (r_dj r <=? j1 + r_dj r) with true by lia. cbn [andb].
           apply in_map_iff. exists (s, ks'). split; [reflexivity|]. pose proof (rule_forward _ _ Hk).
           rewrite !Nat.add_sub. apply IH; [lia|lia|lia|exact R'].
      * split; [intros []|]. intros R.
        inversion R as [i1 j1 E0 Hi' Hj' E1 E2 E3|s' ks' i1 j1 k r R' Hk H1 H2 H3 H4 E1 E2 E3]; subst; congruence.
Qed.

Lemma enum_NoDup f : forall i j, NoDup (enum f i j).
Proof.
  induction f as [|f IH]; intros i j; cbn [enum]; destruct (srcb i j); try (constructor; [intros []|constructor]);
    destruct (okb i j); try constructor.
  apply NoDup_flat_map.
  - apply seq_NoDup.
  - intros k _. destruct (rule_no rules k) as [r|]; [|constructor]. destruct (_ && _); [|constructor].
    apply FinFun.Injective_map_NoDup; [|apply IH].
    intros [s ks] [s' ks'] E. unfold extend in E. cbn [fst snd] in E. injection E as E1 E2.
    apply app_inj_tail in E2. destruct E2 as [-> _]. subst. reflexivity.
  - intros k k' [s ks] _ _ H1 H2.
    assert (G : forall k, In (s, ks) (match rule_no rules k with
                | Some r => if (r_di r <=? i) && (r_dj r <=? j)
                            then map (extend k) (enum f (i - r_di r) (j - r_dj r)) else []
                | None => [] end) -> exists ks0, ks = ks0 ++ [k]).
    { intros k0 H. destruct (rule_no rules k0) as [r|]; [|destruct H]. destruct (_ && _); [|destruct H].
      apply in_map_iff in H. destruct H as [[s0 ks0] [E _]]. unfold extend in E. injection E as _ <-. exists ks0. reflexivity. }
    destruct (G k H1) as [a Ea]. destruct (G k' H2) as [b Eb]. rewrite Ea in Eb. apply app_inj_tail in Eb. apply Eb.
Qed.

Lemma enum_fuel f f' : forall i j, i + j <= f -> i + j <= f' -> enum f i j = enum f' i j.
Proof.
  revert f'. induction f as [|f IH]; intros f' i j Hf Hf'.
  - assert (i = 0) by lia. assert (j = 0) by lia. subst. destruct f' as [|f']; [reflexivity|].
    cbn [enum]. destruct (srcb 0 0); [reflexivity|]. destruct (okb 0 0); [|reflexivity].
    symmetry. assert (G : forall l, (forall k, In k l -> True) -> flat_map (fun k => match rule_no rules k with
                | Some r => if (r_di r <=? 0) && (r_dj r <=? 0)
                            then map (extend k) (enum f' (0 - r_di r) (0 - r_dj r)) else []
                | None => [] end) l = []).
    { induction l as [|k l IHl]; intros _; [reflexivity|]. cbn [flat_map]. rewrite IHl by auto. rewrite app_nil_r.
      destruct (rule_no rules k) as [r|] eqn:Ek; [|reflexivity]. pose proof (rule_forward _ _ Ek).
      destruct ((r_di r <=? 0) && (r_dj r <=? 0)) eqn:E; [lia|reflexivity]. }
    apply G. auto.
  - destruct f' as [|f'].
    + assert (i = 0) by lia. assert (j = 0) by lia. subst.
      cbn [enum]. destruct (srcb 0 0); [reflexivity|]. destruct (okb 0 0); [|reflexivity].
      induction (seq 1 (List.length rules)) as [|k l IHl]; [reflexivity|]. cbn [flat_map]. rewrite IHl. rewrite app_nil_r.
      destruct (rule_no rules k) as [r|] eqn:Ek; [|reflexivity]. pose proof (rule_forward _ _ Ek).
      destruct ((r_di r <=? 0) && (r_dj r <=? 0)) eqn:E; [lia|reflexivity].
    + cbn [enum]. destruct (srcb i j); [reflexivity|]. destruct (okb i j); [|reflexivity].
      apply flat_map_ext. intros k. destruct (rule_no rules k) as [r|] eqn:Ek; [|reflexivity]. pose proof (rule_forward _ _ Ek).
      destruct ((r_di r <=? i) && (r_dj r <=? j)) eqn:E; [|reflexivity]. f_equal. apply IH; lia.
Qed.

Definition cnt (i j : nat) : nat := List.length (enum (i + j) i j).
(** contribution of production r to the count at (i,j) *)
Definition term (i j : nat) (r : rule N) : nat :=
  if (r_di r <=? i) && (r_dj r <=? j) then cnt (i - r_di r) (j - r_dj r) else 0.

Lemma cnt_src i j : srcb i j = true -> cnt i j = 1.
Proof. intros E. unfold cnt. destruct (i + j); cbn [enum]; rewrite E; reflexivity. Qed.
Lemma cnt_out i j : srcb i j = false -> okb i j = false -> cnt i j = 0.
Proof. intros E O. unfold cnt. destruct (i + j); cbn [enum]; rewrite E, O; reflexivity. Qed.
Lemma flat_map_rules {B} (g : rule N -> nat -> list B) (rs : list (rule N)) k0 :
  (forall t, nth_error rs t = rule_no rules (k0 + t)) ->
  List.length (flat_map (fun k => match rule_no rules k with Some r => g r k | None => [] end) (seq k0 (List.length rs))) =
  list_sum (map (fun rk => List.length (g (fst rk) (snd rk))) (combine rs (seq k0 (List.length rs)))).
Proof.
  revert k0. induction rs as [|r rs IH]; intros k0 H; [reflexivity|].
  cbn [List.length seq flat_map combine map list_sum fst snd]. rewrite app_length.
  pose proof (H 0) as H0. cbn [nth_error] in H0. rewrite Nat.add_0_r in H0. rewrite <- H0. cbn [fold_right].
  unfold list_sum. cbn [fold_right]. f_equal. apply IH. intros t. pose proof (H (S t)) as HS. cbn [nth_error] in HS. rewrite HS. f_equal. lia.
Qed.
Lemma cnt_step i j : srcb i j = false -> okb i j = true -> cnt i j = list_sum (map (term i j) rules).
Proof.
  intros E O. unfold cnt at 1.
  assert (F : List.length (enum (S (i + j)) i j) = list_sum (map (term i j) rules)).
  { cbn [enum]. rewrite E, O.
    rewrite (flat_map_rules (fun r k => if (r_di r <=? i) && (r_dj r <=? j)
        then map (extend k) (enum (i + j) (i - r_di r) (j - r_dj r)) else []) rules 1) by (intros t; reflexivity).
    assert (G : forall (rs : list (rule N)) k0, (forall r, In r rs -> 0 < r_di r + r_dj r) ->
      list_sum (map (fun rk : rule N * nat => List.length (if (r_di (fst rk) <=? i) && (r_dj (fst rk) <=? j)
        then map (extend (snd rk)) (enum (i + j) (i - r_di (fst rk)) (j - r_dj (fst rk))) else []))
        (combine rs (seq k0 (List.length rs)))) = list_sum (map (term i j) rs)).
    { induction rs as [|r rs IH]; intros k0 Hr; [reflexivity|]. cbn [List.length seq combine map]. unfold list_sum in *. cbn [fold_right].
      rewrite IH by (intros; apply Hr; right; assumption). f_equal. unfold term. cbn [fst snd].
      specialize (Hr r (or_introl eq_refl)).
      destruct ((r_di r <=? i) && (r_dj r <=? j)) eqn:Eb; [|reflexivity]. rewrite map_length. unfold cnt.
      f_equal. apply enum_fuel; lia. }
    apply G. intros r Hr. destruct (In_rule_no _ _ Hr) as [k Hk]. exact (rule_forward _ _ Hk). }
  rewrite <- F. f_equal. apply enum_fuel; lia.
Qed.

Lemma cnt_numbers i j : i < n -> j < m -> numbers (fun p => runs (fst p) (snd p) (i, j)) (cnt i j).
Proof.
  intros Hi Hj. exists (enum (i + j) i j). split; [apply enum_NoDup|]. split; [|reflexivity].
  intros [s ks]. cbn [fst snd]. apply enum_runs; lia.
Qed.
End Enum.

(** ** The matrix of counts *)
Section Matrix.
Context {N : Num}.
Variable L : NumLaws N.
Variable rules : list (rule N).
Variable sp : steppat N.
Hypothesis PR : pattern_rules sp rules.
Hypothesis NM : no_marker rules.
Variables n m : nat.
Hypothesis Hn : 0 < n.
Hypothesis Hm : 0 < m.
Variable ob : bool.
Variables (w : winfun N) (kw : kwargs N).
Hypothesis Hw : window_callable w kw n m.

Definition srcb (i j : nat) : bool := (i =? 0) && (ob || (j =? 0)).
Definition okb (i j : nat) : bool :=
  match call_window w (Z.of_nat i) (Z.of_nat j) (Z.of_nat n) (Z.of_nat m) kw with Ok b => b | _ => false end.
Notation cnt := (cnt rules srcb okb).
Hypothesis Hb : forall i j, i < n -> j < m -> (Z.of_nat (cnt i j) <= 2 ^ 53)%Z.

Lemma valid_rules : forallb valid_rule rules = true.
Proof. apply PR. Qed.

Lemma deltas_rules : mkDirDeltas sp = map (fun r => (Z.of_nat (r_di r), Z.of_nat (r_dj r))) rules.
Proof.
  destruct PR as [Hmx [_ [_ [_ Hf]]]]. unfold mkDirDeltas. rewrite Hmx. unfold table. clear Hmx PR Hb.
  assert (Big : (2 ^ 53 = 9007199254740992)%Z) by reflexivity.
  assert (I : forall z, (0 <= z <= INT_MAX)%Z -> np_int32 (@ofZ N z) = z).
  { intros z Hz. unfold INT_MAX in Hz. unfold np_int32. rewrite (law_trunc_ofZ _ L) by lia. unfold in_i32, INT_MIN, INT_MAX.
    destruct ((-2147483648 <=? z)%Z && (z <=? 2147483647)%Z) eqn:E; [reflexivity|lia]. }
  assert (M1 : np_int32 (@ofZ N (-1)) = (-1)%Z).
  { unfold np_int32. rewrite (law_trunc_ofZ _ L) by lia. reflexivity. }
  generalize 1 as k. induction rules as [|r rs IH]; intros k; [reflexivity|].
  inversion Hf as [|r' rs' [Hr1 Hr2] Hrs]; subst.
  cbn [table_from]. rewrite filter_app, map_app, IH.
  - unfold rule_rows. cbn [filter c3]. rewrite M1, Z.eqb_refl. cbn [map c1 c2].
    assert (E : filter (fun r0 : row N => (np_int32 (c3 r0) =? -1)%Z)
       (map (fun a => Row (ofN k) (ofN (fst (fst a))) (ofN (snd (fst a))) (snd a)) (r_add r)) = []).
    { assert (G : forall a, In a (r_add r) -> np_int32 (snd a) <> (-1)%Z) by (intros a Ha; apply (NM r a); [left; reflexivity|exact Ha]).
      induction (r_add r) as [|a l IHl]; [reflexivity|]. cbn [map filter c3].
      destruct (Z.eqb_spec (np_int32 (snd a)) (-1)) as [E|E]; [exfalso; exact (G a (or_introl eq_refl) E)|].
      apply IHl. intros b Hb. apply G. right. exact Hb. }
    rewrite E. cbn [map app]. unfold ofN. rewrite !I by lia. reflexivity.
  - intros r0 a Hr0. apply NM. right. exact Hr0.
  - exact Hrs.
Qed.

Lemma py_get2_nat (g : mat N) i j v : i < nr g -> j < nc g -> nth_error (dat g) (i * nc g + j) = Some v ->
  py_get2 g (Z.of_nat i) (Z.of_nat j) = Ok v.
Proof using.
  clear PR NM Hn Hm Hw Hb. intros Hi Hj E. unfold py_get2, py_index.
  destruct ((0 <=? Z.of_nat i)%Z && (Z.of_nat i <? Z.of_nat (nr g))%Z) eqn:E1; [|lia]. cbn [bind].
  destruct ((0 <=? Z.of_nat j)%Z && (Z.of_nat j <? Z.of_nat (nc g))%Z) eqn:E2; [|lia]. cbn [bind].
  rewrite !Nat2Z.id. unfold mget. destruct ((i <? nr g) && (j <? nc g)) eqn:E3; [|lia]. rewrite E. reflexivity.
Qed.

(** after the first [t] cells *)
Definition inv (t : nat) (g : mat N) : Prop :=
  nr g = n /\ nc g = m /\ List.length (dat g) = n * m /\
  forall i j, i < n -> j < m ->
    nth_error (dat g) (i * m + j) =
    Some (if srcb i j || (i * m + j <? t) then ofZ (Z.of_nat (cnt i j)) else nan).

Lemma list_sum_app' l l' : list_sum (l ++ l') = list_sum l + list_sum l'.
Proof. apply list_sum_app. Qed.

Lemma cell_lt i j i' j' : j' < m -> i' <= i -> j' <= j -> i' + j' < i + j -> i' * m + j' < i * m + j.
Proof. intros. assert (i' * m <= i * m) by (apply Nat.mul_le_mono_r; lia). destruct (Nat.eq_dec i' i); [subst; lia|].
  assert ((i' + 1) * m <= i * m) by (apply Nat.mul_le_mono_r; lia). lia. Qed.

Lemma sum_loop g ii jj : inv (ii * m + jj) g -> ii < n -> jj < m -> srcb ii jj = false -> okb ii jj = true ->
  loop 0 (List.length rules) (count_cell g (mkDirDeltas sp) ii jj) (ofZ 0) = Ok (ofZ (Z.of_nat (cnt ii jj))).
Proof.
  intros [G1 [G2 [G3 G4]]] Hi Hj Hs Ho.
  pose proof (cnt_step rules valid_rules srcb okb ii jj Hs Ho) as EC.
  pose proof (Hb ii jj Hi Hj) as HB.
  set (tm := term rules srcb okb ii jj) in *.
  destruct (loop_inv (fun k v => v = ofZ (Z.of_nat (list_sum (map tm (firstn k rules)))))
     (count_cell g (mkDirDeltas sp) ii jj) 0 (List.length rules) (ofZ 0)) as [v [E1 E2]].
  - reflexivity.
  - intros k v Hk ->. cbn [Z.add].
    destruct (nth_error rules k) as [r|] eqn:Er; [|apply nth_error_None in Er; lia].
    assert (FS : firstn (S k) rules = firstn k rules ++ [r]).
    { clear -Er. revert k Er. induction rules as [|a l IH]; intros [|k] E; try discriminate.
      - injection E as ->. reflexivity.
      - cbn [firstn app]. f_equal. apply IH. exact E. }
    assert (SP : list_sum (map tm (firstn (S k) rules)) = list_sum (map tm (firstn k rules)) + tm r).
    { rewrite FS, map_app, list_sum_app'. cbn [map]. unfold list_sum at 2. cbn [fold_right]. lia. }
    assert (LE : list_sum (map tm (firstn (S k) rules)) <= cnt ii jj).
    { rewrite EC. rewrite <- (firstn_skipn (S k) rules) at 2. rewrite map_app, list_sum_app'. lia. }
    exists (ofZ (Z.of_nat (list_sum (map tm (firstn (S k) rules))))). split; [|reflexivity].
    unfold count_cell. rewrite Nat2Z.id, deltas_rules, nth_error_map, Er. cbn [option_map bind fst snd].
    rewrite SP in *. assert (Et : tm r = if (r_di r <=? ii) && (r_dj r <=? jj) then cnt (ii - r_di r) (jj - r_dj r) else 0) by reflexivity.
    rewrite Et in *. generalize dependent (list_sum (map tm (firstn k rules))). intros S0 SP LE. clear SP Et EC.
    pose proof (rule_forward rules valid_rules (S k) r Er) as Fw.
    destruct ((r_di r <=? ii) && (r_dj r <=? jj)) eqn:Eb.
    + destruct ((0 <=? Z.of_nat ii - Z.of_nat (r_di r))%Z && (0 <=? Z.of_nat jj - Z.of_nat (r_dj r))%Z) eqn:Ez; [|lia].
      replace (Z.of_nat ii - Z.of_nat (r_di r))%Z with (Z.of_nat (ii - r_di r)) by lia.
      replace (Z.of_nat jj - Z.of_nat (r_dj r))%Z with (Z.of_nat (jj - r_dj r)) by lia.
      rewrite (py_get2_nat g (ii - r_di r) (jj - r_dj r) (ofZ (Z.of_nat (cnt (ii - r_di r) (jj - r_dj r))))).
      * cbn [bind]. rewrite (law_add_ofZ _ L) by lia. f_equal. f_equal. lia.
      * lia.
      * lia.
      * rewrite G2, G4 by lia. f_equal.
        replace ((ii - r_di r) * m + (jj - r_dj r) <? ii * m + jj) with true; [rewrite orb_true_r; reflexivity|].
        symmetry. apply Nat.ltb_lt. apply cell_lt; lia.
    + destruct ((0 <=? Z.of_nat ii - Z.of_nat (r_di r))%Z && (0 <=? Z.of_nat jj - Z.of_nat (r_dj r))%Z) eqn:Ez; [lia|].
      f_equal. f_equal. lia.
  - rewrite E1, E2, firstn_all, <- EC. reflexivity.
Qed.

Lemma indices_inv t i j : nth_error (indices n m) t = Some (i, j) -> i < n /\ j < m /\ t = i * m + j.
Proof.
  intros E. assert (Ht : t < n * m).
  { rewrite <- (indices_length n m). apply nth_error_Some. rewrite E. discriminate. }
  pose proof (Nat.div_mod t m ltac:(lia)) as D. pose proof (Nat.mod_upper_bound t m ltac:(lia)) as U.
  assert (Q : t / m < n) by (apply Nat.div_lt_upper_bound; lia).
  pose proof (indices_nth n m (t / m) (t mod m) Q U) as I.
  replace (t / m * m + t mod m) with t in I by lia. rewrite I in E. injection E as <- <-. lia.
Qed.

Lemma visit_ok t ij g : nth_error (indices n m) t = Some ij -> inv t g ->
  exists g', count_visit w kw (Z.of_nat (List.length rules)) (mkDirDeltas sp) ij g = Ok g' /\ inv (S t) g'.
Proof.
  destruct ij as [ii jj]. intros E HI. destruct (indices_inv _ _ _ E) as [Hi [Hj ->]].
  pose proof HI as [G1 [G2 [G3 G4]]].
  assert (HC : inv (S (ii * m + jj)) (Mat (nr g) (nc g) (upd (dat g) (ii * nc g + jj) (ofZ (Z.of_nat (cnt ii jj)))))).
  { unfold inv. cbn [nr nc dat]. split; [exact G1|]. split; [exact G2|]. split; [rewrite upd_length; exact G3|].
    intros i j Hi' Hj'. rewrite nth_error_upd, G2. rewrite G4 by assumption.
    destruct (Nat.eqb_spec (i * m + j) (ii * m + jj)) as [Eq|Ne].
    - assert (i = ii /\ j = jj) as [-> ->].
      { assert (i = ii); [|subst; lia]. destruct (Nat.lt_trichotomy i ii) as [Hlt|[->|Hlt]]; [|reflexivity|].
        - assert ((i + 1) * m <= ii * m) by (apply Nat.mul_le_mono_r; lia). lia.
        - assert ((ii + 1) * m <= i * m) by (apply Nat.mul_le_mono_r; lia). lia. }
      assert (ii * m + jj < n * m) by (apply Nat.lt_le_trans with ((ii + 1) * m); [lia|apply Nat.mul_le_mono_r; lia]).
      replace (ii * m + jj <? List.length (dat g)) with true by lia.
      replace (ii * m + jj <? S (ii * m + jj)) with true by lia. rewrite orb_true_r. reflexivity.
    - f_equal. f_equal. f_equal. destruct (Nat.ltb_spec (i * m + j) (ii * m + jj)), (Nat.ltb_spec (i * m + j) (S (ii * m + jj))); lia || reflexivity. }
  unfold count_visit.
  rewrite (py_get2_nat g ii jj (if srcb ii jj then ofZ (Z.of_nat (cnt ii jj)) else nan)); [|lia|lia|].
  2:{ rewrite G2, G4 by assumption. replace (ii * m + jj <? ii * m + jj) with false by lia. rewrite orb_false_r. reflexivity. }
  cbn [bind]. destruct (srcb ii jj) eqn:Es.
  - rewrite (law_fin_ofZ _ L) by (pose proof (Hb ii jj Hi Hj); lia). exists g. split; [reflexivity|].
    split; [exact G1|]. split; [exact G2|]. split; [exact G3|]. intros i j Hi' Hj'. rewrite G4 by assumption.
    f_equal. destruct (srcb i j) eqn:Es'; [reflexivity|]. cbn [orb].
    destruct (Nat.ltb_spec (i * m + j) (ii * m + jj)), (Nat.ltb_spec (i * m + j) (S (ii * m + jj))); try reflexivity; try lia.
    assert (Eq : i * m + j = ii * m + jj) by lia. exfalso.
    assert (i = ii /\ j = jj) as [-> ->]; [|congruence].
    assert (i = ii); [|subst; lia]. destruct (Nat.lt_trichotomy i ii) as [Hlt|[->|Hlt]]; [|reflexivity|].
    + assert ((i + 1) * m <= ii * m) by (apply Nat.mul_le_mono_r; lia). lia.
    + assert ((ii + 1) * m <= i * m) by (apply Nat.mul_le_mono_r; lia). lia.
  - assert (Fn : isfin (@nan N) = false).
    { destruct (isfin (@nan N)) eqn:F; [|reflexivity]. apply (law_fin_not_nan _ L) in F. rewrite (law_nan _ L) in F. discriminate. }
    rewrite Fn, G1, G2. destruct (Hw ii jj Hi Hj) as [b Eb]. rewrite Eb. cbn [bind].
    assert (Ob : okb ii jj = b) by (unfold okb; rewrite Eb; reflexivity).
    destruct b; cbn [negb].
    + rewrite Nat2Z.id, (sum_loop g ii jj HI Hi Hj Es Ob). cbn [bind]. rewrite G1, G2 in HC. eexists. split; [reflexivity|exact HC].
    + rewrite (cnt_out rules srcb okb ii jj Es Ob) in HC. rewrite G1, G2 in HC. eexists. split; [reflexivity|exact HC].
Qed.

Lemma count_matrix : exists g, countMatrix n m ob sp w kw = Ok g /\ nr g = n /\ nc g = m /\
  List.length (dat g) = n * m /\
  forall i j, i < n -> j < m -> nth_error (dat g) (i * m + j) = Some (ofZ (Z.of_nat (cnt i j))).
Proof.
  unfold countMatrix. replace (n =? 0) with false by lia. replace (m =? 0) with false by lia. rewrite andb_false_r. cbn [orb].
  rewrite (n_patterns_rules L sp rules PR). cbn [bind].
  set (m0 := if ob then _ else _).
  assert (I0 : inv 0 m0).
  { unfold inv, m0. destruct ob eqn:Eo; cbn [nr nc dat].
    - split; [reflexivity|]. split; [reflexivity|]. split.
      + rewrite app_length, !repeat_length. destruct n; [lia|]. cbn [Nat.sub Nat.mul]. rewrite Nat.sub_0_r. lia.
      + intros i j Hi Hj. unfold srcb. rewrite Eo. cbn [orb]. rewrite andb_true_r.
        replace (i * m + j <? 0) with false by lia. rewrite orb_false_r.
        destruct (Nat.eqb_spec i 0) as [->|Ne].
        * rewrite nth_error_app1 by (rewrite repeat_length; lia). rewrite nth_error_repeat by lia.
          rewrite cnt_src; [reflexivity|]. unfold srcb. rewrite ?Eo. reflexivity.
        * assert (1 * m <= i * m) by (apply Nat.mul_le_mono_r; lia).
          assert ((i + 1) * m <= n * m) by (apply Nat.mul_le_mono_r; lia).
          rewrite nth_error_app2 by (rewrite repeat_length; lia). rewrite repeat_length.
          apply nth_error_repeat. rewrite Nat.mul_sub_distr_r. lia.
    - split; [reflexivity|]. split; [reflexivity|]. rewrite upd_length, repeat_length. split; [reflexivity|].
      intros i j Hi Hj. rewrite nth_error_upd, repeat_length.
      assert (L0 : 0 < n * m) by (apply Nat.mul_pos_pos; assumption).
      assert ((i + 1) * m <= n * m) by (apply Nat.mul_le_mono_r; lia).
      replace (i * m + j <? 0) with false by lia. rewrite orb_false_r. unfold srcb at 1. rewrite Eo. cbn [orb].
      replace (0 <? n * m) with true by lia.
      destruct (Nat.eqb_spec (i * m + j) 0) as [E|E].
      + assert (j = 0) by lia. assert (i = 0) by (destruct i; [reflexivity|cbn in E; lia]). subst.
        cbn [Nat.eqb andb]. rewrite cnt_src; [reflexivity|]. unfold srcb. rewrite ?Eo. reflexivity.
      + rewrite nth_error_repeat by lia.
        destruct ((i =? 0) && (j =? 0)) eqn:E2; [|reflexivity]. exfalso.
        assert (i = 0) by lia. assert (j = 0) by lia. subst. cbn in E. lia. }
  destruct (foldM_inv inv (count_visit w kw (Z.of_nat (List.length rules)) (mkDirDeltas sp)) (indices n m) m0 I0) as [g [E [G1 [G2 [G3 G4]]]]].
  { intros t x g Ht HI. apply visit_ok; assumption. }
  exists g. split; [exact E|]. split; [exact G1|]. split; [exact G2|]. split; [exact G3|].
  intros i j Hi Hj. rewrite G4 by assumption. rewrite indices_length.
  replace (i * m + j <? n * m) with true; [rewrite orb_true_r; reflexivity|]. symmetry. apply Nat.ltb_lt.
  assert ((i + 1) * m <= n * m) by (apply Nat.mul_le_mono_r; lia). lia.
Qed.
End Matrix.
