(** CoreProof.v - the native core computes the solution of the Bellman equation.
    (Loop invariants over the flat arrays of Core.v.) *)
From Coq Require Import ZifyBool ZifyNat.
From Verif Require Import Base Num StepPattern Window Core Spec.
Open Scope list_scope.
Open Scope Z_scope.

(** ** Lists and checked memory *)

Lemma upd_length {A} (l : list A) i v : List.length (upd l i v) = List.length l.
Proof. revert i; induction l as [|x xs IH]; intros [|i]; simpl; auto. Qed.

Lemma nth_error_upd {A} (l : list A) i v j :
  nth_error (upd l i v) j =
  if Nat.eqb j i then (if Nat.ltb i (List.length l) then Some v else None) else nth_error l j.
Proof.
  revert i j; induction l as [|x xs IH]; intros i j.
  - simpl. destruct j, i; try reflexivity. simpl. destruct (Nat.eqb j i); reflexivity.
  - destruct i, j; try reflexivity. cbn [upd nth_error List.length]. rewrite IH.
    change (Nat.eqb (S j) (S i)) with (Nat.eqb j i).
    change (Nat.ltb (S i) (S (List.length xs))) with (Nat.ltb i (List.length xs)). reflexivity.
Qed.

Lemma rd_nat {A} (l : list A) (k : nat) v : nth_error l k = Some v -> rd l (Z.of_nat k) = Ok v.
Proof.
  intros H. unfold rd. destruct (Z.ltb_spec (Z.of_nat k) 0); [lia|].
  rewrite Nat2Z.id, H. reflexivity.
Qed.

Lemma wr_nat {A} (l : list A) (k : nat) v : (k < List.length l)%nat ->
  wr l (Z.of_nat k) v = Ok (upd l k v).
Proof.
  intros H. unfold wr.
  destruct (Z.ltb_spec (Z.of_nat k) 0); [lia|].
  destruct (Z.leb_spec (Z.of_nat (List.length l)) (Z.of_nat k)); [lia|].
  simpl. rewrite Nat2Z.id. reflexivity.
Qed.

Lemma i32_ok z : INT_MIN <= z <= INT_MAX -> i32 z = Ok z.
Proof. intros H. unfold i32, in_i32. destruct (_ && _) eqn:E; [reflexivity|]. lia. Qed.

Lemma loop_inv {S : Type} (P : nat -> S -> Prop) f start count s :
  P 0%nat s ->
  (forall k s, (k < count)%nat -> P k s ->
     exists s', f (start + Z.of_nat k) s = Ok s' /\ P (Datatypes.S k) s') ->
  exists s', loop start count f s = Ok s' /\ P count s'.
Proof.
  revert P start s. induction count as [|c IH]; intros P start s H0 Hs.
  - exists s. split; [reflexivity | exact H0].
  - destruct (Hs 0%nat s ltac:(lia) H0) as [s1 [E1 P1]].
    destruct (IH (fun k => P (Datatypes.S k)) (start + 1) s1 P1) as [s2 [E2 P2]].
    + intros k s' Hk HP. destruct (Hs (Datatypes.S k) s' ltac:(lia) HP) as [s3 [E3 P3]].
      exists s3. split; [|exact P3]. rewrite <- E3. f_equal. lia.
    + exists s2. split; [|exact P2]. cbn [loop].
      replace (start + Z.of_nat 0) with start in E1 by lia.
      rewrite E1. exact E2.
Qed.

Lemma foldM_app {A S : Type} (f : A -> S -> out S) l1 l2 s :
  foldM f (l1 ++ l2) s = bind (foldM f l1 s) (fun s' => foldM f l2 s').
Proof.
  revert s. induction l1 as [|x xs IH]; intros s; [reflexivity|]. simpl.
  destruct (f x s); simpl; auto.
Qed.

Lemma mapM_length {A B} (f : A -> out B) l r : mapM f l = Ok r -> List.length r = List.length l.
Proof.
  revert r. induction l as [|x xs IH]; simpl; intros r H.
  - inversion H. reflexivity.
  - destruct (f x); simpl in H; try discriminate.
    destruct (mapM f xs); simpl in H; try discriminate.
    inversion H. simpl. f_equal. apply IH. reflexivity.
Qed.

Lemma mapM_nth {A B} (f : A -> out B) l r k x : mapM f l = Ok r -> nth_error l k = Some x ->
  exists y, nth_error r k = Some y /\ f x = Ok y.
Proof.
  revert r k. induction l as [|a xs IH]; simpl; intros r k H Hk.
  - destruct k; discriminate.
  - destruct (f a) eqn:Ea; simpl in H; try discriminate.
    destruct (mapM f xs) eqn:Ex; simpl in H; try discriminate.
    inversion H; subst. destruct k; simpl in *.
    + inversion Hk; subst. eauto.
    + eapply IH; eauto.
Qed.

Lemma repeat_nth {A} (v : A) n k : (k < n)%nat -> nth_error (repeat v n) k = Some v.
Proof. revert k; induction n; intros [|k] H; simpl; try lia; auto. apply IHn. lia. Qed.

Lemma flat_map_nth {A} (n m : nat) (g : nat -> nat -> A) s i j :
  (i < n)%nat -> (j < m)%nat ->
  nth_error (flat_map (fun i => map (g i) (seq 0 m)) (seq s n)) (i * m + j) = Some (g (s + i)%nat j).
Proof.
  revert s i. induction n as [|n IH]; intros s i Hi Hj; [lia|]. simpl.
  destruct i as [|i].
  - rewrite nth_error_app1 by (rewrite map_length, seq_length; lia).
    rewrite nth_error_map. replace (0 * m + j)%nat with j by lia.
    rewrite (nth_error_nth' _ 0%nat) by (rewrite seq_length; lia).
    rewrite seq_nth by lia. simpl. do 2 f_equal. lia.
  - rewrite nth_error_app2 by (rewrite map_length, seq_length; lia).
    rewrite map_length, seq_length.
    replace (S i * m + j - m)%nat with (i * m + j)%nat by lia.
    rewrite IH by lia. do 2 f_equal. lia.
Qed.

Lemma indices_nth n m i j : (i < n)%nat -> (j < m)%nat ->
  nth_error (indices n m) (i * m + j) = Some (i, j).
Proof. intros Hi Hj. unfold indices. exact (flat_map_nth n m pair 0 i j Hi Hj). Qed.

Lemma indices_length n m : List.length (indices n m) = (n * m)%nat.
Proof.
  unfold indices. generalize 0%nat at 2 as s. induction n as [|n IH]; intros s; [reflexivity|].
  simpl. rewrite app_length, map_length, seq_length, IH. reflexivity.
Qed.

Lemma Forall2_len {A B} (R : A -> B -> Prop) l l' : Forall2 R l l' -> List.length l = List.length l'.
Proof. induction 1; simpl; congruence. Qed.

Lemma flat_lt n m i j : (i < n)%nat -> (j < m)%nat -> (i * m + j < n * m)%nat.
Proof. nia. Qed.

Lemma EM_ok n m (a b : nat) : Z.of_nat n * Z.of_nat m <= INT_MAX -> (a < n)%nat -> (b < m)%nat ->
  EM (Z.of_nat m) (Z.of_nat b) (Z.of_nat a) = Ok (Z.of_nat (a * m + b)).
Proof.
  intros size_ok Ha Hb. unfold EM. pose proof (flat_lt n m a b Ha Hb).
  rewrite i32_ok; [f_equal; lia|]. unfold INT_MIN, INT_MAX in *. nia.
Qed.

Section Core.
Context {N : Num}.

(** ** Copying the table *)

Definition row_crow (nsteps : Z) (r : row N) (c : crow N) : Prop :=
  c_int (c0 r) = Ok (pn c + 1) /\ c_int (c2 r) = Ok (di c) /\ c_int (c1 r) = Ok (dj c) /\
  c3 r = sc c /\ 0 <= pn c < nsteps.

Lemma get_p_nth (s : steppat N) i :
  (i < List.length (mx s))%nat ->
  nth_error (get_p s) i = nth_error (map c0 (mx s)) i /\
  nth_error (get_p s) (List.length (mx s) + i) = nth_error (map c2 (mx s)) i /\
  nth_error (get_p s) (2 * List.length (mx s) + i) = nth_error (map c1 (mx s)) i /\
  nth_error (get_p s) (3 * List.length (mx s) + i) = nth_error (map c3 (mx s)) i.
Proof.
  intros H. unfold get_p.
  repeat split.
  - rewrite nth_error_app1 by (rewrite map_length; lia). reflexivity.
  - rewrite nth_error_app2 by (rewrite map_length; lia). rewrite map_length.
    rewrite nth_error_app1 by (rewrite map_length; lia). f_equal. lia.
  - rewrite nth_error_app2 by (rewrite map_length; lia). rewrite map_length.
    rewrite nth_error_app2 by (rewrite map_length; lia). rewrite map_length.
    rewrite nth_error_app1 by (rewrite map_length; lia). f_equal. lia.
  - rewrite nth_error_app2 by (rewrite map_length; lia). rewrite map_length.
    rewrite nth_error_app2 by (rewrite map_length; lia). rewrite map_length.
    rewrite nth_error_app2 by (rewrite map_length; lia). rewrite map_length. f_equal. lia.
Qed.

Lemma copy_row_ok (s : steppat N) i r c :
  let ns := Z.of_nat (List.length (mx s)) in
  4 * ns <= INT_MAX ->
  nth_error (mx s) i = Some r -> row_crow ns r c ->
  copy_row (get_p s) ns (Z.of_nat i) = Ok c.
Proof.
  intros ns Hns Hr [H0 [H1 [H2 [H3 H4]]]].
  assert (Hi : (i < List.length (mx s))%nat) by (apply nth_error_Some; congruence).
  destruct (get_p_nth s i Hi) as [G0 [G1 [G2 G3]]].
  rewrite nth_error_map, Hr in G0, G1, G2, G3. cbn [option_map] in G0, G1, G2, G3.
  unfold copy_row, EP.
  unfold INT_MAX in *.
  assert (K : forall k, 0 <= k <= 3 -> i32 (k * ns + Z.of_nat i) = Ok (k * ns + Z.of_nat i)).
  { intros k Hk. apply i32_ok. unfold INT_MIN, INT_MAX. subst ns. nia. }
  rewrite !K by lia. cbn [bind].
  replace (0 * ns + Z.of_nat i) with (Z.of_nat i) by lia.
  rewrite (rd_nat _ _ _ G0). cbn [bind]. rewrite H0. cbn [bind].
  replace (pn c + 1 - 1) with (pn c) by lia.
  rewrite (i32_ok (pn c)) by (unfold INT_MIN, INT_MAX; lia). cbn [bind].
  replace (1 * ns + Z.of_nat i) with (Z.of_nat (List.length (mx s) + i)) by lia.
  rewrite (rd_nat _ _ _ G1). cbn [bind]. rewrite H1. cbn [bind].
  replace (2 * ns + Z.of_nat i) with (Z.of_nat (2 * List.length (mx s) + i)) by lia.
  rewrite (rd_nat _ _ _ G2). cbn [bind]. rewrite H2. cbn [bind].
  replace (3 * ns + Z.of_nat i) with (Z.of_nat (3 * List.length (mx s) + i)) by lia.
  rewrite (rd_nat _ _ _ G3). cbn [bind].
  destruct (_ || _) eqn:E; [lia|]. rewrite H3. destruct c; reflexivity.
Qed.

Lemma copy_rows_ok (s : steppat N) cs :
  let ns := Z.of_nat (List.length (mx s)) in
  4 * ns <= INT_MAX ->
  Forall2 (row_crow ns) (mx s) cs ->
  copy_rows (get_p s) ns = Ok cs.
Proof.
  intros ns Hns HF. unfold copy_rows.
  set (f := fun i acc => _).
  destruct (loop_inv (fun k acc => acc = firstn k cs) f 0 (Z.to_nat ns) nil) as [s' [E ->]].
  - reflexivity.
  - intros k acc Hk ->. subst ns. rewrite Nat2Z.id in Hk.
    assert (Hlen := Forall2_len _ _ _ HF).
    destruct (nth_error (mx s) k) as [r|] eqn:Er; [|apply nth_error_None in Er; lia].
    destruct (nth_error cs k) as [c|] eqn:Ec; [|apply nth_error_None in Ec; lia].
    assert (HR : row_crow (Z.of_nat (List.length (mx s))) r c).
    { clear - HF Er Ec. revert HF. generalize (Z.of_nat (List.length (mx s))) as z. revert cs k Er Ec.
      induction (mx s) as [|a l IH]; intros cs k Er Ec z HF; destruct k; try discriminate;
        inversion HF; subst; simpl in *.
      - inversion Er; inversion Ec; subst. assumption.
      - eapply IH; eauto. }
    exists (firstn (S k) cs). split; [|reflexivity].
    unfold f. replace (0 + Z.of_nat k) with (Z.of_nat k) by lia.
    rewrite (copy_row_ok s k r c Hns Er HR). cbn [bind]. f_equal.
    clear - Ec. revert k Ec. induction cs as [|a l IH]; intros [|k] Ec; try discriminate; simpl in *.
    + inversion Ec; reflexivity.
    + f_equal. apply IH. exact Ec.
  - rewrite E. f_equal. subst ns. rewrite Nat2Z.id. rewrite (Forall2_len _ _ _ HF).
    apply firstn_all.
Qed.

(** Entries of pn, di, dj, sc for a list of rules (C order: di is the reference
    step, dj the query step). *)
Definition rule_crows (k : nat) (r : rule N) : list (crow N) :=
  CRow (Z.of_nat k) (Z.of_nat (r_dj r)) (Z.of_nat (r_di r)) (ofZ (-1)) ::
  map (fun a => CRow (Z.of_nat k) (Z.of_nat (snd (fst a))) (Z.of_nat (fst (fst a))) (snd a)) (r_add r).
Fixpoint crows_from (k : nat) (rules : list (rule N)) : list (crow N) :=
  match rules with
  | nil => nil
  | r :: rs => rule_crows k r ++ crows_from (S k) rs
  end.
Definition crows := crows_from 0.

Variable L : NumLaws N.

Lemma c_int_ofN (k : nat) : Z.of_nat k <= INT_MAX -> c_int (@ofN N k) = Ok (Z.of_nat k).
Proof.
  intros H. unfold c_int, ofN. unfold INT_MAX in H.
  rewrite (law_trunc_ofZ _ L) by (rewrite Z.abs_eq by lia; change (2^53) with 9007199254740992; lia).
  apply i32_ok. unfold INT_MIN, INT_MAX. lia.
Qed.

Lemma going_down_le di dj (l : list (nat * nat * N)) a : going_down di dj l = true -> In a l ->
  (fst (fst a) <= di)%nat /\ (snd (fst a) <= dj)%nat.
Proof.
  revert di dj. induction l as [|[[oi oj] w] l IH]; intros di dj H Hin; [easy|].
  simpl in H. destruct Hin as [<-|Hin].
  - simpl. lia.
  - destruct (IH oi oj); [lia | exact Hin | lia].
Qed.

Lemma table_crows_from k (rules : list (rule N)) ns :
  forallb valid_rule rules = true ->
  Forall (fun r => Z.of_nat (r_di r) <= INT_MAX /\ Z.of_nat (r_dj r) <= INT_MAX) rules ->
  Z.of_nat k + Z.of_nat (List.length rules) <= ns -> ns <= INT_MAX - 1 ->
  Forall2 (row_crow ns) (table_from (S k) rules) (crows_from k rules).
Proof.
  revert k. induction rules as [|r rs IH]; intros k Hv Hf Hk Hns; [constructor|].
  simpl in Hv. apply andb_prop in Hv. destruct Hv as [Hv1 Hv2].
  inversion Hf as [|? ? [Hd1 Hd2] Hf']; subst. simpl List.length in Hk.
  cbn [table_from crows_from]. apply Forall2_app.
  - unfold rule_rows, rule_crows. constructor.
    + repeat split; simpl; try (rewrite c_int_ofN by lia; f_equal; lia); lia.
    + unfold valid_rule in Hv1. apply andb_prop in Hv1. destruct Hv1 as [Hv1 _].
      apply andb_prop in Hv1. destruct Hv1 as [_ Hg].
      assert (forall a, In a (r_add r) -> (fst (fst a) <= r_di r)%nat /\ (snd (fst a) <= r_dj r)%nat) as Hin
        by (intros a; apply going_down_le; exact Hg).
      clear Hg. induction (r_add r) as [|a l IHl]; simpl; constructor.
      * destruct (Hin a (or_introl eq_refl)).
        repeat split; simpl; try (rewrite c_int_ofN by lia; f_equal; lia); lia.
      * apply IHl. intros b Hb. apply Hin. right. exact Hb.
  - apply IH; auto; lia.
Qed.

Lemma table_length_ge k (rules : list (rule N)) :
  (List.length rules <= List.length (table_from k rules))%nat.
Proof.
  revert k. induction rules as [|r rs IH]; intros k; simpl; [lia|].
  rewrite app_length. specialize (IH (S k)). lia.
Qed.

Lemma copy_rows_rules (s : steppat N) rules : pattern_rules s rules ->
  copy_rows (get_p s) (Z.of_nat (List.length (mx s))) = Ok (crows rules).
Proof.
  intros [Hm [Hn [Hv [Hf1 Hf2]]]]. apply copy_rows_ok.
  - rewrite Hm. exact Hf1.
  - pose proof (table_length_ge 1 rules). unfold table in *. rewrite Hm.
    apply (table_crows_from 0); auto; unfold INT_MAX in *; lia.
Qed.

Lemma last_rule_pn k (rules : list (rule N)) : rules <> nil ->
  exists c, nth_error (crows_from k rules) (List.length (crows_from k rules) - 1) = Some c /\
            pn c = Z.of_nat k + Z.of_nat (List.length rules) - 1.
Proof.
  revert k. induction rules as [|r rs IH]; intros k H; [congruence|].
  cbn [crows_from]. destruct rs as [|r' rs'].
  - simpl crows_from at 1 2. rewrite app_nil_r.
    assert (P : forall c, In c (rule_crows k r) -> pn c = Z.of_nat k).
    { unfold rule_crows. intros c [<-|Hc]; [reflexivity|]. apply in_map_iff in Hc.
      destruct Hc as [a [<- _]]. reflexivity. }
    destruct (nth_error (rule_crows k r) (List.length (rule_crows k r) - 1)) as [c|] eqn:E.
    + exists c. split; [reflexivity|]. simpl. rewrite (P c); [lia|]. eapply nth_error_In; eauto.
    + apply nth_error_None in E. simpl in E. lia.
  - destruct (IH (S k)) as [c [E P]]; [discriminate|]. exists c. split.
    + rewrite nth_error_app2; [|rewrite app_length].
      * rewrite app_length. rewrite <- E. f_equal.
        assert (0 < List.length (crows_from (S k) (r' :: rs')))%nat by (simpl; lia). lia.
      * assert (0 < List.length (crows_from (S k) (r' :: rs')))%nat by (simpl; lia). lia.
    + rewrite P. cbn [List.length]. lia.
Qed.

Lemma crows_length k (rules : list (rule N)) :
  List.length (crows_from k rules) = List.length (table_from (S k) rules).
Proof.
  revert k. induction rules as [|r rs IH]; intros k; [reflexivity|].
  simpl. rewrite !app_length, !map_length. rewrite IH. reflexivity.
Qed.

(** ** argmin *)

Lemma argmin_from_spec (l : list N) i ii vv :
  let a := argmin_from l i ii vv in
  (a = ii /\ (forall k x, nth_error l k = Some x -> ltb x vv = false)) \/
  (exists k x, a = i + Z.of_nat k /\ nth_error l k = Some x /\ ltb x vv = true /\
     (forall k' y, nth_error l k' = Some y -> ltb y x = false) /\
     (forall k' y, (k' < k)%nat -> nth_error l k' = Some y -> ltb x y = true \/ ltb y vv = false)).
Proof.
  revert i ii vv. induction l as [|x xs IH]; intros i ii vv; simpl.
  - left. split; [reflexivity|]. intros [|k]; discriminate.
  - destruct (ltb x vv) eqn:E.
    + right. destruct (IH (i + 1) i x) as [[-> Hn]|[k [y [-> [Hk [Hy [Hmin Hfst]]]]]]].
      * exists 0%nat, x. repeat split; auto; [lia| |].
        -- intros [|k'] y Hy; simpl in Hy; [inversion Hy; subst; apply (law_lt_irrefl _ L)|].
           eapply Hn; eauto.
        -- intros k' y Hlt. lia.
      * exists (S k), y. repeat split; auto; [lia| | |].
        -- eapply (law_lt_trans _ L); eauto.
        -- intros [|k'] z Hz; simpl in Hz; [|eapply Hmin; eauto].
           inversion Hz; subst. apply Bool.not_true_is_false. intros C.
           pose proof (law_lt_trans _ L _ _ _ C Hy) as Q. rewrite (law_lt_irrefl _ L) in Q. discriminate.
        -- intros [|k'] z Hlt Hz; simpl in Hz.
           ++ inversion Hz; subst. left. exact Hy.
           ++ destruct (Hfst k' z ltac:(lia) Hz) as [Q|Q]; [left; exact Q|].
              destruct (ltb z vv) eqn:Ez; [|right; reflexivity].
              left. (* z < vv but not z < x; y < x *)
              destruct (isnan z) eqn:Nz.
              { exfalso. apply (law_lt_le _ L) in Ez. apply (law_le_nan _ L) in Ez. destruct Ez. congruence. }
              assert (Nx : isnan x = false).
              { apply (law_lt_le _ L) in Hy. apply (law_le_nan _ L) in Hy. apply Hy. }
              eapply (law_lt_le_trans _ L); [exact Hy|]. apply (law_not_lt_le _ L); auto.
    + destruct (IH (i + 1) ii vv) as [[-> Hn]|[k [y [-> [Hk [Hy [Hmin Hfst]]]]]]].
      * left. split; [reflexivity|]. intros [|k] y Hy; simpl in Hy; [inversion Hy; subst; auto|eapply Hn; eauto].
      * right. exists (S k), y. repeat split; auto; [lia| |].
        -- intros [|k'] z Hz; simpl in Hz; [|eapply Hmin; eauto].
           inversion Hz; subst. apply Bool.not_true_is_false. intros C.
           pose proof (law_lt_trans _ L _ _ _ C Hy) as Q. congruence.
        -- intros [|k'] z Hlt Hz; simpl in Hz.
           ++ inversion Hz; subst. right. exact E.
           ++ apply (Hfst k'); auto. lia.
Qed.

(** First strict minimum among the values below +infinity, or -1. *)
Definition first_min (l : list N) (a : Z) : Prop :=
  (a = -1 /\ (forall k x, nth_error l k = Some x -> ~ good x)) \/
  (exists k x, a = Z.of_nat k /\ nth_error l k = Some x /\ good x /\
     (forall k' y, nth_error l k' = Some y -> good y -> leb x y = true) /\
     (forall k' y, (k' < k)%nat -> nth_error l k' = Some y -> good y -> ltb x y = true)).

Lemma argmin_spec (l : list N) : first_min l (argmin l).
Proof.
  unfold argmin, first_min, good.
  destruct (argmin_from_spec l 0 (-1) pinf) as [[-> Hn]|[k [x [-> [Hk [Hy [Hmin Hfst]]]]]]].
  - left. split; [reflexivity|]. intros k x Hk C. rewrite (Hn k x Hk) in C. discriminate.
  - right. exists k, x. repeat split; auto.
    + intros k' y Hy' Gy. apply (law_not_lt_le _ L).
      * apply (law_good_not_nan _ L). exact Gy.
      * apply (law_good_not_nan _ L). exact Hy.
      * eapply Hmin; eauto.
    + intros k' y Hlt Hy' Gy. destruct (Hfst k' y Hlt Hy') as [Q|Q]; [exact Q|congruence].
Qed.

(** ** One cell *)

Section Cell.
Variables (n m : nat) (lmf : nat -> nat -> N).
Variable lm : list N.
Hypothesis lm_ok : forall i j, (i < n)%nat -> (j < m)%nat -> nth_error lm (i * m + j) = Some (lmf i j).
Hypothesis size_ok : Z.of_nat n * Z.of_nat m <= INT_MAX.

(** Candidate for rule [r] at cell (i,j), given the cumulative cost [f]. *)
Definition cand_is (f : nat -> nat -> N) (r : rule N) (i j : nat) (v : N) : Prop :=
  if (Nat.leb (r_di r) i && Nat.leb (r_dj r) j)%bool
  then v = charge lmf r i j (f (i - r_di r)%nat (j - r_dj r)%nat)
  else isnan v = true.


(** charging rows of one rule *)
Lemma steps_add (cm : list N) i j k (l : list (nat * nat * N)) clist :
  (i < n)%nat -> (j < m)%nat -> (k < List.length clist)%nat ->
  forallb (fun a => negb (eqb (snd a) (ofZ (-1)))) l = true ->
  (forall a, In a l -> Z.of_nat (fst (fst a)) <= INT_MAX /\ Z.of_nat (snd (fst a)) <= INT_MAX) ->
  forall c, nth_error clist k = Some c ->
  exists c', foldM (do_step (Z.of_nat m) lm cm (Z.of_nat j) (Z.of_nat i))
        (map (fun a => CRow (Z.of_nat k) (Z.of_nat (snd (fst a))) (Z.of_nat (fst (fst a))) (snd a)) l)
        clist = Ok (upd clist k c') /\
    (isnan c = true -> isnan c' = true) /\
    ((forall a, In a l -> (fst (fst a) <= i)%nat /\ (snd (fst a) <= j)%nat) ->
     c' = fold_left (fun c a => macc c (snd a) (lmf (i - fst (fst a)) (j - snd (fst a)))) l c).
Proof.
  intros Hi Hj. revert clist. induction l as [|[[oi oj] w] l IH]; intros clist Hk Hw Hb c Hc.
  - exists c. simpl. repeat split; auto. f_equal.
    clear - Hc. revert k Hc. induction clist as [|x xs IHx]; intros [|k] Hc; simpl in *; try discriminate.
    + inversion Hc. reflexivity.
    + f_equal. apply IHx. exact Hc.
  - simpl in Hw. apply andb_prop in Hw. destruct Hw as [Hw1 Hw2].
    pose proof (Hb _ (or_introl eq_refl)) as [B1 B2]. simpl in B1, B2.
    assert (Hb' : forall a, In a l -> Z.of_nat (fst (fst a)) <= INT_MAX /\ Z.of_nat (snd (fst a)) <= INT_MAX)
      by (intros a Ha; apply Hb; right; exact Ha).
    cbn [map foldM]. cbn [fst snd].
    unfold do_step at 1. cbn [di dj sc pn].
    assert (Hn0 : Z.of_nat n <= INT_MAX /\ Z.of_nat m <= INT_MAX) by (unfold INT_MAX in *; nia).
    rewrite !i32_ok by (unfold INT_MIN, INT_MAX in *; lia). cbn [bind].
    apply negb_true_iff in Hw1. rewrite Hw1.
    destruct ((0 <=? Z.of_nat j - Z.of_nat oj) && (0 <=? Z.of_nat i - Z.of_nat oi)) eqn:Er.
    + assert (Ho : (oi <= i)%nat /\ (oj <= j)%nat) by lia.
      replace (Z.of_nat j - Z.of_nat oj) with (Z.of_nat (j - oj)) by lia.
      replace (Z.of_nat i - Z.of_nat oi) with (Z.of_nat (i - oi)) by lia.
      rewrite (EM_ok n m _ _ size_ok) by lia. cbn [bind].
      rewrite (rd_nat lm _ _ (lm_ok (i - oi) (j - oj) ltac:(lia) ltac:(lia))). cbn [bind].
      rewrite (rd_nat clist _ _ Hc). cbn [bind]. rewrite wr_nat by exact Hk. cbn [bind].
      destruct (IH (upd clist k (macc c w (lmf (i - oi)%nat (j - oj)%nat)))) with
        (c := macc c w (lmf (i - oi)%nat (j - oj)%nat)) as [c' [E [Hnan Hval]]].
      * rewrite upd_length. exact Hk.
      * exact Hw2.
      * exact Hb'.
      * rewrite nth_error_upd, Nat.eqb_refl. destruct (Nat.ltb_spec k (List.length clist)); [reflexivity|lia].
      * exists c'. rewrite E. split; [f_equal|split].
        -- clear. revert k. induction clist as [|x xs IHx]; intros [|k]; simpl; auto. f_equal. apply IHx.
        -- intros Hc'. apply Hnan. apply (law_nan_macc _ L). exact Hc'.
        -- intros Hall. simpl. apply Hval. intros a Ha. apply Hall. right. exact Ha.
    + cbn [bind]. destruct (IH clist Hk Hw2 Hb' c Hc) as [c' [E [Hnan Hval]]].
      exists c'. rewrite E. repeat split; auto.
      intros Hall. exfalso. destruct (Hall _ (or_introl eq_refl)). simpl in *. lia.
Qed.

Lemma upd_upd {A} (l : list A) k a b : upd (upd l k a) k b = upd l k b.
Proof. revert k. induction l as [|x xs IHx]; intros [|k]; simpl; auto. f_equal. apply IHx. Qed.

(** all rows of one rule *)
Lemma steps_rule (cm : list N) (cmf : nat -> nat -> N) i j k (r : rule N) clist :
  (i < n)%nat -> (j < m)%nat -> (k < List.length clist)%nat ->
  valid_rule r = true ->
  Z.of_nat (r_di r) <= INT_MAX -> Z.of_nat (r_dj r) <= INT_MAX ->
  (forall a b, (a < n)%nat -> (b < m)%nat -> nth_error cm (a * m + b) = Some (cmf a b)) ->
  (exists c, nth_error clist k = Some c /\ isnan c = true) ->
  eqb (@ofZ N (-1)) (ofZ (-1)) = true ->
  exists c', foldM (do_step (Z.of_nat m) lm cm (Z.of_nat j) (Z.of_nat i)) (rule_crows k r) clist
             = Ok (upd clist k c') /\ cand_is cmf r i j c'.
Proof.
  intros Hi Hj Hk Hv Bi Bj Hcm [c [Hc Hnc]] Hm1.
  unfold valid_rule in Hv. apply andb_prop in Hv. destruct Hv as [Hv Hw].
  apply andb_prop in Hv. destruct Hv as [Hz Hg].
  assert (Hin : forall a, In a (r_add r) -> (fst (fst a) <= r_di r)%nat /\ (snd (fst a) <= r_dj r)%nat)
    by (intros a; apply going_down_le; exact Hg).
  assert (Hin' : forall a, In a (r_add r) -> Z.of_nat (fst (fst a)) <= INT_MAX /\ Z.of_nat (snd (fst a)) <= INT_MAX)
    by (intros a Ha; destruct (Hin a Ha); lia).
  unfold rule_crows. cbn [foldM]. unfold do_step at 1. cbn [di dj sc pn].
  assert (Hn0 : Z.of_nat n <= INT_MAX /\ Z.of_nat m <= INT_MAX) by (unfold INT_MAX in *; nia).
  rewrite !i32_ok by (unfold INT_MIN, INT_MAX in *; lia). cbn [bind].
  rewrite Hm1. unfold cand_is.
  destruct ((0 <=? Z.of_nat j - Z.of_nat (r_dj r)) && (0 <=? Z.of_nat i - Z.of_nat (r_di r))) eqn:Er.
  - replace (Z.of_nat j - Z.of_nat (r_dj r)) with (Z.of_nat (j - r_dj r)) by lia.
    replace (Z.of_nat i - Z.of_nat (r_di r)) with (Z.of_nat (i - r_di r)) by lia.
    rewrite (EM_ok n m _ _ size_ok) by lia. cbn [bind].
    rewrite (rd_nat cm _ _ (Hcm (i - r_di r)%nat (j - r_dj r)%nat ltac:(lia) ltac:(lia))). cbn [bind].
    rewrite wr_nat by exact Hk. cbn [bind].
    destruct (steps_add cm i j k (r_add r) (upd clist k (cmf (i - r_di r)%nat (j - r_dj r)%nat)) Hi Hj)
      with (c := cmf (i - r_di r)%nat (j - r_dj r)%nat) as [c' [E [_ Hval]]]; auto.
    + rewrite upd_length. exact Hk.
    + rewrite nth_error_upd, Nat.eqb_refl. destruct (Nat.ltb_spec k (List.length clist)); [reflexivity|lia].
    + exists c'. rewrite E, upd_upd. split; [reflexivity|].
      replace (Nat.leb (r_di r) i && Nat.leb (r_dj r) j)%bool with true by lia.
      unfold charge. apply Hval. intros a Ha. destruct (Hin a Ha). lia.
  - cbn [bind]. destruct (steps_add cm i j k (r_add r) clist Hi Hj Hk Hw Hin' c Hc) as [c' [E [Hnan _]]].
    exists c'. rewrite E. split; [reflexivity|].
    replace (Nat.leb (r_di r) i && Nat.leb (r_dj r) j)%bool with false by lia. auto.
Qed.

Lemma steps_rules (cm : list N) (cmf : nat -> nat -> N) i j rules k clist :
  (i < n)%nat -> (j < m)%nat -> (k + List.length rules = List.length clist)%nat ->
  forallb valid_rule rules = true ->
  Forall (fun r => Z.of_nat (r_di r) <= INT_MAX /\ Z.of_nat (r_dj r) <= INT_MAX) rules ->
  (forall a b, (a < n)%nat -> (b < m)%nat -> nth_error cm (a * m + b) = Some (cmf a b)) ->
  (forall k', (k <= k')%nat -> (k' < List.length clist)%nat ->
      exists c, nth_error clist k' = Some c /\ isnan c = true) ->
  exists clist', foldM (do_step (Z.of_nat m) lm cm (Z.of_nat j) (Z.of_nat i)) (crows_from k rules) clist
                 = Ok clist' /\
    List.length clist' = List.length clist /\
    (forall k', (k' < k)%nat -> nth_error clist' k' = nth_error clist k') /\
    (forall q r, nth_error rules q = Some r ->
       exists v, nth_error clist' (k + q) = Some v /\ cand_is cmf r i j v).
Proof.
  intros Hi Hj. revert k clist. induction rules as [|r rs IH]; intros k clist Hlen Hv Hf Hcm Hnan.
  - exists clist. repeat split; auto. intros [|q]; discriminate.
  - simpl in Hv. apply andb_prop in Hv. destruct Hv as [Hv1 Hv2].
    inversion Hf as [|? ? [Hd1 Hd2] Hf']; subst. simpl List.length in Hlen.
    cbn [crows_from]. rewrite foldM_app.
    destruct (steps_rule cm cmf i j k r clist) as [c' [E Hc']]; auto; try lia.
    { apply Hnan; lia. }
    { rewrite (law_eq_ofZ _ L); lia. }
    rewrite E. cbn [bind].
    destruct (IH (S k) (upd clist k c')) as [cl [E2 [L2 [P2 Q2]]]]; auto.
    { rewrite upd_length. lia. }
    { intros k' Hk1 Hk2. rewrite upd_length in Hk2. destruct (Hnan k' ltac:(lia) Hk2) as [c [Hc Hn]].
      exists c. split; [|exact Hn]. rewrite nth_error_upd.
      destruct (Nat.eqb_spec k' k); [lia|exact Hc]. }
    exists cl. rewrite upd_length in L2. repeat split; auto.
    + intros k' Hk'. rewrite P2 by lia. rewrite nth_error_upd.
      destruct (Nat.eqb_spec k' k); [lia|reflexivity].
    + intros [|q] r' Hq; simpl in Hq.
      * inversion Hq; subst r'. exists c'. split; [|exact Hc']. rewrite Nat.add_0_r.
        rewrite P2 by lia. rewrite nth_error_upd, Nat.eqb_refl.
        destruct (Nat.ltb_spec k (List.length clist)); [reflexivity|lia].
      * destruct (Q2 q r' Hq) as [v [Hv' Hv'']]. exists v. split; [|exact Hv''].
        rewrite <- Hv'. f_equal. lia.
Qed.

End Cell.

(** ** The Bellman equation *)

Section Bellman.
Variables (rules : list (rule N)) (n m : nat) (lmf seed : nat -> nat -> N) (win : nat -> nat -> bool).

(** Values of all productions at (i,j), [l] being listed in production order. *)
Definition cands (f : nat -> nat -> N) (i j : nat) (l : list N) : Prop :=
  List.length l = List.length rules /\
  forall q r, nth_error rules q = Some r ->
    exists v, nth_error l q = Some v /\ cand_is lmf f r i j v.

Definition cell_eq (cmf : nat -> nat -> N) (smf : nat -> nat -> Z) (i j : nat) : Prop :=
  if negb (isnan (seed i j)) then cmf i j = seed i j /\ smf i j = INT_MIN
  else if negb (win i j) then cmf i j = seed i j /\ smf i j = INT_MIN
  else exists l a, cands cmf i j l /\ first_min l a /\
       ((a = -1 /\ cmf i j = seed i j /\ smf i j = INT_MIN) \/
        (exists k, a = Z.of_nat k /\ nth_error l k = Some (cmf i j) /\ smf i j = a + 1)).

Definition bellman cmf smf : Prop :=
  forall i j, (i < n)%nat -> (j < m)%nat -> cell_eq cmf smf i j.

End Bellman.

Lemma cand_is_ext lmf f g (r : rule N) i j v :
  (forall a b, (a <= i)%nat -> (b <= j)%nat -> ~ (a = i /\ b = j) -> f a b = g a b) ->
  valid_rule r = true ->
  cand_is lmf f r i j v -> cand_is lmf g r i j v.
Proof.
  intros H Hv. unfold cand_is.
  destruct (Nat.leb (r_di r) i && Nat.leb (r_dj r) j)%bool eqn:E; [|auto].
  intros ->. rewrite H; [reflexivity|lia|lia|].
  unfold valid_rule in Hv. lia.
Qed.

(** A flat list represents a function on cells. *)
Definition reps {A} (n m : nat) (l : list A) (f : nat -> nat -> A) : Prop :=
  List.length l = (n * m)%nat /\
  forall i j, (i < n)%nat -> (j < m)%nat -> nth_error l (i * m + j) = Some (f i j).

Lemma flat_inj m i j i' j' : (j < m)%nat -> (j' < m)%nat ->
  (i * m + j = i' * m + j')%nat -> i = i' /\ j = j'.
Proof.
  intros Hj Hj' E.
  assert (i = i') by nia. split; [assumption|]. subst. lia.
Qed.

Definition fupd {A} (f : nat -> nat -> A) i j v : nat -> nat -> A :=
  fun a b => if Nat.eqb a i && Nat.eqb b j then v else f a b.

Lemma reps_upd {A} n m (l : list A) f i j v : (i < n)%nat -> (j < m)%nat ->
  reps n m l f -> reps n m (upd l (i * m + j) v) (fupd f i j v).
Proof.
  intros Hi Hj [Hl Hf]. split; [rewrite upd_length; exact Hl|].
  intros a b Ha Hb. rewrite nth_error_upd. unfold fupd.
  destruct (Nat.eqb_spec (a * m + b) (i * m + j)) as [E|E].
  - destruct (flat_inj m a b i j Hb Hj E) as [-> ->]. rewrite !Nat.eqb_refl. simpl.
    destruct (Nat.ltb_spec (i * m + j) (List.length l)); [reflexivity|]. rewrite Hl in *. nia.
  - destruct (Nat.eqb_spec a i), (Nat.eqb_spec b j); simpl; try (apply Hf; assumption). subst. congruence.
Qed.

Section Run.
Variables (rules : list (rule N)) (n m : nat) (lmf seed : nat -> nat -> N) (win : nat -> nat -> bool).
Variables (lm : list N) (wm : list Z).
Hypothesis Hlm : reps n m lm lmf.
Hypothesis Hwm : reps n m wm (fun i j => if win i j then 1 else 0).
Hypothesis Hsize : Z.of_nat n * Z.of_nat m <= INT_MAX.
Hypothesis Hrules : forallb valid_rule rules = true.
Hypothesis Hfit : Forall (fun r => Z.of_nat (r_di r) <= INT_MAX /\ Z.of_nat (r_dj r) <= INT_MAX) rules.
Hypothesis Hne : rules <> nil.
Hypothesis Hnr : Z.of_nat (List.length rules) <= INT_MAX.

(** State after all cells before (i,j) in row-major order. *)
Definition done (i j a b : nat) : Prop := (a < i \/ (a = i /\ b < j))%nat.
Definition inv (i j : nat) (st : list N * list Z) : Prop :=
  exists cmf smf, reps n m (fst st) cmf /\ reps n m (snd st) smf /\
    (forall a b, (a < n)%nat -> (b < m)%nat -> ~ done i j a b -> cmf a b = seed a b /\ smf a b = INT_MIN) /\
    (forall a b, (a < n)%nat -> (b < m)%nat -> done i j a b -> cell_eq rules lmf seed win cmf smf a b).

Lemma cell_eq_stable cmf smf i j v s a b :
  (a < i \/ (a = i /\ b < j))%nat ->
  cell_eq rules lmf seed win cmf smf a b ->
  cell_eq rules lmf seed win (fupd cmf i j v) (fupd smf i j s) a b.
Proof.
  intros Hd. unfold cell_eq.
  assert (E : forall (A : Type) (f : nat -> nat -> A) v, fupd f i j v a b = f a b).
  { intros A f v'. unfold fupd. destruct (Nat.eqb_spec a i), (Nat.eqb_spec b j); simpl; auto. lia. }
  rewrite !E. destruct (negb (isnan (seed a b))); [auto|]. destruct (negb (win a b)); [auto|].
  intros [l [x [[Hl Hc] H]]]. exists l, x. split; [|exact H]. split; [exact Hl|].
  intros q r Hq. destruct (Hc q r Hq) as [w [Hw1 Hw2]]. exists w. split; [exact Hw1|].
  eapply cand_is_ext; [|  |exact Hw2].
  - intros a' b' Ha' Hb' Hab. unfold fupd.
    destruct (Nat.eqb_spec a' i), (Nat.eqb_spec b' j); simpl; auto. lia.
  - rewrite forallb_forall in Hrules. apply Hrules. eapply nth_error_In; eauto.
Qed.

Lemma do_cell_ok i j st : (i < n)%nat -> (j < m)%nat -> inv i j st ->
  exists st', do_cell (Z.of_nat m) wm lm (crows rules) (Z.of_nat (List.length rules))
                      (Z.of_nat i) (Z.of_nat j) st = Ok st' /\ inv i (S j) st'.
Proof.
  intros Hi Hj [cmf [smf [Hcm [Hsm [Hrest Hdone]]]]]. destruct st as [cm sm]. cbn [fst snd] in *.
  assert (Hcur := Hrest i j Hi Hj ltac:(unfold done; lia)). destruct Hcur as [Hc0 Hs0].
  (* keeping the state *)
  assert (Keep : cell_eq rules lmf seed win cmf smf i j -> inv i (S j) (cm, sm)).
  { intros Hce. exists cmf, smf. repeat split; auto; try apply Hcm; try apply Hsm.
    - apply Hrest; auto. unfold done in *. lia.
    - apply Hrest; auto. unfold done in *. lia.
    - intros a b Ha Hb Hd. unfold done in *.
      destruct (Nat.eq_dec a i); [destruct (Nat.eq_dec b j)|].
      + subst. exact Hce.
      + apply Hdone; auto. lia.
      + apply Hdone; auto. lia. }
  unfold do_cell. rewrite (EM_ok n m _ _ Hsize) by assumption. cbn [bind].
  rewrite (rd_nat wm _ _ (proj2 Hwm i j Hi Hj)). cbn [bind].
  assert (Ecell := fun H => Keep H). unfold cell_eq in Ecell.
  destruct (win i j) eqn:Ew.
  2:{ exists (cm, sm). split; [reflexivity|]. apply Ecell. cbn. rewrite Hc0, Hs0.
      destruct (negb (isnan (seed i j))); auto. }
  cbn [Z.eqb]. rewrite (rd_nat cm _ _ (proj2 Hcm i j Hi Hj)). cbn [bind].
  rewrite Hc0 in *.
  destruct (isnan (seed i j)) eqn:Es.
  2:{ exists (cm, sm). split; [reflexivity|]. apply Ecell. cbn. auto. }
  cbn [negb] in *. rewrite Nat2Z.id.
  destruct (steps_rules n m lmf lm (proj2 Hlm) Hsize cm cmf i j rules 0
              (repeat nan (List.length rules)) Hi Hj) as [cl [E [Hlen [_ Hcand]]]]; auto.
  { rewrite repeat_length. lia. }
  { apply Hcm. }
  { intros k' _ Hk'. rewrite repeat_length in Hk'. exists nan. split; [apply repeat_nth; lia|].
    apply (law_nan _ L). }
  fold crows in E. rewrite E. cbn [bind]. rewrite repeat_length in Hlen.
  pose proof (argmin_spec cl) as Ha.
  assert (Hcands : cands rules lmf cmf i j cl) by (split; auto).
  destruct (Z.ltb_spec (-1) (argmin cl)) as [Hlt|Hge].
  - destruct Ha as [[Ha _]|[k [x [Ha [Hk [Gx Hmin]]]]]]; [lia|].
    rewrite Ha. rewrite (rd_nat cl _ _ Hk). cbn [bind].
    rewrite wr_nat by (rewrite (proj1 Hcm); nia). cbn [bind].
    rewrite wr_nat by (rewrite (proj1 Hsm); nia). cbn [bind].
    eexists. split; [reflexivity|].
    exists (fupd cmf i j x), (fupd smf i j (Z.of_nat k + 1)). cbn [fst snd].
    split; [apply reps_upd; assumption|]. split; [apply reps_upd; assumption|]. split.
    + intros a b Hra Hrb Hd. unfold fupd, done in *.
      destruct (Nat.eqb_spec a i), (Nat.eqb_spec b j); simpl; try (apply Hrest; auto; lia). lia.
    + intros a b Hra Hrb Hd. unfold done in *.
      destruct (Nat.eq_dec a i) as [->|]; [destruct (Nat.eq_dec b j) as [->|]|].
      * unfold cell_eq. rewrite Es, Ew. cbn [negb].
        exists cl, (Z.of_nat k). split; [|split].
        -- split; [exact Hlen|]. intros q r Hq. destruct (Hcand q r Hq) as [w [Hw1 Hw2]].
           exists w. split; [exact Hw1|]. eapply cand_is_ext; [| |exact Hw2].
           ++ intros a' b' Ha' Hb' Hab. unfold fupd.
              destruct (Nat.eqb_spec a' i), (Nat.eqb_spec b' j); simpl; auto. lia.
           ++ rewrite forallb_forall in Hrules. apply Hrules. eapply nth_error_In; eauto.
        -- right. exists k, x. split; [reflexivity|]. auto.
        -- right. exists k. unfold fupd. rewrite !Nat.eqb_refl. cbn. auto.
      * apply cell_eq_stable; [lia|]. apply Hdone; auto. lia.
      * apply cell_eq_stable; [lia|]. apply Hdone; auto. lia.
  - exists (cm, sm). split; [reflexivity|]. apply Ecell. cbn.
    exists cl, (argmin cl). split; [exact Hcands|]. split; [exact Ha|]. left.
    destruct Ha as [[Ha _]|[k [x [Ha _]]]]; [auto|lia].
Qed.

Lemma rows_ok cm sm0 : reps n m cm seed -> reps n m sm0 (fun _ _ => INT_MIN) ->
  exists st, loop 0 n (fun j st => loop 0 m
      (fun i st => do_cell (Z.of_nat m) wm lm (crows rules) (Z.of_nat (List.length rules)) j i st) st)
      (cm, sm0) = Ok st /\ inv n 0 st.
Proof.
  intros Hcm Hsm.
  apply (loop_inv (fun k st => inv k 0 st)).
  - exists seed, (fun _ _ => INT_MIN). cbn. split; [exact Hcm|]. split; [exact Hsm|].
    split; [auto|]. intros a b _ _ Hd. unfold done in Hd. lia.
  - intros k st Hk Hinv.
    destruct (loop_inv (fun c st => inv k c st)
       (fun i st => do_cell (Z.of_nat m) wm lm (crows rules) (Z.of_nat (List.length rules)) (0 + Z.of_nat k) i st)
       0 m st Hinv) as [st' [E Hinv']].
    + intros c st1 Hc H1. destruct (do_cell_ok k c st1 Hk Hc H1) as [st2 [E2 H2]].
      exists st2. split; [|exact H2]. exact E2.
    + exists st'. split; [exact E|].
      destruct Hinv' as [cmf [smf [A [B [C D]]]]]. exists cmf, smf.
      repeat split; try apply A; try apply B; auto.
      * apply C; auto. unfold done in *. lia.
      * apply C; auto. unfold done in *. lia.
      * intros a b Ha Hb Hd. apply D; auto. unfold done in *. lia.
Qed.

Lemma fill_sm (sm : list Z) : List.length sm = (n * m)%nat ->
  exists sm0, loop 0 (n * m) (fun i sm => wr sm i INT_MIN) sm = Ok sm0 /\
              reps n m sm0 (fun _ _ => INT_MIN).
Proof.
  intros Hl.
  destruct (loop_inv (fun k s => List.length s = (n * m)%nat /\
                       forall t, (t < k)%nat -> nth_error s t = Some INT_MIN)
              (fun i sm => wr sm i INT_MIN) 0 (n * m) sm) as [s' [E [H1 H2]]].
  - split; [exact Hl|]. intros; lia.
  - intros k s Hk [H1 H2]. exists (upd s k INT_MIN). split.
    + replace (0 + Z.of_nat k) with (Z.of_nat k) by lia. apply wr_nat. lia.
    + split; [rewrite upd_length; exact H1|]. intros t Ht. rewrite nth_error_upd.
      destruct (Nat.eqb_spec t k).
      * destruct (Nat.ltb_spec k (List.length s)); [reflexivity|lia].
      * apply H2. lia.
  - exists s'. split; [exact E|]. split; [exact H1|].
    intros i j Hi Hj. apply H2. apply flat_lt; assumption.
Qed.

Theorem computeCM_ok (s : steppat N) cm sm :
  pattern_rules s rules ->
  reps n m cm seed -> List.length sm = (n * m)%nat ->
  exists cm' sm' cmf smf,
    computeCM (Z.of_nat m) (Z.of_nat n) wm lm (Z.of_nat (get_n_rows s)) (get_p s) cm sm
      = Ok (cm', sm') /\
    reps n m cm' cmf /\ reps n m sm' smf /\ bellman rules n m lmf seed win cmf smf.
Proof.
  intros Hp Hcm Hsm. unfold computeCM, get_n_rows.
  rewrite (copy_rows_rules s rules Hp). cbn [bind].
  destruct (last_rule_pn 0 rules Hne) as [c [Hc Hpn]].
  assert (Hlen : List.length (mx s) = List.length (crows rules)).
  { unfold crows. rewrite crows_length. destruct Hp as [-> _]. reflexivity. }
  assert (Hpos : (0 < List.length (crows rules))%nat).
  { unfold crows. rewrite crows_length. pose proof (table_length_ge 1 rules).
    destruct rules; [congruence|]. simpl List.length in *. lia. }
  fold crows in Hc.
  replace (Z.of_nat (List.length (mx s)) - 1) with (Z.of_nat (List.length (crows rules) - 1)) by lia.
  rewrite (rd_nat _ _ _ Hc). cbn [bind]. rewrite Hpn.
  rewrite i32_ok by (unfold INT_MIN, INT_MAX in *; lia). cbn [bind].
  replace (Z.of_nat 0 + Z.of_nat (List.length rules) - 1 + 1) with (Z.of_nat (List.length rules)) by lia.
  replace (Z.to_nat (Z.of_nat n * Z.of_nat m)) with (n * m)%nat by lia.
  destruct (fill_sm sm Hsm) as [sm0 [E0 H0]]. rewrite E0. cbn [bind].
  rewrite !Nat2Z.id.
  destruct (rows_ok cm sm0 Hcm H0) as [[cm' sm'] [E [cmf [smf [A [B [C D]]]]]]].
  exists cm', sm', cmf, smf. split; [exact E|]. repeat split; try apply A; try apply B.
  intros i j Hi Hj. apply D; auto. unfold done. lia.
Qed.

End Run.
End Core.
