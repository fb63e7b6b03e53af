(** DPProof.v - a solution of the Bellman equation is the optimum over all walks,
    and backtracking returns an optimal walk. *)
From Coq Require Import ZifyBool ZifyNat.
From Verif Require Import Base Num StepPattern Window Core Backtrack Spec CoreProof.
Open Scope list_scope.
Open Scope Z_scope.

Section DP.
Context {N : Num}.
Variable L : NumLaws N.

(** ** Charges *)

Section Charge.
Variable lmf : nat -> nat -> N.

Let chg (i j : nat) (l : list (nat * nat * N)) (c : N) : N :=
  fold_left (fun c a => macc c (snd a) (lmf (i - fst (fst a))%nat (j - snd (fst a))%nat)) l c.

Lemma chg_good i j l c : good (chg i j l c) -> good c.
Proof.
  revert c. induction l as [|a l IH]; intros c H; [exact H|].
  apply IH in H. eapply (law_macc_good _ L); eauto.
Qed.
Lemma chg_nan i j l c : isnan c = true -> isnan (chg i j l c) = true.
Proof.
  revert c. induction l as [|a l IH]; intros c H; [exact H|].
  apply IH. apply (law_nan_macc _ L). exact H.
Qed.
Lemma chg_mono i j l a b : leb a b = true -> good (chg i j l b) ->
  leb (chg i j l a) (chg i j l b) = true.
Proof.
  revert a b. induction l as [|x l IH]; intros a b H G; [exact H|].
  simpl. apply IH; [|exact G]. apply (law_macc_mono _ L); [exact H|].
  apply (chg_good i j l) in G. exact G.
Qed.

Lemma charge_good r i j c : good (charge lmf r i j c) -> good c.
Proof. apply chg_good. Qed.
Lemma charge_nan r i j c : isnan c = true -> isnan (charge lmf r i j c) = true.
Proof. apply chg_nan. Qed.
Lemma charge_mono r i j a b : leb a b = true -> good (charge lmf r i j b) ->
  leb (charge lmf r i j a) (charge lmf r i j b) = true.
Proof. apply chg_mono. Qed.
End Charge.

Lemma le_good a b : leb a b = true -> good b -> @good N a.
Proof. intros H G. unfold good in *. eapply (law_le_lt_trans _ L); eauto. Qed.

(** ** General facts on walks *)
Section WalkFacts.
Variables (rules : list (rule N)) (lmf : nat -> nat -> N) (n m : nat).

Lemma walk_mono (source source' : nat -> nat -> option N) (allowed allowed' : nat -> nat -> Prop) ks vs ts q c :
  (forall i j c, (i < n)%nat -> (j < m)%nat -> source i j = Some c -> source' i j = Some c) ->
  (forall i j, (i < n)%nat -> (j < m)%nat -> allowed i j -> allowed' i j) ->
  walk rules lmf n m source allowed ks vs ts q c ->
  walk rules lmf n m source' allowed' ks vs ts q c.
Proof.
  intros Hs Ha. induction 1.
  - constructor; auto.
  - econstructor; eauto.
Qed.

Lemma walk_in_range source allowed ks vs ts q c :
  walk rules lmf n m source allowed ks vs ts q c -> (fst q < n)%nat /\ (snd q < m)%nat.
Proof. induction 1; simpl; auto. Qed.

Lemma rule_no_in k r : rule_no rules k = Some r -> In r rules.
Proof. destruct k; simpl; [discriminate|]. apply nth_error_In. Qed.

Lemma usable_prefix i j (r : rule N) ks c k :
  usable (ks ++ [k]) (charge lmf r i j c) -> good c /\ usable ks c.
Proof.
  intros [H1 H2]. assert (G : good (charge lmf r i j c)) by (apply H2; destruct ks; discriminate).
  apply charge_good in G. split; [exact G|]. split; [|auto]. apply (law_good_not_nan _ L). exact G.
Qed.

Lemma walk_last source allowed ks vs ts q c :
  walk rules lmf n m source allowed ks vs ts q c ->
  (exists vs', vs = vs' ++ [q]) /\ (exists ts', ts = ts' ++ [q]).
Proof.
  induction 1.
  - split; exists []; reflexivity.
  - split; [exists vs; reflexivity|].
    exists (ts ++ inner_points r (i0 + r_di r) (j0 + r_dj r)). rewrite app_assoc. reflexivity.
Qed.
End WalkFacts.

(** ** Optimality *)
Section Opt.
Variables (rules : list (rule N)) (n m : nat) (lmf seed : nat -> nat -> N) (win : nat -> nat -> bool).
Variables (cmf : nat -> nat -> N) (smf : nat -> nat -> Z).
Hypothesis Hrules : forallb valid_rule rules = true.
Hypothesis HB : bellman rules n m lmf seed win cmf smf.

Definition src (i j : nat) : option N := if isnan (seed i j) then None else Some (seed i j).
Definition alw (i j : nat) : Prop := isnan (seed i j) = true /\ win i j = true.

Notation wk := (walk rules lmf n m src alw).

Lemma valid_in r : In r rules -> valid_rule r = true.
Proof. rewrite forallb_forall in Hrules. auto. Qed.

Lemma lower_bound ks vs ts q c : wk ks vs ts q c -> usable ks c ->
  isnan (cmf (fst q) (snd q)) = false /\ leb (cmf (fst q) (snd q)) c = true /\
  (ks <> [] -> good (cmf (fst q) (snd q))).
Proof.
  induction 1 as [i j c Hs Hi Hj | ks vs ts i0 j0 c k r Hw IH Hk Hi Hj Ha]; intros Hu.
  - simpl. unfold src in Hs. destruct (isnan (seed i j)) eqn:E; [discriminate|]. inversion Hs; subst c.
    pose proof (HB i j Hi Hj) as C. unfold cell_eq in C. rewrite E in C. simpl in C.
    destruct C as [C _]. rewrite C. repeat split; auto; [|intros []; reflexivity].
    apply (law_le_refl _ L). exact E.
  - destruct (usable_prefix lmf _ _ r ks c k Hu) as [Gc Hu'].
    specialize (IH Hu'). destruct IH as [N0 [L0 _]]. simpl fst in *. simpl snd in *.
    destruct Hu as [_ Hu]. assert (G : good (charge lmf r (i0 + r_di r) (j0 + r_dj r) c))
      by (apply Hu; destruct ks; discriminate).
    pose proof (HB _ _ Hi Hj) as C. destruct Ha as [Ha1 Ha2]. unfold cell_eq in C.
    rewrite Ha1, Ha2 in C. simpl in C. destruct C as [l [a [[Hl Hc] [Hmin Hres]]]].
    destruct k as [|k]; [discriminate|]. simpl in Hk.
    destruct (Hc k r Hk) as [v [Hv1 Hv2]].
    unfold cand_is in Hv2.
    replace (Nat.leb (r_di r) (i0 + r_di r) && Nat.leb (r_dj r) (j0 + r_dj r))%bool with true in Hv2 by lia.
    replace (i0 + r_di r - r_di r)%nat with i0 in Hv2 by lia.
    replace (j0 + r_dj r - r_dj r)%nat with j0 in Hv2 by lia.
    assert (Lv : leb v (charge lmf r (i0 + r_di r) (j0 + r_dj r) c) = true)
      by (subst v; apply charge_mono; assumption).
    assert (Gv : good v) by (eapply le_good; eauto).
    destruct Hmin as [[_ Hno]|[k' [x [Ea [Hx [Gx [Hle _]]]]]]].
    + exfalso. exact (Hno k v Hv1 Gv).
    + destruct Hres as [[E _]|[k'' [E1 [E2 _]]]]; [lia|].
      assert (k'' = k') by lia. subst k''. rewrite Hx in E2. inversion E2 as [E3].
      split; [rewrite <- E3; apply (law_good_not_nan _ L); exact Gx|].
      split.
      * eapply (law_le_trans _ L); [|exact Lv]. rewrite <- E3; eapply Hle; eauto.
      * intros _. rewrite <- E3. exact Gx.
Qed.

(** What the solution holds at a cell that is not NaN. *)
Lemma cell_cases i j : (i < n)%nat -> (j < m)%nat -> isnan (cmf i j) = false ->
  (src i j = Some (cmf i j) /\ smf i j = INT_MIN) \/
  (exists k r, rule_no rules k = Some r /\ (r_di r <= i)%nat /\ (r_dj r <= j)%nat /\
     alw i j /\ smf i j = Z.of_nat k /\ good (cmf i j) /\
     isnan (cmf (i - r_di r)%nat (j - r_dj r)%nat) = false /\
     cmf i j = charge lmf r i j (cmf (i - r_di r)%nat (j - r_dj r)%nat)).
Proof.
  intros Hi Hj Hn. pose proof (HB i j Hi Hj) as C. unfold cell_eq in C. unfold src, alw.
  destruct (isnan (seed i j)) eqn:Es; cbn [negb] in C.
  - right. destruct (win i j) eqn:Ew; cbn [negb] in C.
    + destruct C as [l [a [[Hl Hc] [Hmin Hres]]]].
      destruct Hres as [[_ [E _]]|[k [Ea [Hk Hs]]]]; [congruence|].
      destruct Hmin as [[E _]|[k' [x [Ea' [Hx [Gx _]]]]]]; [lia|].
      assert (k' = k) by lia. subst k'. rewrite Hk in Hx. inversion Hx as [E3].
      destruct (nth_error rules k) as [r|] eqn:Er.
      2:{ apply nth_error_None in Er. 
          assert (k < List.length l)%nat by (apply nth_error_Some; congruence). lia. }
      destruct (Hc k r Er) as [v [Hv1 Hv2]]. rewrite Hk in Hv1. inversion Hv1; subst v.
      unfold cand_is in Hv2.
      destruct (Nat.leb (r_di r) i && Nat.leb (r_dj r) j)%bool eqn:El; [|congruence].
      exists (S k), r. split; [exact Er|]. split; [lia|]. split; [lia|].
      split; [auto|]. split; [lia|]. split; [congruence|]. split; [|exact Hv2].
      apply Bool.not_true_is_false. intros Hnn. rewrite Hv2 in Hn.
      rewrite charge_nan in Hn by exact Hnn. discriminate.
    + destruct C as [C _]. congruence.
  - left. destruct C as [C1 C2]. split; congruence.
Qed.

Lemma attained i j : (i < n)%nat -> (j < m)%nat -> isnan (cmf i j) = false ->
  exists ks vs ts, wk ks vs ts (i, j) (cmf i j) /\ usable ks (cmf i j).
Proof.
  remember (i + j)%nat as s eqn:Es. revert i j Es.
  induction s as [s IH] using (well_founded_induction lt_wf). intros i j -> Hi Hj Hn.
  destruct (cell_cases i j Hi Hj Hn) as [[Hs _]|[k [r [Hk [Hdi [Hdj [Ha [_ [G [Hn' E]]]]]]]]]].
  - exists [], [(i, j)], [(i, j)]. split; [constructor; auto|]. split; [exact Hn|intros []; reflexivity].
  - pose proof (valid_in r (rule_no_in _ _ _ Hk)) as Hv.
    destruct (IH (i - r_di r + (j - r_dj r))%nat) with (i := (i - r_di r)%nat) (j := (j - r_dj r)%nat)
      as [ks [vs [ts [Hw _]]]]; try lia; auto.
    { unfold valid_rule in Hv. lia. }
    exists (ks ++ [k]), (vs ++ [(i, j)]), (ts ++ inner_points r i j ++ [(i, j)]).
    split; [|split; auto].
    pose proof (walk_step rules lmf n m src alw ks vs ts _ _ _ k r Hw Hk) as W.
    replace (i - r_di r + r_di r)%nat with i in W by lia.
    replace (j - r_dj r + r_dj r)%nat with j in W by lia.
    rewrite <- E in W. auto.
Qed.

Theorem dp_optimal i j : (i < n)%nat -> (j < m)%nat ->
  (isnan (cmf i j) = false -> is_optimum rules lmf n m src alw (i, j) (cmf i j)) /\
  (isnan (cmf i j) = true -> forall ks vs ts c, wk ks vs ts (i, j) c -> ~ usable ks c).
Proof.
  intros Hi Hj. split.
  - intros Hn. split; [apply attained; auto|].
    intros ks vs ts c' Hw Hu. apply (lower_bound ks vs ts (i, j) c' Hw Hu).
  - intros Hn ks vs ts c Hw Hu. destruct (lower_bound ks vs ts (i, j) c Hw Hu) as [H _].
    simpl in H. congruence.
Qed.

End Opt.

(** ** Reading the table back *)

Lemma np_int64_ofN (k : nat) : Z.of_nat k <= INT_MAX -> np_int64 (@ofN N k) = Z.of_nat k.
Proof.
  intros H. unfold np_int64, ofN. unfold INT_MAX in H.
  rewrite (law_trunc_ofZ _ L) by (rewrite Z.abs_eq by lia; change (2^53) with 9007199254740992; lia).
  unfold INT64_MIN. destruct (_ && _) eqn:E; [reflexivity|lia].
Qed.

Lemma ofN_eqb (a b : nat) : Z.of_nat a <= INT_MAX -> Z.of_nat b <= INT_MAX ->
  eqb (@ofN N a) (ofN b) = Nat.eqb a b.
Proof.
  intros Ha Hb. unfold ofN. unfold INT_MAX in *.
  rewrite (law_eq_ofZ _ L) by (rewrite Z.abs_eq by lia; change (2^53) with 9007199254740992; lia). lia.
Qed.

Lemma ofN_ltb (a b : nat) : Z.of_nat a <= INT_MAX -> Z.of_nat b <= INT_MAX ->
  ltb (@ofN N a) (ofN b) = Nat.ltb a b.
Proof.
  intros Ha Hb. unfold ofN. unfold INT_MAX in *.
  rewrite (law_lt_ofZ _ L) by (rewrite Z.abs_eq by lia; change (2^53) with 9007199254740992; lia). lia.
Qed.

Lemma ofN_nan (a : nat) : Z.of_nat a <= INT_MAX -> isnan (@ofN N a) = false.
Proof.
  intros Ha. apply (law_fin_not_nan _ L). unfold ofN. apply (law_fin_ofZ _ L).
  unfold INT_MAX in *. rewrite Z.abs_eq by lia. change (2^53) with 9007199254740992. lia.
Qed.

Lemma np_max_from_app (acc : N) l l' : np_max_from acc (l ++ l') = np_max_from (np_max_from acc l) l'.
Proof. revert acc. induction l; intros; simpl; auto. Qed.

Lemma np_max_same k (l : list (nat * nat * N)) : Z.of_nat k <= INT_MAX ->
  np_max_from (ofN k) (map (fun _ => @ofN N k) l) = ofN k.
Proof.
  intros Hk. induction l as [|a l IH]; [reflexivity|]. simpl.
  rewrite (ofN_nan k Hk). rewrite (law_lt_irrefl _ L). exact IH.
Qed.

Lemma np_max_table k a (rules : list (rule N)) :
  Z.of_nat k + Z.of_nat (List.length rules) <= INT_MAX ->
  (a < k)%nat ->
  np_max_from (ofN a) (map c0 (table_from k rules)) =
  ofN (match rules with [] => a | _ => k + List.length rules - 1 end)%nat.
Proof.
  revert k a. induction rules as [|r rs IH]; intros k a Hk Ha; [reflexivity|].
  cbn [table_from List.length] in *. rewrite map_app, np_max_from_app.
  unfold rule_rows. cbn [map c0 np_max_from]. rewrite map_map. cbn [c0].
  rewrite !ofN_nan by lia. rewrite ofN_ltb by lia.
  destruct (Nat.ltb_spec a k); [|lia].
  rewrite np_max_same by lia. rewrite IH by lia. f_equal. destruct rs; simpl List.length; lia.
Qed.

Lemma n_patterns_rules (s : steppat N) rules : pattern_rules s rules ->
  get_n_patterns s = Ok (Z.of_nat (List.length rules)).
Proof.
  intros [Hm [Hne [Hv [Hf1 Hf2]]]]. unfold get_n_patterns. rewrite Hm.
  pose proof (table_length_ge 1 rules) as Hl. unfold table in *. unfold INT_MAX in *.
  destruct rules as [|r rs]; [congruence|]. cbn [List.length] in *.
  assert (E : np_max (map c0 (table_from 1 (r :: rs))) = Ok (ofN (List.length (r :: rs)))).
  { cbn [table_from rule_rows map c0 app np_max].
    rewrite map_app, map_map. cbn [c0]. rewrite np_max_from_app.
    rewrite np_max_same by (unfold INT_MAX; lia).
    rewrite np_max_table by (unfold INT_MAX; lia). do 2 f_equal.
    destruct rs; simpl List.length; lia. }
  rewrite E. cbn [bind List.length]. unfold ofN.
  rewrite (law_trunc_ofZ _ L); [reflexivity|]. change (2^53) with 9007199254740992. lia.
Qed.

Definition offs (l : list (nat * nat * N)) : list (nat * nat) :=
  map fst (filter (fun a => negb ((fst (fst a) =? 0)%nat && (snd (fst a) =? 0)%nat)) l).

Lemma drop_null_rule k (r : rule N) :
  valid_rule r = true -> Z.of_nat (r_di r) <= INT_MAX -> Z.of_nat (r_dj r) <= INT_MAX ->
  drop_null (rule_rows k r) =
  Row (ofN k) (ofN (r_di r)) (ofN (r_dj r)) (ofZ (-1)) ::
  map (fun a => Row (ofN k) (ofN (fst (fst a))) (ofN (snd (fst a))) (snd a))
      (filter (fun a => negb ((fst (fst a) =? 0)%nat && (snd (fst a) =? 0)%nat)) (r_add r)).
Proof.
  intros Hv Hi Hj. unfold drop_null, rule_rows. cbn [filter c1 c2].
  change (@ofZ N 0) with (@ofN N 0). rewrite !ofN_eqb by (unfold INT_MAX in *; lia).
  unfold valid_rule in Hv. apply andb_prop in Hv. destruct Hv as [Hv _].
  apply andb_prop in Hv. destruct Hv as [Hz Hg].
  replace (negb (Nat.eqb (r_di r) 0) || negb (Nat.eqb (r_dj r) 0)) with true by lia.
  f_equal.
  assert (Hin : forall a, In a (r_add r) -> (fst (fst a) <= r_di r)%nat /\ (snd (fst a) <= r_dj r)%nat)
    by (intros a; apply going_down_le; exact Hg).
  clear Hg. induction (r_add r) as [|a l IH]; [reflexivity|]. cbn [map filter c1 c2].
  destruct (Hin a (or_introl eq_refl)).
  rewrite !ofN_eqb by (unfold INT_MAX in *; lia).
  rewrite IH by (intros b Hb; apply Hin; right; exact Hb).
  destruct (Nat.eqb (fst (fst a)) 0), (Nat.eqb (snd (fst a)) 0); reflexivity.
Qed.

Lemma filter_rule_id k q (r : rule N) l : Z.of_nat k <= INT_MAX -> Z.of_nat q <= INT_MAX ->
  filter (fun x => eqb (c0 x) (@ofN N q))
    (Row (ofN k) (ofN (r_di r)) (ofN (r_dj r)) (ofZ (-1)) ::
     map (fun a : nat * nat * N => Row (ofN k) (ofN (fst (fst a))) (ofN (snd (fst a))) (snd a)) l) =
  if Nat.eqb k q then
    (Row (ofN k) (ofN (r_di r)) (ofN (r_dj r)) (ofZ (-1)) ::
     map (fun a : nat * nat * N => Row (ofN k) (ofN (fst (fst a))) (ofN (snd (fst a))) (snd a)) l)
  else [].
Proof.
  intros Hk Hq. cbn [filter c0]. rewrite ofN_eqb by assumption.
  assert (E : filter (fun x => eqb (c0 x) (@ofN N q))
     (map (fun a : nat * nat * N => Row (ofN k) (ofN (fst (fst a))) (ofN (snd (fst a))) (snd a)) l)
     = if Nat.eqb k q then map (fun a : nat * nat * N => Row (ofN k) (ofN (fst (fst a))) (ofN (snd (fst a))) (snd a)) l else []).
  { induction l as [|a l IH]; cbn [map filter c0]; [destruct (Nat.eqb k q); reflexivity|].
    rewrite ofN_eqb by assumption. rewrite IH. destruct (Nat.eqb k q); reflexivity. }
  rewrite E. destruct (Nat.eqb k q); reflexivity.
Qed.

Lemma steps_of_table k (rules : list (rule N)) q r :
  forallb valid_rule rules = true ->
  Forall (fun r => Z.of_nat (r_di r) <= INT_MAX /\ Z.of_nat (r_dj r) <= INT_MAX) rules ->
  Z.of_nat k + Z.of_nat (List.length rules) <= INT_MAX ->
  nth_error rules q = Some r ->
  steps_of (drop_null (table_from k rules)) (Z.of_nat (k + q)) =
  rev (map (fun d => (Z.of_nat (fst d), Z.of_nat (snd d))) ((r_di r, r_dj r) :: offs (r_add r))).
Proof.
  unfold steps_of. intros Hv Hf Hk Hq. f_equal.
  change (@ofZ N (Z.of_nat (k + q))) with (@ofN N (k + q)).
  revert k q Hk Hq.
  assert (Hout : forall rs k q, (q < k)%nat -> Z.of_nat k + Z.of_nat (List.length rs) <= INT_MAX ->
     forallb valid_rule rs = true ->
     Forall (fun r => Z.of_nat (r_di r) <= INT_MAX /\ Z.of_nat (r_dj r) <= INT_MAX) rs ->
     filter (fun x => eqb (c0 x) (@ofN N q)) (drop_null (table_from k rs)) = []).
  { clear - L. intros rs. induction rs as [|r rs IH]; intros k q Hq Hk Hv Hf; [reflexivity|].
    simpl in Hv. apply andb_prop in Hv. destruct Hv as [Hv1 Hv2].
    inversion Hf as [|? ? [Hd1 Hd2] Hf']; subst. cbn [List.length] in Hk.
    cbn [table_from]. unfold drop_null at 1. rewrite filter_app. fold (@drop_null N (rule_rows k r)).
    fold (@drop_null N (table_from (S k) rs)).
    rewrite filter_app, drop_null_rule by assumption. rewrite filter_rule_id by lia.
    destruct (Nat.eqb_spec k q); [lia|]. simpl. apply IH; auto; lia. }
  induction rules as [|r0 rs IH]; intros k q Hk Hq; [destruct q; discriminate|].
  simpl in Hv. apply andb_prop in Hv. destruct Hv as [Hv1 Hv2].
  inversion Hf as [|? ? [Hd1 Hd2] Hf']; subst. cbn [List.length] in Hk.
  cbn [table_from]. unfold drop_null at 1. rewrite filter_app. fold (@drop_null N (rule_rows k r0)).
  fold (@drop_null N (table_from (S k) rs)).
  rewrite filter_app, map_app, drop_null_rule by assumption.
  rewrite filter_rule_id.
  2:{ lia. }
  2:{ destruct q; simpl in Hq. lia.
      assert (q < List.length rs)%nat by (apply nth_error_Some; congruence). lia. }
  destruct q as [|q]; simpl in Hq.
  - inversion Hq; subst r0. rewrite Nat.add_0_r. rewrite Nat.eqb_refl.
    rewrite (Hout rs (S k) k) by (auto; lia). rewrite app_nil_r.
    cbn [map c1 c2 fst snd]. rewrite !np_int64_ofN by assumption. f_equal.
    unfold offs. rewrite !map_map. cbn [c1 c2].
    assert (Hin : forall a, In a (r_add r) -> (fst (fst a) <= r_di r)%nat /\ (snd (fst a) <= r_dj r)%nat).
    { intros a; apply going_down_le. unfold valid_rule in Hv1. apply andb_prop in Hv1.
      destruct Hv1 as [Hv1 _]. apply andb_prop in Hv1. apply Hv1. }
    apply map_ext_in. intros a Ha. apply filter_In in Ha. destruct Ha as [Ha _].
    destruct (Hin a Ha). rewrite !np_int64_ofN by lia. reflexivity.
  - destruct (Nat.eqb_spec k (k + S q)); [lia|]. cbn [map app].
    replace (k + S q)%nat with (S k + q)%nat by lia. apply IH; auto. lia.
Qed.

Lemma stepsCache_rules (s : steppat N) rules k r : pattern_rules s rules ->
  rule_no rules k = Some r ->
  stepsCache s (Z.of_nat (List.length rules)) (Z.of_nat k) =
  Ok (rev (map (fun d => (Z.of_nat (fst d), Z.of_nat (snd d))) ((r_di r, r_dj r) :: offs (r_add r)))).
Proof.
  intros [Hm [Hne [Hv [Hf1 Hf2]]]] Hk. destruct k as [|k]; [discriminate|]. simpl in Hk.
  assert (k < List.length rules)%nat by (apply nth_error_Some; congruence).
  unfold stepsCache.
  replace ((1 <=? Z.of_nat (S k)) && (Z.of_nat (S k) <=? Z.of_nat (List.length rules))) with true by lia.
  rewrite Hm. f_equal. change (S k) with (1 + k)%nat. apply steps_of_table; auto.
  pose proof (table_length_ge 1 rules) as Hl. unfold table in *. unfold INT_MAX in *. lia.
Qed.

(** ** Backtracking *)

Lemma fold_prepend {A B} (f : A -> B) l acc :
  fold_left (fun l d => f d :: l) (rev l) acc = map f l ++ acc.
Proof.
  rewrite <- fold_left_rev_right. rewrite rev_involutive.
  induction l; simpl; congruence.
Qed.

Section Back.
Variables (rules : list (rule N)) (s : steppat N) (n m : nat) (lmf seed : nat -> nat -> N) (win : nat -> nat -> bool).
Variables (cmf : nat -> nat -> N) (smf : nat -> nat -> Z) (sm : mat Z).
Hypothesis Hp : pattern_rules s rules.
Hypothesis HB : bellman rules n m lmf seed win cmf smf.
Hypothesis Hnr : nr sm = n.
Hypothesis Hnc : nc sm = m.
Hypothesis Hsm : reps n m (dat sm) smf.

Notation wk := (walk rules lmf n m (src seed) (alw seed win)).

Lemma get_sm i j : (i < n)%nat -> (j < m)%nat ->
  py_get2 sm (Z.of_nat i) (Z.of_nat j) = Ok (smf i j).
Proof.
  intros Hi Hj. unfold py_get2, py_index. rewrite Hnr, Hnc.
  destruct ((0 <=? Z.of_nat i) && (Z.of_nat i <? Z.of_nat n)) eqn:E1; [|lia].
  destruct ((0 <=? Z.of_nat j) && (Z.of_nat j <? Z.of_nat m)) eqn:E2; [|lia].
  cbn [bind]. rewrite !Nat2Z.id. unfold mget. rewrite Hnr, Hnc.
  destruct (Nat.ltb_spec i n), (Nat.ltb_spec j m); try lia. cbn [andb].
  rewrite (proj2 Hsm i j Hi Hj). reflexivity.
Qed.

Lemma backtrack_loop_ok i j : (i < n)%nat -> (j < m)%nat -> isnan (cmf i j) = false ->
  (* no production can be applied at the origin *)
  exists ks vs ts, wk ks (vs ++ [(i, j)]) (ts ++ [(i, j)]) (i, j) (cmf i j) /\
    usable ks (cmf i j) /\ (List.length ks <= i + j)%nat /\
    forall fuel acc, (i + j < fuel)%nat ->
      backtrack_loop fuel s (Z.of_nat (List.length rules)) sm (Z.of_nat i) (Z.of_nat j) acc =
      Ok (Mapping (map query_ix ts ++ index1 acc) (map ref_ix ts ++ index2 acc)
                  (map query_ix vs ++ index1s acc) (map ref_ix vs ++ index2s acc)
                  (map Z.of_nat ks ++ stepsTaken acc)).
Proof.
  assert (Hrules : forallb valid_rule rules = true) by apply Hp.
  remember (i + j)%nat as t eqn:Es. revert i j Es.
  induction t as [t IH] using (well_founded_induction lt_wf). intros i j -> Hi Hj Hn.
  destruct (cell_cases rules n m lmf seed win cmf smf Hrules HB i j Hi Hj Hn)
    as [[Hs Hd]|[k [r [Hk [Hdi [Hdj [Ha [Hd [G [Hn' E]]]]]]]]]].
  - exists [], [], []. split; [constructor; auto|].
    split; [split; [exact Hn|intros []; reflexivity]|]. split; [simpl; lia|].
    intros [|fuel] acc Hf; [lia|]. cbn [backtrack_loop].
    destruct acc as [a1 a2 a3 a4 a5]. cbn.
    destruct ((Z.of_nat i =? 0) && (Z.of_nat j =? 0)); [reflexivity|].
    rewrite get_sm by assumption. cbn [bind]. rewrite Hd. reflexivity.
  - pose proof (valid_in rules Hrules r (rule_no_in _ _ _ Hk)) as Hv.
    assert (Hnz : (0 < r_di r + r_dj r)%nat) by (unfold valid_rule in Hv; lia).
    destruct (IH (i - r_di r + (j - r_dj r))%nat) with (i := (i - r_di r)%nat) (j := (j - r_dj r)%nat)
      as [ks [vs [ts [Hw [_ [Hlen Hbt]]]]]]; try lia; auto.
    exists (ks ++ [k]), (vs ++ [(i - r_di r, j - r_dj r)%nat]),
      (ts ++ [(i - r_di r, j - r_dj r)%nat] ++ inner_points r i j).
    split; [|split; [split; auto|split]].
    + pose proof (walk_step rules lmf n m (src seed) (alw seed win) ks _ _ _ _ _ k r Hw Hk) as W.
      replace (i - r_di r + r_di r)%nat with i in W by lia.
      replace (j - r_dj r + r_dj r)%nat with j in W by lia.
      rewrite <- E in W. rewrite <- !app_assoc in *. apply W; auto.
    + rewrite app_length. simpl. lia.
    + intros [|fuel] acc Hf; [lia|]. cbn [backtrack_loop].
      destruct ((Z.of_nat i =? 0) && (Z.of_nat j =? 0)) eqn:E0; [lia|].
      rewrite get_sm by assumption. cbn [bind]. rewrite Hd.
      destruct (Z.of_nat k =? INT_MIN) eqn:Ek; [unfold INT_MIN in *; lia|].
      rewrite (stepsCache_rules s rules k r Hp Hk). cbn [bind].
      rewrite rev_involutive. cbn [map]. cbn [fst snd].
      change ((Z.of_nat (r_di r), Z.of_nat (r_dj r)) ::
         map (fun d : nat * nat => (Z.of_nat (fst d), Z.of_nat (snd d))) (offs (r_add r)))
       with (map (fun d : nat * nat => (Z.of_nat (fst d), Z.of_nat (snd d))) ((r_di r, r_dj r) :: offs (r_add r))).
      rewrite (fold_prepend (fun d => Z.of_nat i - fst d)), (fold_prepend (fun d => Z.of_nat j - snd d)).
      rewrite !map_map. cbn [fst snd].
      replace (Z.of_nat i - Z.of_nat (r_di r)) with (Z.of_nat (i - r_di r)) by lia.
      replace (Z.of_nat j - Z.of_nat (r_dj r)) with (Z.of_nat (j - r_dj r)) by lia.
      rewrite Hbt by lia. cbn [index1 index2 index1s index2s stepsTaken].
      assert (Hin : forall a, In a (r_add r) -> (fst (fst a) <= r_di r)%nat /\ (snd (fst a) <= r_dj r)%nat).
      { intros a; apply going_down_le. unfold valid_rule in Hv. apply andb_prop in Hv.
        destruct Hv as [Hv _]. apply andb_prop in Hv. apply Hv. }
      rewrite !map_app. cbn [map]. cbn [app]. rewrite <- !app_assoc. cbn [app].
      f_equal. f_equal.
      * f_equal. unfold query_ix at 2. cbn [fst].
        replace (Z.of_nat i - Z.of_nat (r_di r)) with (Z.of_nat (i - r_di r)) by lia. f_equal. f_equal.
        unfold offs, inner_points. rewrite !map_map. apply map_ext_in. intros a Ha'.
        apply filter_In in Ha'. destruct (Hin a (proj1 Ha')). unfold query_ix. cbn [fst snd]. lia.
      * f_equal. unfold ref_ix at 2. cbn [snd].
        replace (Z.of_nat j - Z.of_nat (r_dj r)) with (Z.of_nat (j - r_dj r)) by lia. f_equal. f_equal.
        unfold offs, inner_points. rewrite !map_map. apply map_ext_in. intros a Ha'.
        apply filter_In in Ha'. destruct (Hin a (proj1 Ha')). unfold ref_ix. cbn [fst snd]. lia.
Qed.

(** The mapping that describes a walk. *)
Definition mapping_of (ks : list nat) (vs ts : list point) : mapping :=
  Mapping (map query_ix ts) (map ref_ix ts) (map query_ix vs) (map ref_ix vs) (map Z.of_nat ks).

Lemma backtrack_ok j : (0 < n)%nat -> (j < m)%nat -> isnan (cmf (n - 1)%nat j) = false ->
  exists ks vs ts, wk ks vs ts ((n - 1)%nat, j) (cmf (n - 1)%nat j) /\
    usable ks (cmf (n - 1)%nat j) /\ (List.length ks <= n - 1 + j)%nat /\
    backtrack s sm (Z.of_nat j) = Ok (mapping_of ks vs ts).
Proof.
  intros Hn Hj Hc.
  destruct (backtrack_loop_ok (n - 1) j ltac:(lia) Hj Hc) as [ks [vs [ts [W [U [Hl B]]]]]].
  exists ks, (vs ++ [((n - 1)%nat, j)]), (ts ++ [((n - 1)%nat, j)]). split; [exact W|]. split; [exact U|].
  split; [exact Hl|].
  unfold backtrack. rewrite (n_patterns_rules s rules Hp). cbn [bind].
  rewrite Hnr, Hnc.
  replace (Z.of_nat n - 1) with (Z.of_nat (n - 1)) by lia. rewrite B by nia.
  cbn [index1 index2 index1s index2s stepsTaken]. unfold mapping_of. rewrite !map_app. cbn [map].
  rewrite app_nil_r. reflexivity.
Qed.
End Back.
End DP.
