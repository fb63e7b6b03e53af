(** Feas.v - existence of alignments (proofs). *)
From Coq Require Import ZifyBool ZifyNat.
From Verif Require Import Base Num StepPattern Window Core Backtrack Dtw Spec Api Tables Vocab Terms Bound
  CoreProof DPProof DtwProof ApiProof ApiThms WalkGeom Uniq Thm1 Thm2 Thm3 Thm4 Thm5.
Open Scope string_scope.
Open Scope list_scope.
Open Scope nat_scope.

(** At most three charges per production, weights at most 3 in absolute value. *)
Definition wlight (r : wrule) : bool :=
  (List.length (w_add r) <=? 3) &&
  forallb (fun a => wweight_ok (snd a) && (Z.abs (fst (snd a)) <=? 3 * snd (snd a))%Z) (w_add r).

Section Feas.
Context {N : Num}.
Variable L : NumLaws N.

(** ** Moderate costs never overflow *)
Section Mod.
Variable bnd : Z -> N -> Prop.
Variable BL : BoundLaws N bnd.

Lemma chg_bnd (cost : nat -> nat -> N) n m i j (adds : list (nat * nat * (Z * Z))) t c :
  (forall a b, a < n -> b < m -> bnd 1 (cost a b)) -> i < n -> j < m -> (0 <= t)%Z ->
  (t + 3 * Z.of_nat (List.length adds) <= 2 ^ 50)%Z ->
  forallb (fun a => wweight_ok (snd a) && (Z.abs (fst (snd a)) <=? 3 * snd (snd a))%Z) adds = true ->
  bnd t c ->
  bnd (t + 3 * Z.of_nat (List.length adds))
      (fold_left (fun c (a : nat * nat * N) => macc c (snd a) (cost (i - fst (fst a)) (j - snd (fst a))))
         (map (fun a => (fst a, weight (snd a))) adds) c).
Proof.
  intros Hc Hi Hj. revert t c. induction adds as [|a adds IH]; intros t c Ht Hl Hw Hb; cbn [map fold_left List.length] in *.
  - replace (t + 3 * Z.of_nat 0)%Z with t by lia. exact Hb.
  - cbn [forallb] in Hw. apply andb_prop in Hw. destruct Hw as [W1 W2]. apply andb_prop in W1. destruct W1 as [W0 W1].
    replace (t + 3 * Z.of_nat (S (List.length adds)))%Z with ((t + 3) + 3 * Z.of_nat (List.length adds))%Z by lia.
    apply IH; [lia|lia|exact W2|]. cbn [fst snd].
    apply (bl_macc _ _ BL); [lia|lia|exact Hb| |exact W0|apply Z.leb_le; exact W1].
    apply Hc; lia.
Qed.

Lemma walk_count (rules : list (rule N)) cost n m source allowed ks vs ts q c :
  forallb valid_rule rules = true -> walk rules cost n m source allowed ks vs ts q c ->
  List.length ks <= fst q + snd q.
Proof.
  intros Hv W. induction W as [i j c Hs Hi Hj|ks vs ts i0 j0 c k r W IH Hk Hi Hj Ha]; [cbn; lia|].
  rewrite app_length. cbn [List.length fst snd] in *. apply rule_no_In in Hk.
  rewrite forallb_forall in Hv. specialize (Hv _ Hk). unfold valid_rule in Hv.
  apply andb_prop in Hv. destruct Hv as [Hv _]. apply andb_prop in Hv. destruct Hv as [Hv _].
  destruct (Nat.eqb_spec (r_di r) 0), (Nat.eqb_spec (r_dj r) 0); cbn in Hv; try discriminate; lia.
Qed.

Lemma walk_bnd (l : list wrule) cost n m source allowed ks vs ts q c :
  forallb wlight l = true ->
  (forall a b, a < n -> b < m -> bnd 1 (cost a b)) ->
  (forall a b c, a < n -> b < m -> source a b = Some c -> bnd 1 c) ->
  walk (productions l) cost n m source allowed ks vs ts q c ->
  (1 + 9 * Z.of_nat (List.length ks) <= 2 ^ 50)%Z ->
  bnd (1 + 9 * Z.of_nat (List.length ks)) c.
Proof.
  intros Hl Hc Hs W. induction W as [i j c Hs0 Hi Hj|ks vs ts i0 j0 c k r W IH Hk Hi Hj Ha]; intros Hb.
  - apply (Hs i j c Hi Hj Hs0).
  - rewrite app_length in *. cbn [List.length] in *. specialize (IH ltac:(lia)).
    apply rule_no_In in Hk. apply in_map_iff in Hk. destruct Hk as [w [<- Hw]].
    rewrite forallb_forall in Hl. specialize (Hl _ Hw). unfold wlight in Hl. apply andb_prop in Hl. destruct Hl as [L1 L2].
    apply Nat.leb_le in L1.
    eapply (bl_mono _ _ BL); [|unfold charge; apply (chg_bnd cost n m _ _ (w_add w) (1 + 9 * Z.of_nat (List.length ks)))];
      try assumption; try lia.
Qed.

(** Every local cost is moderate. *)
Definition all_moderate (lm : mat N) : Prop :=
  forall i j, i < nr lm -> j < nc lm -> bnd 1 (cell lm i j).

Lemma admissible_usable ob (l : list wrule) (lm : mat N) w kw ks vs ts j c :
  wgood l -> forallb wlight l = true -> wf_mat lm -> all_moderate lm -> size_ok (rows_used ob lm) (nc lm) ->
  j < nc lm ->
  admissible ob (productions l) lm w kw ks vs ts (end_cell ob lm j) c -> usable ks c.
Proof.
  intros Hg Hl Hwf Hm Hz Hj W.
  assert (Hv : forallb valid_rule (@productions N l) = true).
  { apply (wgood_rules L l (StepPat (table (productions l)) "")); [exact Hg|reflexivity]. }
  assert (G : good c).
  { destruct Hz as [Z1 [Z2 Z3]]. unfold INT_MAX in Z3.
    assert (S1 : (Z.of_nat (rows_used ob lm) <= 2147483647)%Z /\ (Z.of_nat (nc lm) <= 2147483647)%Z) by nia.
    unfold rows_used in *.
    unfold admissible, end_cell in W. destruct ob.
    - pose proof (walk_count _ _ _ _ _ _ _ _ _ _ _ Hv W) as K. cbn [fst snd] in K.
      eapply (bl_good _ _ BL); [|eapply walk_bnd; [exact Hl| | |exact W|]].
      + change (2 ^ 50)%Z with 1125899906842624%Z. lia.
      + intros a b Ha Hb. rewrite padded_cell by assumption. destruct (Nat.eqb a 0) eqn:E0; [apply (bl_zero _ _ BL)|].
        apply Nat.eqb_neq in E0. apply Hm; lia.
      + intros a b c0 Ha Hb E. unfold open_source in E. destruct (a =? 0); [|discriminate]. injection E as <-. apply (bl_zero _ _ BL).
      + change (2 ^ 50)%Z with 1125899906842624%Z. lia.
    - pose proof (walk_count _ _ _ _ _ _ _ _ _ _ _ Hv W) as K. cbn [fst snd] in K.
      eapply (bl_good _ _ BL); [|eapply walk_bnd; [exact Hl| | |exact W|]].
      + change (2 ^ 50)%Z with 1125899906842624%Z. lia.
      + exact Hm.
      + intros a b c0 Ha Hb E. unfold closed_source in E. destruct (_ && _); [|discriminate]. injection E as <-. apply Hm; lia.
      + change (2 ^ 50)%Z with 1125899906842624%Z. lia. }
  split; [apply (law_good_not_nan _ L); exact G|auto].
Qed.

(** For moderate costs, an alignment is found exactly when a walk exists at all. *)
Theorem feasible_closed_end cdist x y o (lm : mat N) sp l w :
  well_posed cdist x y o lm sp (productions l) w -> wgood l -> forallb wlight l = true ->
  all_moderate lm -> o_open_end o = false ->
  ((exists d, dtw cdist x y o = Ok d) <->
   exists ks vs ts c, admissible (o_open_begin o) (productions l) lm w (o_window_args o) ks vs ts
                        (end_cell (o_open_begin o) lm (nc lm - 1)) c).
Proof.
  intros WP Hg Hl Hm He. pose proof (wp_size _ _ _ _ _ _ _ _ WP) as Hz.
  destruct (dtw_closed_end_iff L _ _ _ _ _ _ _ _ WP He) as [[H U]|[d [H [_ [_ [ks [vs [ts [c [W _]]]]]]]]]].
  - split; [intros [d Hd]; rewrite H in Hd; discriminate|].
    intros [ks [vs [ts [c W]]]]. exfalso. apply (U ks vs ts c W). eapply admissible_usable; eauto.
    + eapply costs_of_wf. apply WP.
    + destruct Hz as [_ [Hz _]]. lia.
  - split; [intros _; eauto 6|eauto].
Qed.
End Mod.

(** ** Reachable displacements *)
Section Reach.
Variable rules : list (rule N).

Definition has_move (a b : nat) : Prop := exists r, In r rules /\ r_di r = a /\ r_dj r = b.
Definition reach (a b : nat) : Prop := exists ks, known rules ks /\ target rules 0 0 ks = (a, b).

Lemma reach_0 : reach 0 0.
Proof. exists []. split; [intros k []|reflexivity]. Qed.

Lemma reach_step a b da db : has_move da db -> reach a b -> reach (a + da) (b + db).
Proof.
  intros [r [Hr [E1 E2]]] [ks [K T]]. destruct (In_rule_no _ _ Hr) as [k Hk]. exists (ks ++ [k]). split.
  - intros k' Hin. apply in_app_iff in Hin. destruct Hin as [Hin|[<-|[]]]; [apply K; exact Hin|eauto].
  - destruct (replay_snoc rules (fun _ _ => nan) 0 0 ks k r K Hk) as [E _]. rewrite E, T. cbn [fst snd]. congruence.
Qed.

Lemma reach_many k a b da db : has_move da db -> reach a b -> reach (a + k * da) (b + k * db).
Proof.
  intros H R. induction k as [|k IH]; [rewrite !Nat.add_0_r; exact R|].
  replace (a + S k * da) with (a + k * da + da) by lia. replace (b + S k * db) with (b + k * db + db) by lia.
  apply reach_step; assumption.
Qed.

Lemma reach_eq a b a' b' : reach a' b' -> a = a' -> b = b' -> reach a b.
Proof. intros H -> ->. exact H. Qed.

(** Moves of the families of patterns. *)
Lemma reach_free : has_move 1 0 -> has_move 0 1 -> forall a b, reach a b.
Proof.
  intros H1 H2 a b. eapply reach_eq; [eapply (reach_many b _ _ 0 1 H2), (reach_many a _ _ 1 0 H1), reach_0|lia|lia].
Qed.
Lemma reach_0_2 : has_move 1 0 -> has_move 1 1 -> has_move 1 2 -> forall a b, b <= 2 * a -> reach a b.
Proof.
  intros H0 H1 H2 a b Hb. destruct (le_lt_dec b a) as [Hle|Hlt].
  - eapply reach_eq; [eapply (reach_many (a - b) _ _ 1 0 H0), (reach_many b _ _ 1 1 H1), reach_0|lia|lia].
  - eapply reach_eq; [eapply (reach_many (b - a) _ _ 1 2 H2), (reach_many (2 * a - b) _ _ 1 1 H1), reach_0|lia|lia].
Qed.
Lemma reach_12_2 : has_move 1 1 -> has_move 1 2 -> has_move 2 1 -> forall a b, a <= 2 * b -> b <= 2 * a -> reach a b.
Proof.
  intros H1 H2 H3 a b Ha Hb. destruct (le_lt_dec b a) as [Hle|Hlt].
  - eapply reach_eq; [eapply (reach_many (a - b) _ _ 2 1 H3), (reach_many (2 * b - a) _ _ 1 1 H1), reach_0|lia|lia].
  - eapply reach_eq; [eapply (reach_many (b - a) _ _ 1 2 H2), (reach_many (2 * a - b) _ _ 1 1 H1), reach_0|lia|lia].
Qed.
Lemma reach_23_32 : has_move 1 1 -> has_move 2 3 -> has_move 3 2 -> forall a b, 2 * a <= 3 * b -> 2 * b <= 3 * a -> reach a b.
Proof.
  intros H1 H2 H3 a b Ha Hb. destruct (le_lt_dec b a) as [Hle|Hlt].
  - eapply reach_eq; [eapply (reach_many (a - b) _ _ 3 2 H3), (reach_many (3 * b - 2 * a) _ _ 1 1 H1), reach_0|lia|lia].
  - eapply reach_eq; [eapply (reach_many (b - a) _ _ 2 3 H2), (reach_many (3 * a - 2 * b) _ _ 1 1 H1), reach_0|lia|lia].
Qed.
Lemma reach_13_3 : has_move 1 1 -> has_move 1 2 -> has_move 1 3 -> has_move 2 1 -> has_move 3 1 ->
  forall a b, a <= 3 * b -> b <= 3 * a -> reach a b.
Proof.
  intros H1 H2 H3 H4 H5 a b Ha Hb. destruct (le_lt_dec b a) as [Hle|Hlt].
  - pose proof (Nat.div_mod (a - b) 2 ltac:(lia)) as E. pose proof (Nat.mod_upper_bound (a - b) 2 ltac:(lia)) as E2.
    set (u := (a - b) / 2) in *. set (v := (a - b) mod 2) in *.
    eapply reach_eq; [eapply (reach_many u _ _ 3 1 H5), (reach_many v _ _ 2 1 H4), (reach_many (b - u - v) _ _ 1 1 H1), reach_0|lia|lia].
  - pose proof (Nat.div_mod (b - a) 2 ltac:(lia)) as E. pose proof (Nat.mod_upper_bound (b - a) 2 ltac:(lia)) as E2.
    set (u := (b - a) / 2) in *. set (v := (b - a) mod 2) in *.
    eapply reach_eq; [eapply (reach_many u _ _ 1 3 H3), (reach_many v _ _ 1 2 H2), (reach_many (a - u - v) _ _ 1 1 H1), reach_0|lia|lia].
Qed.
Lemma reach_diag : has_move 1 1 -> forall a, reach a a.
Proof. intros H a. eapply reach_eq; [eapply (reach_many a _ _ 1 1 H), reach_0|lia|lia]. Qed.
Lemma reach_mvm e : (forall k, 1 <= k <= e -> has_move 1 k) -> forall a b, a <= b -> b <= e * a -> reach a b.
Proof.
  intros H. induction a as [|a IH]; intros b Ha Hb.
  - replace b with 0 by lia. apply reach_0.
  - destruct (le_lt_dec e (b - a)) as [Hle|Hlt].
    + eapply reach_eq; [apply (reach_step a (b - e) 1 e)|lia|lia]; [apply H; nia|apply IH; nia].
    + eapply reach_eq; [apply (reach_step a a 1 (b - a))|lia|lia]; [apply H; lia|apply IH; nia].
Qed.

(** Without a window every reachable displacement is realised by a walk. *)
Lemma target_le i j ks : fst (target rules i j ks) >= i /\ snd (target rules i j ks) >= j.
Proof.
  revert i j. induction ks as [|k ks IH]; intros i j; cbn [target]; [cbn; lia|].
  destruct (rule_no rules k) as [r|]; [|cbn; lia]. specialize (IH (i + r_di r) (j + r_dj r)). lia.
Qed.

Lemma walk_of_target cost n m source (allowed : nat -> nat -> Prop) i j c0 ks :
  source i j = Some c0 -> (forall a b, a < n -> b < m -> allowed a b) -> known rules ks ->
  fst (target rules i j ks) < n -> snd (target rules i j ks) < m ->
  exists vs ts c, walk rules cost n m source allowed ks vs ts (target rules i j ks) c.
Proof.
  intros Hs Ha. induction ks as [|k ks IH] using rev_ind; intros Hk Hn Hm.
  - cbn [target fst snd] in *. exists [(i, j)], [(i, j)], c0. constructor; assumption.
  - assert (K : known rules ks) by (intros k' H'; apply Hk, in_or_app; left; exact H').
    destruct (Hk k ltac:(apply in_or_app; right; left; reflexivity)) as [r Hr].
    destruct (replay_snoc rules cost i j ks k r K Hr) as [E _]. cbv zeta in E. rewrite E in *. cbn [fst snd] in *.
    destruct IH as [vs [ts [c W]]]; [exact K|lia|lia|].
    destruct (target rules i j ks) as [a b]. cbn [fst snd] in *.
    eexists _, _, _. eapply walk_step; [exact W|exact Hr|exact Hn|exact Hm|apply Ha; lia].
Qed.
End Reach.

Lemma reach_closed_walk rules (lm : mat N) kw : 0 < nr lm -> 0 < nc lm -> reach rules (nr lm - 1) (nc lm - 1) ->
  exists ks vs ts c, closed_walk rules lm NoWindow kw ks vs ts (nr lm - 1, nc lm - 1) c.
Proof.
  intros Hn Hm [ks [K T]].
  destruct (walk_of_target rules (cell lm) (nr lm) (nc lm) (closed_source lm) (in_window NoWindow kw (nr lm) (nc lm)) 0 0
     (cell lm 0 0) ks) as [vs [ts [c W]]]; auto.
  - intros; exact I.
  - rewrite T. cbn. lia.
  - rewrite T. cbn. lia.
  - rewrite T in W. eauto 6.
Qed.

Lemma closed_walk_reach rules (lm : mat N) w kw ks vs ts q c :
  closed_walk rules lm w kw ks vs ts q c -> reach rules (fst q) (snd q).
Proof.
  intros W. destruct (walk_replay _ _ _ _ _ _ _ _ _ _ _ W) as [i [j [c0 [Hs [Hi [Hj [K [E _]]]]]]]].
  unfold closed_source in Hs. destruct (Nat.eqb_spec i 0), (Nat.eqb_spec j 0); try discriminate. subst i j.
  exists ks. split; [exact K|]. rewrite <- E. destruct q; reflexivity.
Qed.

End Feas.
