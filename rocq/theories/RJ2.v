(** RJ2.v - the Rabiner-Juang patterns and the predefined ones; StepPattern.T(). *)
From Coq Require Import ZifyBool ZifyNat Permutation QArith Qcanon.
From Verif Require Import Base Num StepPattern Window Core Backtrack Dtw Spec Api Tables Vocab Terms
  DPProof DtwProof ApiProof ApiThms Thm1 Thm2 Thm3 Thm7 RJSpec RJ NumQ NumQLaws Thm11.
Open Scope string_scope.
Open Scope list_scope.
Open Scope nat_scope.


Lemma family_valid t : (1 <= t <= 7)%Z -> t = 1%Z \/ t = 2%Z \/ t = 3%Z \/ t = 4%Z \/ t = 5%Z \/ t = 6%Z \/ t = 7%Z.
Proof. lia. Qed.
Lemma weighting_cases s wt : weighting s = Some wt -> s = "a" \/ s = "b" \/ s = "c" \/ s = "d".
Proof.
  unfold weighting. destruct (String.eqb_spec s "a") as [->|_]; [auto|]. destruct (String.eqb_spec s "b") as [->|_]; [auto|].
  destruct (String.eqb_spec s "c") as [->|_]; [auto|]. destruct (String.eqb_spec s "d") as [->|_]; [auto|]. discriminate.
Qed.

Section RJ2.
Context {N : Num}.
Variable L : NumLaws N.

Lemma rj_build_from k fam s wt m : weighting s = Some wt ->
  Forall (fun steps => steps <> [] /\ fst (total steps) + snd (total steps) <= 100 /\ List.length steps <= 100) fam ->
  vstack (map (fun ps => @P_get N (fst ps) s m (snd ps)) (number_from (Z.of_nat k) (map zs fam))) =
  Ok (table_from k (map (fun st => production (chain wt m st)) fam)).
Proof.
  intros Hw. revert k. induction fam as [|st fam IH]; intros k H; [reflexivity|].
  apply Forall_cons_iff in H. destruct H as [[H1 [H2 H3]] H]. cbn [map number_from fst snd vstack table_from].
  rewrite (builder L k s wt m st Hw H1) by lia. cbn [bind].
  replace (Z.of_nat k + 1)%Z with (Z.of_nat (S k)) by lia. rewrite (IH (S k) H). reflexivity.
Qed.

(** The construction: every family, every weighting. *)
Theorem rj_pattern t s wt m : (1 <= t <= 7)%Z -> weighting s = Some wt ->
  exists sp, @rabinerJuangStepPattern N t s m = Ok sp /\ hint sp = rj_hint s /\
    pattern_rules sp (productions (rj_rules t wt m)).
Proof.
  intros Ht Hw.
  assert (B : @RJ_build N (map zs (family t)) s m = Ok (table (productions (rj_rules t wt m)))).
  { unfold RJ_build. change 1%Z with (Z.of_nat 1). rewrite (rj_build_from 1 (family t) s wt m Hw).
    - unfold table, productions, rj_rules. rewrite map_map. reflexivity.
    - assert (G : forallb (fun t => forallb (fun st => negb (Nat.eqb (List.length st) 0) &&
          (fst (total st) + snd (total st) <=? 100) && (List.length st <=? 100)) (family t)) [1;2;3;4;5;6;7]%Z = true)
        by (vm_compute; reflexivity).
      rewrite forallb_forall in G. specialize (G t ltac:(cbn [In]; lia)). rewrite forallb_forall in G.
      apply Forall_forall. intros st Hst. specialize (G st Hst).
      apply andb_prop in G. destruct G as [G G3]. apply andb_prop in G. destruct G as [G1 G2].
      apply Nat.leb_le in G2. apply Nat.leb_le in G3. split; [|split; assumption]. intros ->. discriminate. }
  exists (StepPat (table (productions (rj_rules t wt m))) (rj_hint s)). split; [|split; [reflexivity|]].
  - unfold rabinerJuangStepPattern.
    assert (F : match t with
          | 1%Z => Ok RJtypeI | 2%Z => Ok RJtypeII | 3%Z => Ok RJtypeIII
          | 4%Z => Ok RJtypeIV | 5%Z => Ok RJtypeV | 6%Z => Ok RJtypeVI
          | 7%Z => Ok RJtypeVII | _ => Raise TypeError
          end = Ok (map zs (family t))).
    { destruct (family_valid t Ht) as [->|[->|[->|[->|[->|[->| ->]]]]]]; reflexivity. }
    rewrite F. cbn [bind]. rewrite B. reflexivity.
  - apply (wgood_rules L); [|reflexivity].
    assert (G : match rj_rules t wt m with [] => false | _ => true end &&
       forallb wvalid (rj_rules t wt m) && (4 * Z.of_nat (wsize (rj_rules t wt m)) <=? INT_MAX)%Z = true).
    { destruct (weighting_cases s wt Hw) as [->|[->|[->| ->]]]; injection Hw as <-;
      destruct m; destruct (family_valid t Ht) as [->|[->|[->|[->|[->|[->| ->]]]]]]; vm_compute; reflexivity. }
    apply andb_prop in G. destruct G as [G G3]. apply andb_prop in G. destruct G as [G1 G2].
    split; [intros E; rewrite E in G1; discriminate|]. split; [exact G2|]. lia.
Qed.

Theorem rj_bad_type t s m : ~ (1 <= t <= 7)%Z -> @rabinerJuangStepPattern N t s m = Raise TypeError.
Proof.
  intros Ht. unfold rabinerJuangStepPattern.
  destruct t as [|p|p]; [reflexivity| |reflexivity].
  destruct p as [[[p|p|]|[p|p|]|]|[[p|p|]|[p|p|]|]|]; try reflexivity; lia.
Qed.
Theorem rj_bad_weighting t s m : (1 <= t <= 7)%Z -> weighting s = None ->
  @rabinerJuangStepPattern N t s m = Raise (ValueError "Unsupported subtype").
Proof.
  intros Ht Hs. unfold weighting in Hs.
  destruct (String.eqb s "a") eqn:A; [discriminate|]. destruct (String.eqb s "b") eqn:B; [discriminate|].
  destruct (String.eqb s "c") eqn:C; [discriminate|]. destruct (String.eqb s "d") eqn:D; [discriminate|].
  assert (G : forall k x rest, @RJ_build N (x :: rest) s m = Raise (ValueError "Unsupported subtype") /\ k = k :> Z).
  { intros k x rest. split; [|reflexivity]. unfold RJ_build. cbn [number_from map vstack fst snd].
    unfold P_get at 1. rewrite A, B, C, D. cbn [cumsum np_max bind map]. reflexivity. }
  unfold rabinerJuangStepPattern.
  destruct (family_valid t Ht) as [->|[->|[->|[->|[->|[->| ->]]]]]]; cbn [bind];
    unfold RJtypeI, RJtypeII, RJtypeIII, RJtypeIV, RJtypeV, RJtypeVI, RJtypeVII; rewrite (proj1 (G 0%Z _ _)); reflexivity.
Qed.

(** ** The predefined patterns are instances of the construction *)

Fixpoint remove_one (r : wrule) (l : list wrule) : option (list wrule) :=
  match l with
  | [] => None
  | x :: l' => if wrule_eqb r x then Some l' else option_map (cons x) (remove_one r l')
  end.
Fixpoint perm_b (l l' : list wrule) : bool :=
  match l with
  | [] => match l' with [] => true | _ => false end
  | x :: l0 => match remove_one x l' with Some l1 => perm_b l0 l1 | None => false end
  end.
Lemma remove_one_perm r l l' : remove_one r l = Some l' -> Permutation (r :: l') l.
Proof.
  revert l'. induction l as [|x l IH]; intros l'; [discriminate|]. cbn [remove_one].
  destruct (wrule_eqb r x) eqn:E.
  - apply wrule_eqb_eq in E. subst. intros H. injection H as <-. reflexivity.
  - destruct (remove_one r l) as [l1|]; [|discriminate]. intros H. injection H as <-.
    rewrite perm_swap. constructor. apply IH. reflexivity.
Qed.
Lemma perm_b_ok l l' : perm_b l l' = true -> Permutation l l'.
Proof.
  revert l'. induction l as [|x l IH]; intros l' H; cbn [perm_b] in H.
  - destruct l'; [constructor|discriminate].
  - destruct (remove_one x l') as [l1|] eqn:E; [|discriminate].
    rewrite <- (remove_one_perm _ _ _ E). constructor. apply IH. exact H.
Qed.

Theorem rj_predefined k t s m : In (k, (t, s, m)) rj_names ->
  exists (sp sp' : steppat N) l wt, lookup k pattern_table = Some sp /\ @rabinerJuangStepPattern N t s m = Ok sp' /\
    hint sp = hint sp' /\ pattern_rules sp (productions l) /\
    weighting s = Some wt /\ pattern_rules sp' (productions (rj_rules t wt m)) /\
    Permutation l (rj_rules t wt m).
Proof.
  intros H.
  assert (G : forallb (fun e => match e with (k, (t, s, m)) =>
      match lookup k predefined, weighting s with
      | Some l, Some wt => perm_b l (rj_rules t wt m) && (1 <=? t)%Z && (t <=? 7)%Z
      | _, _ => false end end) rj_names = true) by (vm_compute; reflexivity).
  rewrite forallb_forall in G. specialize (G _ H).
  cbn beta iota in G.
  destruct (lookup k predefined) as [l|] eqn:El; [|discriminate].
  destruct (weighting s) as [wt|] eqn:Ew; [|discriminate].
  apply andb_prop in G. destruct G as [G G3]. apply andb_prop in G. destruct G as [G1 G2].
  destruct (rj_pattern t s wt m ltac:(lia) Ew) as [sp' [E1 [E2 E3]]].
  destruct (predefined_object (N := N) k l El) as [sp [F1 F2]].
  exists sp, sp', l, wt. split; [exact F1|]. split; [exact E1|]. split.
  { rewrite E2. clear -H F1. revert H. unfold rj_names. cbn [In].
    repeat (intros [H|H]; [injection H as <- <- <- <-; vm_compute in F1; injection F1 as <-; reflexivity|revert H]).
    intros []. }
  split. { apply (wgood_rules L); [|exact F2]. eapply predefined_good. exact El. }
  split; [reflexivity|]. split; [exact E3|]. apply perm_b_ok. exact G1.
Qed.
Theorem rj_names_cover k sp : lookup k (@pattern_table N) = Some sp ->
  (exists tsm, In (k, tsm) rj_names) \/ In k rj_others.
Proof.
  unfold pattern_table. rewrite !lookup_cons.
  repeat (match goal with |- context [String.eqb k ?a] => destruct (String.eqb_spec k a) as [->|_] end;
    [intros _; first [right; cbn [rj_others In]; tauto | left; eexists; cbn [rj_names In]; eauto 30]|]).
  discriminate.
Qed.

(** ** The same productions in another order give the same distance *)
Theorem same_productions_step cdist x y o o' (lm : mat N) sp sp' rules rules' w :
  well_posed cdist x y o lm sp rules w -> well_posed cdist x y o' lm sp' rules' w ->
  (forall r, In r rules -> In r rules') ->
  o_open_end o = false -> o_open_end o' = false -> o_open_begin o = o_open_begin o' -> o_window_args o = o_window_args o' ->
  forall d, dtw cdist x y o = Ok d -> exists d', dtw cdist x y o' = Ok d' /\ leb (r_distance d') (r_distance d) = true.
Proof.
  intros WP WP' Hr He He' Hb Ha d H.
  destruct (dtw_closed_end_iff L _ _ _ _ _ _ _ _ WP He) as [[F _]|[d0 [F [F2 [F3 _]]]]]; [congruence|].
  rewrite H in F. injection F as <-.
  destruct (dominates_closed_end L cdist x y x y o o' lm lm d rules rules' sp' w) as [d' [G1 [G2 G3]]]; auto.
  - apply WP.
  - rewrite F2. apply WP.
  - rewrite F3, Ha. apply (dominates_rules L). exact Hr.
  - exists d'. auto.
Qed.
Theorem same_productions cdist x y o o' (lm : mat N) sp sp' rules rules' w :
  well_posed cdist x y o lm sp rules w -> well_posed cdist x y o' lm sp' rules' w ->
  Permutation rules rules' ->
  o_open_end o = false -> o_open_end o' = false -> o_open_begin o = o_open_begin o' -> o_window_args o = o_window_args o' ->
  (forall d, dtw cdist x y o = Ok d ->
     exists d', dtw cdist x y o' = Ok d' /\ eqb (r_distance d') (r_distance d) = true) /\
  (dtw cdist x y o = Raise no_path <-> dtw cdist x y o' = Raise no_path).
Proof.
  intros WP WP' Hr He He' Hb Ha.
  assert (Hr1 : forall r, In r rules -> In r rules') by (intros r; apply Permutation_in; exact Hr).
  assert (Hr2 : forall r, In r rules' -> In r rules) by (intros r; apply Permutation_in; symmetry; exact Hr).
  pose proof (same_productions_step _ _ _ _ _ _ _ _ _ _ _ WP WP' Hr1 He He' Hb Ha) as S1.
  pose proof (same_productions_step _ _ _ _ _ _ _ _ _ _ _ WP' WP Hr2 He' He (eq_sym Hb) (eq_sym Ha)) as S2.
  split.
  - intros d H. destruct (S1 d H) as [d' [H' L1]]. exists d'. split; [exact H'|].
    destruct (S2 d' H') as [d2 [H2 L2]]. rewrite H in H2. injection H2 as <-. apply (law_le_antisym _ L); assumption.
  - destruct (dtw_closed_end_iff L _ _ _ _ _ _ _ _ WP He) as [[F _]|[d [F _]]];
    destruct (dtw_closed_end_iff L _ _ _ _ _ _ _ _ WP' He') as [[F' _]|[d' [F' _]]].
    + tauto.
    + destruct (S2 d' F') as [d2 [H2 _]]. congruence.
    + destruct (S1 d F) as [d2 [H2 _]]. congruence.
    + rewrite F, F'. split; discriminate.
Qed.

(** ** StepPattern.T() *)
Theorem T_involution (sp : steppat N) : T (T sp) = sp.
Proof.
  destruct sp as [m h]. unfold T. cbn [mx hint]. f_equal.
  - rewrite map_map. rewrite <- (map_id m) at 2. apply map_ext. intros [a b c d]. reflexivity.
  - unfold T_hint. destruct (String.eqb_spec h "N") as [->|]; [reflexivity|].
    destruct (String.eqb_spec h "M") as [->|]; [reflexivity|].
    destruct (String.eqb_spec h "N"); [contradiction|]. destruct (String.eqb_spec h "M"); [contradiction|]. reflexivity.
Qed.
Theorem T_rows (sp : steppat N) : List.length (mx (T sp)) = List.length (mx sp) /\
  forall i r, nth_error (mx sp) i = Some r -> exists r', nth_error (mx (T sp)) i = Some r' /\
    c0 r' = c0 r /\ c1 r' = c2 r /\ c2 r' = c1 r /\ c3 r' = c3 r.
Proof.
  split; [apply map_length|]. intros i r H. exists (T_row r). split; [|auto].
  cbn [T mx]. rewrite nth_error_map, H. reflexivity.
Qed.
Theorem T_hints (sp : steppat N) :
  (hint sp = "N" -> hint (T sp) = "M") /\ (hint sp = "M" -> hint (T sp) = "N") /\
  (hint sp <> "N" -> hint sp <> "M" -> hint (T sp) = hint sp).
Proof.
  destruct sp as [m h]. cbn [T hint]. split; [intros ->; reflexivity|]. split; [intros ->; reflexivity|].
  intros H1 H2. unfold T_hint. destruct (String.eqb_spec h "N"); [contradiction|]. destruct (String.eqb_spec h "M"); [contradiction|]. reflexivity.
Qed.

End RJ2.

(** ** Weights of the productions, exactly *)
Lemma fracq_fraction a b : 0 < b -> (inject_Z (Z.of_nat b) * fracq (fraction a b) == inject_Z (Z.of_nat a))%Q.
Proof.
  intros Hb. unfold fraction, fracq. pose proof (Nat.div_mod a b ltac:(lia)) as D.
  destruct (Nat.eqb_spec (a mod b) 0) as [E|E]; cbn [fst snd].
  - rewrite E in D. change (Z.to_pos 1) with 1%positive. unfold Qeq, Qmult, inject_Z. cbn [Qnum Qden]. nia.
  - unfold Qeq, Qmult, inject_Z. cbn [Qnum Qden]. rewrite !Z.mul_1_r, Pos.mul_1_l, Z2Pos.id by lia. lia.
Qed.

Lemma wsum_weights (l : list (nat * nat)) (ws : list (Z * Z)) : List.length l = List.length ws ->
  (wsum (combine l ws) == fold_right (fun q s => fracq q + s) 0 ws)%Q.
Proof.
  revert ws. induction l as [|a l IH]; intros [|q ws] H; try discriminate; [reflexivity|].
  cbn [combine wsum fold_right fst snd]. fold (wsum (combine l ws)). rewrite IH by (cbn in H; lia). reflexivity.
Qed.
Lemma sum_const {A} (l : list A) q : (fold_right (fun x s => fracq x + s) 0 (map (fun _ => q) l) == inject_Z (Z.of_nat (List.length l)) * fracq q)%Q.
Proof.
  induction l as [|a l IH]; [cbn; ring|]. cbn [map fold_right List.length]. rewrite IH.
  rewrite Nat2Z.inj_succ, <- Z.add_1_l, inject_Z_plus. change (inject_Z 1) with 1%Q. ring.
Qed.
Lemma sum_ints (l : list (nat * nat)) wt : (fold_right (fun x s => fracq x + s) 0 (map (fun d => (Z.of_nat (wt d), 1%Z)) l) == inject_Z (Z.of_nat (list_sum (map wt l))))%Q.
Proof.
  induction l as [|a l IH]; [reflexivity|]. unfold list_sum in *. cbn [map fold_right]. rewrite IH.
  rewrite Nat2Z.inj_add, inject_Z_plus. unfold fracq. cbn [fst snd]. change (Z.to_pos 1) with 1%positive. reflexivity.
Qed.
Lemma to_go_length steps : List.length (to_go steps) = List.length steps.
Proof. induction steps as [|a l IH]; [reflexivity|]. cbn [to_go List.length]. f_equal. exact IH. Qed.
Lemma weights_length wt m steps : List.length (weights wt m steps) = List.length steps.
Proof. unfold weights. destruct m; apply map_length. Qed.

Lemma chain_wsum wt m steps : steps <> [] ->
  (wsum (w_add (chain wt m steps)) == inject_Z (Z.of_nat (list_sum (map wt steps))))%Q.
Proof.
  intros Hne. unfold chain. cbn [w_add]. rewrite wsum_weights by (rewrite to_go_length, weights_length; reflexivity).
  unfold weights. destruct m.
  - rewrite sum_const. apply fracq_fraction. destruct steps; [contradiction|cbn; lia].
  - apply sum_ints.
Qed.

(** The weights of a constructed production sum to the total of the slope weighting, smoothed or not. *)
Theorem builder_weight_sum k s wt m steps : weighting s = Some wt -> steps <> [] ->
  (Z.of_nat (fst (total steps) + snd (total steps)) <= 2 ^ 53)%Z -> (Z.of_nat (List.length steps) <= 2 ^ 53)%Z ->
  exists first rest, @P_get NumQ (Z.of_nat k) s m (zs steps) = Ok (first :: rest) /\
    c3 first = ofZ (-1) /\ List.length rest = List.length steps /\
    fold_left add (map c3 rest) (ofZ 0) = ofZ (Z.of_nat (list_sum (map wt steps))).
Proof.
  intros Hw Hne Hb Hl. rewrite (builder NumQ_laws k s wt m steps Hw Hne Hb Hl).
  unfold rule_rows. eexists. eexists. split; [reflexivity|]. split; [reflexivity|].
  rewrite !map_length. split.
  { cbn [production r_add chain w_add]. rewrite map_length. rewrite combine_length, to_go_length, weights_length. lia. }
  cbn [production r_add]. rewrite map_map. cbn [c3].
  assert (D : denoms (w_add (chain wt m steps))).
  { intros [p q] Ha. cbn [chain w_add] in Ha. apply in_combine_r in Ha. cbn [snd]. unfold weights in Ha. destruct m.
    - apply in_map_iff in Ha. destruct Ha as [d [<- _]]. unfold fraction. destruct (_ =? 0); cbn [snd]; [lia|].
      destruct steps; [contradiction|cbn; lia].
    - apply in_map_iff in Ha. destruct Ha as [d [<- _]]. cbn [snd]. lia. }
  destruct (fold_weights _ (Q2Qc 0) D) as [t [E1 E2]]. cbn [ofZ NumQ] in *.
  change (XFin (Q2Qc (inject_Z 0))) with (XFin (Q2Qc 0)). 
  transitivity (XFin t); [exact E1|]. f_equal. apply Qc_is_canon. rewrite E2, chain_wsum by exact Hne.
  rewrite this_ofQ, this_ofZ. ring.
Qed.
Theorem weighting_totals steps :
  list_sum (map (fun d : nat * nat => fst d) steps) = fst (total steps) /\
  list_sum (map (fun d : nat * nat => fst d + snd d) steps) = fst (total steps) + snd (total steps).
Proof.
  split; [reflexivity|]. unfold total. cbn [fst snd]. induction steps as [|a l IH]; [reflexivity|].
  unfold list_sum in *. cbn [map fold_right]. lia.
Qed.

(** A concrete case. *)
Example builder_case : weighting "d" = Some (fun d => fst d + snd d) /\
  chain (fun d => fst d + snd d) true [(1,1);(1,0)] = W 2 1 [(1, 0, (3, 2)%Z); (0, 0, (3, 2)%Z)] /\
  chain (fun d => fst d + snd d) false [(1,2);(1,0);(0,1)] = W 2 3 [(1, 1, (3, 1)%Z); (0, 1, (1, 1)%Z); (0, 0, (1, 1)%Z)].
Proof. repeat split. Qed.
Lemma rj_names_are : rj_names =
  [ ("symmetric1", (1%Z, "b", false));   ("symmetric2", (1%Z, "d", false));
    ("symmetricP0", (1%Z, "d", false));  ("asymmetricP0", (1%Z, "c", false));
    ("symmetricP05", (5%Z, "d", false)); ("asymmetricP05", (5%Z, "c", true));
    ("symmetricP1", (2%Z, "d", false));  ("asymmetricP1", (2%Z, "c", true));
    ("symmetricP2", (6%Z, "d", false));  ("asymmetricP2", (6%Z, "c", true));
    ("typeIa", (2%Z, "a", false));  ("typeIb", (2%Z, "b", false));
    ("typeIc", (2%Z, "c", false));  ("typeId", (2%Z, "d", false));
    ("typeIas", (2%Z, "a", true));  ("typeIbs", (2%Z, "b", true));
    ("typeIcs", (2%Z, "c", true));  ("typeIds", (2%Z, "d", true));
    ("typeIIa", (3%Z, "a", false)); ("typeIIb", (3%Z, "b", false));
    ("typeIIc", (3%Z, "c", false)); ("typeIId", (3%Z, "d", false));
    ("typeIIIc", (4%Z, "c", false)); ("typeIVc", (7%Z, "c", false)) ].
Proof. reflexivity. Qed.
Lemma rj_others_are : rj_others =
  ["asymmetric"; "_symmetricVelichkoZagoruyko"; "_asymmetricItakura"; "_asymmetricP0b"; "mori2006"; "rigid"].
Proof. reflexivity. Qed.
Lemma T_case : forall N : Num, hint (T (@asymmetric N)) = "M" /\
  mx (T (@asymmetric N)) = table (productions [W 0 1 [(0, 0, (1, 1)%Z)]; W 1 1 [(0, 0, (1, 1)%Z)]; W 2 1 [(0, 0, (1, 1)%Z)]]).
Proof. intros N. split; reflexivity. Qed.
