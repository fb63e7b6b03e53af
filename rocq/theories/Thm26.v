(** Thm26.v - a window is a mask of missing local costs (proofs for C55). *)
From Coq Require Import ZifyBool ZifyNat.
From Verif Require Import Base Num StepPattern Window Core Backtrack Dtw Spec Api Tables Vocab Terms
  CoreProof DPProof DtwProof ApiProof ApiThms Uniq Thm1 Thm2 Thm3 Thm5 Thm7 Thm10 Derived SeriesSpec Thm23.
Open Scope string_scope.
Open Scope list_scope.
Open Scope nat_scope.

Section Mask.
Context {N : Num}.
Variable L : NumLaws N.

Definition cand_val (cost cmf : nat -> nat -> N) i j (r : rule N) : N :=
  if (Nat.leb (r_di r) i && Nat.leb (r_dj r) j)%bool then charge cost r i j (cmf (i - r_di r) (j - r_dj r)) else nan.
Lemma cands_val rules (cost cmf : nat -> nat -> N) i j : cands rules cost cmf i j (map (cand_val cost cmf i j) rules).
Proof.
  split; [apply map_length|]. intros q r Hq. exists (cand_val cost cmf i j r). split; [apply map_nth_error; exact Hq|].
  unfold cand_is, cand_val. destruct (_ && _)%bool; [reflexivity|apply (law_nan _ L)].
Qed.

Lemma end_charge (cost : nat -> nat -> N) r w i j c : r_add r = [(0, 0, w)] -> charge cost r i j c = macc c w (cost i j).
Proof. intros E. unfold charge. rewrite E. cbn [fold_left fst snd]. rewrite !Nat.sub_0_r. reflexivity. Qed.

Lemma mask_bellman rules n m cost cost' seed win cmf smf :
  end_point_rules rules ->
  (forall i j, i < n -> j < m -> isnan (seed i j) = true -> win i j = true -> cost' i j = cost i j) ->
  (forall i j, i < n -> j < m -> isnan (seed i j) = true -> win i j = false -> isnan (cost' i j) = true) ->
  @bellman N rules n m cost seed win cmf smf -> bellman rules n m cost' seed (fun _ _ => true) cmf smf.
Proof.
  intros He H1 H2 HB i j Hi Hj. pose proof (HB i j Hi Hj) as C. unfold cell_eq in *.
  destruct (isnan (seed i j)) eqn:Es; cbn [negb] in *; [|exact C].
  destruct (win i j) eqn:Ew; cbn [negb] in *.
  - destruct C as [l [a [[Hl Hc] R]]]. exists l, a. split; [|exact R]. split; [exact Hl|]. intros q r Hq.
    destruct (Hc q r Hq) as [v [Hv Hv']]. exists v. split; [exact Hv|]. unfold cand_is in *.
    destruct (_ && _)%bool; [|exact Hv']. rewrite Hv'. apply nth_error_In in Hq. destruct (He r Hq) as [w [Ea _]].
    rewrite !(end_charge _ _ _ _ _ _ Ea). rewrite (H1 i j Hi Hj Es Ew). reflexivity.
  - destruct C as [C1 C2]. exists (map (cand_val cost' cmf i j) rules), (-1)%Z. split; [apply cands_val|]. split.
    + left. split; [reflexivity|]. intros k x Hk. apply nth_error_In in Hk. apply in_map_iff in Hk. destruct Hk as [r [<- Hr]].
      unfold cand_val. intros G. destruct (_ && _)%bool.
      * destruct (He r Hr) as [w [Ea Hw]]. rewrite (end_charge _ _ _ _ _ _ Ea) in G.
        apply (law_macc_obstacle _ L) in G; [|exact Hw]. apply (law_good_not_nan _ L) in G. rewrite (H2 i j Hi Hj Es Ew) in G. discriminate.
      * apply (law_good_not_nan _ L) in G. rewrite (law_nan _ L) in G. discriminate.
    + left. split; [reflexivity|]. split; assumption.
Qed.

Theorem window_mask cdist x y o (lm : mat N) sp rules w cdist' x' y' lm' :
  well_posed cdist x y o lm sp rules w -> end_point_rules rules ->
  masked (o_open_begin o) w (o_window_args o) lm lm' ->
  costs_of cdist' x' y' lm' -> (o_open_begin o = true \/ native_array x' y') ->
  same_outcome (dtw cdist x y o) (dtw cdist' x' y' (without_window o)).
Proof.
  intros WP He [M1 [M2 M3]] HC' Hn'.
  pose proof WP as WP0. destruct WP0 as [w1 w2 w3 w4 w5 w6 w7 w8 w9 w10].
  pose proof (costs_of_wf _ _ _ _ w1) as Hwf. pose proof (costs_of_wf _ _ _ _ HC') as Hwf'.
  assert (WP' : well_posed cdist' x' y' (without_window o) lm' sp rules NoWindow).
  { constructor; cbn [without_window o_step_pattern o_window_type o_window_args o_open_begin o_open_end o_distance_only]; auto;
      try constructor; unfold rows_used in *; rewrite ?M1, ?M2; auto; apply w8. }
  destruct (wp_finish_any L _ _ _ _ _ _ _ _ WP) as [cm [dm [cmf [smf [win [E [Rc [Rs [Hwi HB]]]]]]]]].
  destruct (wp_finish_any L _ _ _ _ _ _ _ _ WP') as [cm' [dm' [cmf' [smf' [win' [E' [Rc' [Rs' [Hwi' HB']]]]]]]]].
  assert (En : nr (p_lm (without_window o) lm') = nr (p_lm o lm)).
  { unfold p_lm. cbn [without_window o_open_begin]. destruct (o_open_begin o); cbn [padded nr]; congruence. }
  rewrite En, ?M1, ?M2 in *.
  assert (Hseed : forall a b, p_seed (without_window o) lm' a b = p_seed o lm a b).
  { intros a b. unfold p_seed. cbn [without_window o_open_begin]. destruct (o_open_begin o) eqn:Eo; [reflexivity|].
    unfold seed0. destruct (_ && _)%bool; [|reflexivity]. apply M3; try lia.
    - unfold rows_used in w8. apply w8.
    - left. auto. }
  assert (EQ : forall i j, i < nr (p_lm o lm) -> j < nc lm -> cmf' i j = cmf i j /\ smf' i j = smf i j).
  { intros i j Hi Hj.
    apply (bellman_unique L rules (nr (p_lm o lm)) (nc lm) (cell (p_lm (without_window o) lm')) (p_seed (without_window o) lm') win' cmf' smf'
       (cell (p_lm (without_window o) lm')) (p_seed o lm) (fun _ _ => true) cmf smf); auto; [apply w4| |].
    - intros a b Ha Hb. split; [reflexivity|]. split; [apply Hseed|]. apply (Hwi' a b Ha Hb). exact I.
    - apply (mask_bellman rules (nr (p_lm o lm)) (nc lm) (cell (p_lm o lm)) _ (p_seed o lm) win); auto.
      + intros a b Ha Hb Hs Hw. unfold p_lm, p_seed in *. cbn [without_window o_open_begin].
        apply (Hwi a b Ha Hb) in Hw. destruct (o_open_begin o) eqn:Eo.
        * cbn [padded nr] in Ha. rewrite !padded_cell by (auto; lia). unfold pseed in Hs. destruct (Nat.eqb_spec a 0) as [->|Ha0].
          { exfalso. rewrite (law_fin_not_nan _ L) in Hs; [discriminate|]. apply (law_fin_ofZ _ L). lia. }
          apply M3; try lia. right. unfold rows_used. replace (a - 1 + 1) with a by lia. exact Hw.
        * apply M3; auto. right. exact Hw.
      + intros a b Ha Hb Hs Hw. unfold p_lm, p_seed in *. cbn [without_window o_open_begin].
        assert (Hw' : ~ in_window w (o_window_args o) (nr (if o_open_begin o then padded lm else lm)) (nc lm) a b).
        { intros C. apply (Hwi a b Ha Hb) in C. congruence. }
        destruct (o_open_begin o) eqn:Eo.
        * cbn [padded nr] in Ha. rewrite !padded_cell by (auto; lia). unfold pseed in Hs. destruct (Nat.eqb_spec a 0) as [->|Ha0].
          { exfalso. rewrite (law_fin_not_nan _ L) in Hs; [discriminate|]. apply (law_fin_ofZ _ L). lia. }
          apply M3; try lia. intros [[C _]|C]; [discriminate|]. unfold rows_used in C. replace (a - 1 + 1) with a in C by lia. exact (Hw' C).
        * destruct (Nat.eq_dec a 0) as [->|Ha0]; [destruct (Nat.eq_dec b 0) as [->|Hb0]|].
          { unfold seed0 in Hs. cbn in Hs. destruct (M3 0 0 Ha Hb) as [C _]. rewrite C; [exact Hs|]. left. auto. }
          { apply M3; auto. intros [[_ [_ C]]|C]; [lia|exact (Hw' C)]. }
          { apply M3; auto. intros [[_ [C _]]|C]; [lia|exact (Hw' C)]. } }
  assert (Hpos : 0 < nr (p_lm o lm) /\ 0 < nc lm) by (rewrite rows_used_p in w8; split; apply w8).
  assert (dm' = dm) as -> by (eapply reps_inj; [exact Rs'|exact Rs|]; intros a b Ha Hb; apply EQ; assumption).
  assert (cm' = cm) as -> by (eapply reps_inj; [exact Rc'|exact Rc|]; intros a b Ha Hb; apply EQ; assumption).
  rewrite E, E'. unfold finish_any. rewrite M1, M2.
  assert (Ec : choose (without_window o) (hint sp) (nr lm) (nc lm) (cmf' (nr (p_lm o lm) - 1)) =
               choose o (hint sp) (nr lm) (nc lm) (cmf (nr (p_lm o lm) - 1))).
  { unfold choose. cbn [without_window o_open_end]. destruct (o_open_end o); [|reflexivity].
    destruct (String.eqb _ _); [reflexivity|]. f_equal. apply map_ext_in. intros j Hj. apply in_seq in Hj. f_equal. apply EQ; lia. }
  rewrite Ec. destruct (choose o (hint sp) (nr lm) (nc lm) _) as [jm|e| | |] eqn:Ej; cbn [bind same_outcome] in *; try reflexivity.
  2-4: exfalso.
  2-4: destruct (well_posed_outcome L _ _ _ _ _ _ _ _ WP) as [[d Hd]|[Hd|Hd]]; rewrite E in Hd; unfold finish_any in Hd; rewrite Ej in Hd; discriminate.
  assert (Hjm : jm < nc lm) by (eapply choose_bound; [apply Hpos|exact Ej]).
  rewrite (proj1 (EQ (nr (p_lm o lm) - 1) jm ltac:(lia) Hjm)).
  destruct (isnan _) eqn:Ein; [reflexivity|]. cbn [without_window o_distance_only o_open_begin].
  destruct (if o_distance_only o then _ else _) as [mp|e| | |] eqn:Em; cbn [bind] in *; try reflexivity.
  2-4: exfalso.
  2-4: destruct (well_posed_outcome L _ _ _ _ _ _ _ _ WP) as [[d Hd]|[Hd|Hd]]; rewrite E in Hd; unfold finish_any in Hd; rewrite Ej in Hd; cbn [bind] in Hd;
    rewrite Ein, Em in Hd; discriminate.
  destruct (o_open_begin o && o_distance_only o); [reflexivity|]. cbn [same_outcome].
  unfold result. cbn [r_distance r_normalizedDistance r_jmin r_map r_costMatrix r_directionMatrix without_window o_open_begin o_keep_internals].
  rewrite M1. repeat split; reflexivity.
Qed.
End Mask.

(** Which predefined patterns charge only the cell they enter *)
Lemma end_of_table {N : Num} (L : NumLaws N) l :
  forallb (fun r => match w_add r with [(0, 0, (k, 1%Z))] => (0 <=? k)%Z && (k <? 100)%Z | _ => false end) l = true ->
  end_point_rules (@productions N l).
Proof.
  intros H r Hr. apply in_map_iff in Hr. destruct Hr as [w [<- Hw]]. rewrite forallb_forall in H. specialize (H w Hw).
  unfold production. cbn [r_add].
  destruct (w_add w) as [|[[[|] [|]] [k [|[| |]|]]] [|]]; try discriminate. exists (ofZ k). split; [reflexivity|].
  rewrite (law_le_ofZ _ L) by lia. lia.
Qed.
Theorem end_point_predefined {N : Num} (L : NumLaws N) k l :
  In k ["symmetric1"; "symmetric2"; "symmetricP0"; "asymmetric"; "asymmetricP0"; "typeIIa"; "typeIIb"; "typeIIc"; "typeIId"; "rigid"] ->
  lookup k predefined = Some l -> end_point_rules (@productions N l).
Proof.
  intros Hk Hl. apply (end_of_table L). revert l Hl.
  repeat (destruct Hk as [<-|Hk]; [intros l Hl; vm_compute in Hl; injection Hl as <-; reflexivity|]). destruct Hk.
Qed.
Theorem end_point_mvm {N : Num} (L : NumLaws N) e : end_point_rules (@productions N (mvm_productions e)).
Proof.
  apply (end_of_table L). apply forallb_forall. intros r Hr. apply in_map_iff in Hr. destruct Hr as [k [<- _]]. reflexivity.
Qed.
