(** Thm6.v - transposition and rescaling (proofs). *)
From Coq Require Import ZifyBool ZifyNat.
From Verif Require Import Base Num StepPattern Window Core Backtrack Dtw Spec Api Tables Vocab Terms
  CoreProof DPProof DtwProof ApiProof ApiThms WalkGeom Uniq Thm1 Thm2 Thm4 Thm5.
Open Scope string_scope.
Open Scope list_scope.
Open Scope nat_scope.


Section Thm6.
Context {N : Num}.
Variable L : NumLaws N.

(** ** Transposed patterns *)
Lemma T_table k (rules : list (rule N)) : table_from k (map T_rule rules) = map T_row (table_from k rules).
Proof.
  revert k. induction rules as [|r rs IH]; intros k; [reflexivity|].
  cbn [map table_from]. rewrite IH, map_app. f_equal. unfold rule_rows, T_rule. cbn [r_di r_dj r_add map].
  f_equal. rewrite !map_map. apply map_ext. intros a. reflexivity.
Qed.

Lemma T_pattern_rules (sp : steppat N) rules : pattern_rules sp rules -> pattern_rules (T sp) (map T_rule rules).
Proof.
  intros [H1 [H2 [H3 [H4 H5]]]]. split; [|split; [|split; [|split]]].
  - unfold T. cbn [mx]. rewrite H1. unfold table. symmetry. apply T_table.
  - destruct rules; [congruence|discriminate].
  - rewrite forallb_forall in *. intros r Hr. apply in_map_iff in Hr. destruct Hr as [r0 [<- Hr]].
    rewrite T_valid. apply H3. exact Hr.
  - unfold table in *. rewrite T_table, map_length. exact H4.
  - apply Forall_forall. intros r Hr. apply in_map_iff in Hr. destruct Hr as [r0 [<- Hr]].
    rewrite Forall_forall in H5. specialize (H5 r0 Hr). cbn [T_rule r_di r_dj]. tauto.
Qed.

Lemma T_n_patterns (sp : steppat N) : get_n_patterns (T sp) = get_n_patterns sp.
Proof. unfold get_n_patterns, T. cbn [mx]. rewrite map_map. reflexivity. Qed.

Lemma T_drop_null (rows : list (row N)) : drop_null (map T_row rows) = map T_row (drop_null rows).
Proof.
  unfold drop_null. induction rows as [|r l IH]; [reflexivity|]. cbn [map filter T_row c1 c2].
  rewrite IH, orb_comm. destruct (_ || _); reflexivity.
Qed.

Lemma T_steps_of (rows : list (row N)) q :
  steps_of (map T_row rows) q = map (fun d => (snd d, fst d)) (steps_of rows q).
Proof.
  unfold steps_of. rewrite map_rev. f_equal. rewrite map_map.
  induction rows as [|r l IH]; [reflexivity|]. cbn [map filter T_row c0].
  destruct (eqb (c0 r) (ofZ q)); [|exact IH]. cbn [map c1 c2 fst snd]. f_equal. exact IH.
Qed.

Lemma T_stepsCache (sp : steppat N) npat q :
  stepsCache (T sp) npat q = omap (map (fun d => (snd d, fst d))) (stepsCache sp npat q).
Proof.
  unfold stepsCache, omap. destruct (_ && _); [|reflexivity]. cbn [bind]. unfold T. cbn [mx].
  rewrite T_drop_null, T_steps_of. reflexivity.
Qed.

Lemma fold_swap1 (i : Z) (l : list (Z * Z)) acc :
  fold_left (fun l d => (i - fst d)%Z :: l) (map (fun d => (snd d, fst d)) l) acc =
  fold_left (fun l d => (i - snd d)%Z :: l) l acc.
Proof. revert acc. induction l as [|a l IH]; intros acc; [reflexivity|]. cbn [map fold_left fst]. apply IH. Qed.
Lemma fold_swap2 (i : Z) (l : list (Z * Z)) acc :
  fold_left (fun l d => (i - snd d)%Z :: l) (map (fun d => (snd d, fst d)) l) acc =
  fold_left (fun l d => (i - fst d)%Z :: l) l acc.
Proof. revert acc. induction l as [|a l IH]; intros acc; [reflexivity|]. cbn [map fold_left snd]. apply IH. Qed.

Lemma T_backtrack_loop (sp : steppat N) npat (sm smT : mat Z) :
  (forall i j, py_get2 smT j i = py_get2 sm i j) ->
  forall fuel i j acc,
  backtrack_loop fuel (T sp) npat smT j i (swap_mapping acc) =
  omap swap_mapping (backtrack_loop fuel sp npat sm i j acc).
Proof.
  intros Hget. induction fuel as [|fuel IH]; intros i j acc; [reflexivity|]. cbn [backtrack_loop].
  rewrite (andb_comm (Z.eqb j 0)). destruct ((i =? 0) && (j =? 0))%Z; [reflexivity|].
  rewrite Hget. destruct (py_get2 sm i j) as [s| | | |]; try reflexivity. cbn [bind omap].
  destruct (s =? INT_MIN)%Z; [reflexivity|].
  rewrite T_stepsCache. destruct (stepsCache sp npat s) as [st| | | |]; try reflexivity. cbn [bind omap].
  rewrite <- map_rev. destruct (rev st) as [|last rest]; [reflexivity|]. cbn [map fst snd].
  rewrite fold_swap1, fold_swap2. cbn [swap_mapping index1 index2 index1s index2s stepsTaken].
  rewrite <- IH. reflexivity.
Qed.

Lemma transpose_get {A} (d : A) (g : mat A) i j : wf_mat g ->
  py_get2 (transpose d g) j i = py_get2 g i j.
Proof.
  intros Hwf. unfold py_get2. cbn [transpose nr nc].
  destruct (py_index (nr g) i) as [i'|e| | |] eqn:Ei.
  2:{ assert (e = IndexError) as -> by (unfold py_index in Ei; repeat destruct (_ && _); congruence).
      destruct (py_index (nc g) j) as [j'|e'| | |] eqn:Ej; cbn [bind]; try reflexivity;
      unfold py_index in Ej; repeat destruct (_ && _); congruence. }
  2-4: unfold py_index in Ei; repeat destruct (_ && _); discriminate.
  destruct (py_index (nc g) j) as [j'|e'| | |] eqn:Ej; cbn [bind]; try reflexivity.
  assert (Hi' : i' < nr g) by (unfold py_index in Ei; destruct ((0 <=? i) && (i <? Z.of_nat (nr g)))%Z eqn:E1;
    [injection Ei as <-; lia|destruct ((- Z.of_nat (nr g) <=? i) && (i <? 0))%Z eqn:E2; [injection Ei as <-; lia|discriminate]]).
  assert (Hj' : j' < nc g) by (unfold py_index in Ej; destruct ((0 <=? j) && (j <? Z.of_nat (nc g)))%Z eqn:E1;
    [injection Ej as <-; lia|destruct ((- Z.of_nat (nc g) <=? j) && (j <? 0))%Z eqn:E2; [injection Ej as <-; lia|discriminate]]).
  assert (Hg : exists v, mget g i' j' = Some v).
  { unfold mget. destruct (Nat.ltb_spec i' (nr g)), (Nat.ltb_spec j' (nc g)); try lia. cbn [andb].
    destruct (nth_error (dat g) (i' * nc g + j')) eqn:E; [eauto|]. apply nth_error_None in E. unfold wf_mat in Hwf. nia. }
  destruct Hg as [v Hv]. rewrite Hv.
  rewrite (mget_reps (transpose d g) (fun a b => match mget g b a with Some v => v | None => d end)); auto.
  - rewrite Hv. reflexivity.
  - unfold transpose. cbn [nr nc dat]. apply (reps_map (nc g) (nr g) (fun a b => match mget g b a with Some v => v | None => d end)).
Qed.

Lemma transpose_wf {A} (d : A) (g : mat A) : wf_mat (transpose d g).
Proof. unfold wf_mat, transpose. cbn [dat nr nc]. rewrite map_length. apply indices_length. Qed.

Lemma transpose_mget {A} (d : A) (g : mat A) i j : i < nr g -> j < nc g -> wf_mat g ->
  mget (transpose d g) j i = mget g i j.
Proof.
  intros Hi Hj Hwf. rewrite (mget_reps (transpose d g) (fun a b => match mget g b a with Some v => v | None => d end)); auto.
  - destruct (mget g i j) eqn:E; [reflexivity|]. exfalso. unfold mget in E.
    destruct (Nat.ltb_spec i (nr g)), (Nat.ltb_spec j (nc g)); try lia. cbn [andb] in E.
    apply nth_error_None in E. unfold wf_mat in Hwf. nia.
  - unfold transpose. cbn [nr nc dat]. apply (reps_map (nc g) (nr g) (fun a b => match mget g b a with Some v => v | None => d end)).
Qed.

Lemma transpose_cell (g : mat N) i j : i < nr g -> j < nc g -> wf_mat g ->
  cell (transpose nan g) j i = cell g i j.
Proof. intros. unfold cell. rewrite transpose_mget by assumption. reflexivity. Qed.

Lemma T_backtrack (sp : steppat N) (sm : mat Z) : wf_mat sm -> 0 < nc sm ->
  backtrack (T sp) (transpose 0%Z sm) (Z.of_nat (nr sm) - 1) =
  omap swap_mapping (backtrack sp sm (Z.of_nat (nc sm) - 1)).
Proof.
  intros Hwf Hn. unfold backtrack. rewrite T_n_patterns. destruct (get_n_patterns sp) as [np| | | |]; try reflexivity.
  cbn [bind]. cbn [transpose nr nc].
  replace (4 * nc sm * nr sm + 1) with (4 * nr sm * nc sm + 1) by nia.
  rewrite <- (T_backtrack_loop sp np sm (Mat (nc sm) (nr sm) (dat (transpose 0%Z sm)))); [reflexivity|].
  intros i j. change (Mat (nc sm) (nr sm) (dat (transpose 0%Z sm))) with (transpose 0%Z sm).
  apply transpose_get. exact Hwf.
Qed.

Lemma reps_transpose {A} (d : A) n m l f : reps n m l f ->
  reps m n (dat (transpose d (Mat n m l))) (fun a b => f b a).
Proof.
  intros R. unfold transpose. cbn [nr nc dat]. split; [rewrite map_length; apply indices_length|].
  intros i j Hi Hj. rewrite nth_error_map, indices_nth by assumption. cbn [option_map fst snd].
  rewrite (mget_reps (Mat n m l) f) by assumption. reflexivity.
Qed.

Theorem transposed cdist x y o (lm : mat N) sp rules w cdist' x' y' o' w' :
  well_posed cdist x y o lm sp rules w ->
  o_open_begin o = false -> o_open_end o = false ->
  costs_of cdist' x' y' (transpose nan lm) -> native_array x' y' ->
  pattern_of (o_step_pattern o') (T sp) -> window_of (o_window_type o') w' ->
  window_total w' (o_window_args o') (nc lm) (nr lm) ->
  (forall i j, i < nr lm -> j < nc lm ->
     (in_window w' (o_window_args o') (nc lm) (nr lm) j i <-> in_window w (o_window_args o) (nr lm) (nc lm) i j)) ->
  o_open_begin o' = false -> o_open_end o' = false -> o_distance_only o' = o_distance_only o ->
  o_keep_internals o' = o_keep_internals o ->
  (forall d, dtw cdist x y o = Ok d -> exists d', dtw cdist' x' y' o' = Ok d' /\
      r_distance d' = r_distance d /\ r_normalizedDistance d' = r_normalizedDistance d /\
      r_map d' = option_map swap_mapping (r_map d) /\
      r_costMatrix d' = option_map (transpose nan) (r_costMatrix d) /\
      r_directionMatrix d' = option_map (transpose 0%Z) (r_directionMatrix d)) /\
  (forall e, dtw cdist x y o = Raise e -> dtw cdist' x' y' o' = Raise e).
Proof.
  intros WP Hb He HC' Hn' Hs' Hw' Hwt Hww Hb' He' Hdo Hki.
  pose proof (costs_of_wf _ _ _ _ (wp_costs _ _ _ _ _ _ _ _ WP)) as Hwf.
  assert (Hp' := T_pattern_rules _ _ (wp_rules _ _ _ _ _ _ _ _ WP)).
  pose proof WP as WP0. destruct WP0 as [w1 w2 w3 w4 w5 w6 w7 w8 w9 w10].
  unfold rows_used in *. rewrite Hb in *. destruct w8 as [Z1 [Z2 Z3]].
  assert (WP' : well_posed cdist' x' y' o' (transpose nan lm) (T sp) (map T_rule rules) w').
  { constructor; unfold rows_used; rewrite ?Hb'; auto; cbn [transpose nr nc].
    - split; [lia|]. split; [lia|]. nia.
    - discriminate.
    - rewrite He'. discriminate. }
  destruct (wp_finish L _ _ _ _ _ _ _ _ WP Hb) as [cm [dm [cmf [smf [win [E [Rc [Rs [Hw HB]]]]]]]]].
  destruct (wp_finish L _ _ _ _ _ _ _ _ WP' Hb') as [cm' [dm' [cmf' [smf' [win' [E' [Rc' [Rs' [Hwi' HB']]]]]]]]].
  cbn [transpose nr nc] in *.
  assert (EQ : forall i j, i < nr lm -> j < nc lm -> cmf' j i = cmf i j /\ smf' j i = smf i j).
  { intros i j Hi Hj.
    apply (bellman_unique L (map T_rule rules) (nc lm) (nr lm) (cell (transpose nan lm)) (seed0 (transpose nan lm)) win' cmf' smf'
       (fun a b => cell lm b a) (fun a b => seed0 lm b a) (fun a b => win b a) (fun a b => cmf b a) (fun a b => smf b a));
      auto; [apply Hp'| |apply bellman_T; exact HB].
    intros a b Ha Hb0. split; [apply transpose_cell; assumption|]. split.
    - unfold seed0. rewrite transpose_cell by assumption. rewrite andb_comm. reflexivity.
    - apply Bool.eq_iff_eq_true. rewrite (Hw b a Hb0 Ha), (Hwi' a b Ha Hb0).
      apply Hww; assumption. }
  assert (Ecm : Mat (nc lm) (nr lm) cm' = transpose nan (Mat (nr lm) (nc lm) cm)).
  { change (transpose nan (Mat (nr lm) (nc lm) cm)) with
      (Mat (nc lm) (nr lm) (dat (transpose nan (Mat (nr lm) (nc lm) cm)))). f_equal.
    eapply reps_inj; [exact Rc'|apply reps_transpose; exact Rc|]. intros a b Ha Hb0. apply EQ; assumption. }
  assert (Edm : Mat (nc lm) (nr lm) dm' = transpose 0%Z (Mat (nr lm) (nc lm) dm)).
  { change (transpose 0%Z (Mat (nr lm) (nc lm) dm)) with
      (Mat (nc lm) (nr lm) (dat (transpose 0%Z (Mat (nr lm) (nc lm) dm)))). f_equal.
    eapply reps_inj; [exact Rs'|apply reps_transpose; exact Rs|]. intros a b Ha Hb0. apply EQ; assumption. }
  rewrite E, E', Ecm, Edm. unfold finish, choose. rewrite He, He'. cbn [bind transpose nr nc].
  destruct (EQ (nr lm - 1) (nc lm - 1) ltac:(lia) ltac:(lia)) as [-> _].
  destruct (isnan _) eqn:En; [split; [discriminate|auto]|]. rewrite Hdo.
  replace (Z.of_nat (nr lm - 1)) with (Z.of_nat (nr (Mat (nr lm) (nc lm) dm)) - 1)%Z by (cbn [nr nc]; lia).
  change (Mat (nc lm) (nr lm) (dat (transpose 0%Z (Mat (nr lm) (nc lm) dm)))) with (transpose 0%Z (Mat (nr lm) (nc lm) dm)) in *.
  rewrite T_backtrack; [|unfold wf_mat; cbn [nr nc dat]; apply Rs|cbn [nr nc]; lia].
  replace (Z.of_nat (nc lm - 1)) with (Z.of_nat (nc (Mat (nr lm) (nc lm) dm)) - 1)%Z by (cbn [nr nc]; lia).
  assert (Hnd : (if String.eqb (hint (T sp)) "NA" then nan
        else normalized (hint (T sp)) (nc lm) (nr lm - 1) (cmf (nr lm - 1) (nc lm - 1))) =
      (if String.eqb (hint sp) "NA" then nan
        else normalized (hint sp) (nr lm) (nc lm - 1) (cmf (nr lm - 1) (nc lm - 1)))).
  { unfold T, T_hint. cbn [hint]. unfold normalized.
    destruct (String.eqb_spec (hint sp) "N") as [->|N1]; [cbn [String.eqb Ascii.eqb Bool.eqb]; do 2 f_equal; lia|].
    destruct (String.eqb_spec (hint sp) "M") as [->|N2]; [cbn [String.eqb Ascii.eqb Bool.eqb]; do 2 f_equal; lia|].
    destruct (String.eqb_spec (hint sp) "NA"); [reflexivity|].
    destruct (String.eqb_spec (hint sp) "N+M"); [do 2 f_equal; lia|].
    destruct (String.eqb_spec (hint sp) "N"); [contradiction|].
    destruct (String.eqb_spec (hint sp) "M"); [contradiction|]. reflexivity. }
  destruct (o_distance_only o).
  - cbn [bind]. split; [|discriminate]. intros d Ed. injection Ed as <-. eexists. split; [reflexivity|]. unfold result. cbn [r_distance r_normalizedDistance r_map r_costMatrix r_directionMatrix].
    rewrite Hki, Hb, Hb'. split; [reflexivity|]. split; [exact Hnd|]. split; [reflexivity|].
    destruct (o_keep_internals o); split; reflexivity.
  - destruct (backtrack sp _ _) as [mp|e| | |] eqn:Ebt; cbn [bind omap]; try (split; [discriminate|intros e' Ee; try discriminate Ee; injection Ee as <-; reflexivity]).
    split; [|discriminate]. intros d Ed. injection Ed as <-.
    eexists. split; [reflexivity|]. unfold result. cbn [r_distance r_normalizedDistance r_map r_costMatrix r_directionMatrix].
    rewrite Hki, Hb, Hb'. split; [reflexivity|]. split; [exact Hnd|]. split; [reflexivity|].
    destruct (o_keep_internals o); split; reflexivity.
Qed.

End Thm6.
