(** Thm13.v - witnesses: window exemptions (C09), slanted band (C11), free start (C16). *)
From Coq Require Import ZifyBool ZifyNat.
From Verif Require Import Base Num StepPattern Window Core Backtrack Dtw Spec Api Tables Vocab Terms
  NumF NumFLaws ApiThms Thm1 Thm2 Thm3 Thm5 Thm8 Thm10 Derived Examples CoreProof WalkGeom.
Open Scope string_scope.
Open Scope list_scope.
Open Scope nat_scope.

(** ** C09 *)
(** A point of the alignment (index1, index2) that the window rejects. *)
Definition outside_point {N : Num} (lm : mat N) (d : DTW N) : bool :=
  match r_map d with
  | None => false
  | Some mp => existsb (fun ij => match call_window (r_windowFunction d) (fst ij) (snd ij)
                                   (Z.of_nat (nr lm)) (Z.of_nat (nc lm)) (r_windowArgs d) with
                                  | Ok true => false | _ => true end)
                       (combine (index1 mp) (index2 mp))
  end.
Definition mIn : mat NumF := ints 3 3 [0;1;1; 1;9;0; 1;1;0]%Z.

Lemma rejected_at {N : Num} (lm : mat N) d w i1 i2 t i j : w <> NoWindow -> r_windowFunction d = w ->
  align_is i1 i2 (match r_map d with Some mp => stepsTaken mp | None => [] end) d = true ->
  nth_error i1 t = Some i -> nth_error i2 t = Some j -> (0 <= i)%Z -> (0 <= j)%Z ->
  (match call_window w i j (Z.of_nat (nr lm)) (Z.of_nat (nc lm)) (r_windowArgs d) with Ok true => false | _ => true end) = true ->
  rejected_point lm d.
Proof.
  intros Hw Ew Ha E1 E2 Hi Hj Hc. unfold align_is in Ha. destruct (r_map d) as [mp|] eqn:Em; [|discriminate].
  apply andb_prop in Ha. destruct Ha as [Ha _]. apply andb_prop in Ha. destruct Ha as [A1 A2].
  unfold zlist_eqb in A1, A2. destruct (list_eq_dec _ (index1 mp) i1); [|discriminate]. destruct (list_eq_dec _ (index2 mp) i2); [|discriminate].
  subst i1 i2. exists mp, t, i, j. split; [exact Em|]. split; [exact E1|]. split; [exact E2|].
  rewrite Ew. unfold in_window. rewrite !Z2Nat.id by assumption.
  destruct w; try contradiction; intros C; rewrite C in Hc; discriminate.
Qed.

Lemma inner_rejected : exists d,
  succeeds mIn (named "typeIIIc" (WTName "sakoechiba") (ws 0) true false false false) "typeIIIc" SakoeChiba (fun d => true) /\
  run mIn (named "typeIIIc" (WTName "sakoechiba") (ws 0) true false false false) = Ok d /\
  rejected_point mIn d.
Proof.
  assert (S : succeeds mIn (named "typeIIIc" (WTName "sakoechiba") (ws 0) true false false false) "typeIIIc" SakoeChiba
    (fun d => align_is [0;1;2]%Z [0;2;2]%Z [4]%Z d)) by (ex_ok NumF_laws).
  destruct S as [sp [l [d [H1 [H2 [H3 [H4 [H5 [H6 H7]]]]]]]]]. exists d.
  split; [exists sp, l, d; repeat (split; [assumption|]); reflexivity|]. split; [exact H4|].
  pose proof (wp_rules _ _ _ _ _ _ _ _ H3) as Hp. rewrite <- H5 in Hp.
  destruct (dtw_fields NumF_laws _ _ _ _ _ _ _ (wp_costs _ _ _ _ _ _ _ _ H3) H4 Hp) as [_ [_ [_ [_ [_ [Ea _]]]]]].
  apply (rejected_at mIn d SakoeChiba [0;1;2]%Z [0;2;2]%Z 1 1%Z 2%Z);
    [discriminate|assumption| |reflexivity|reflexivity|lia|lia|].
  - unfold align_is in *. destruct (r_map d) as [mp|]; [|discriminate]. apply andb_prop in H7. destruct H7 as [H7 _].
    rewrite H7. unfold zlist_eqb. destruct (list_eq_dec _ _ _); [reflexivity|contradiction].
  - rewrite Ea. reflexivity.
Qed.
Lemma first_rejected : exists d,
  succeeds m5 (named "symmetric2" (WTName "itakura") [] true false false false) "symmetric2" Itakura (fun d => true) /\
  run m5 (named "symmetric2" (WTName "itakura") [] true false false false) = Ok d /\
  rejected_point m5 d.
Proof.
  destruct exIta as [sp [l [d [H1 [H2 [H3 [H4 [H5 [H6 H7]]]]]]]]]. exists d.
  split; [exists sp, l, d; repeat (split; [assumption|]); reflexivity|]. split; [exact H4|].
  pose proof (wp_rules _ _ _ _ _ _ _ _ H3) as Hp. rewrite <- H5 in Hp.
  destruct (dtw_fields NumF_laws _ _ _ _ _ _ _ (wp_costs _ _ _ _ _ _ _ _ H3) H4 Hp) as [_ [_ [_ [_ [_ [Ea _]]]]]].
  apply andb_prop in H7. destruct H7 as [_ H7].
  apply (rejected_at m5 d Itakura [0;1;2;3;4;4]%Z [0;1;2;2;3;4]%Z 0 0%Z 0%Z);
    [discriminate|assumption| |reflexivity|reflexivity|lia|lia|].
  - unfold align_is in *. destruct (r_map d) as [mp|]; [|discriminate]. apply andb_prop in H7. destruct H7 as [H7 _].
    rewrite H7. unfold zlist_eqb. destruct (list_eq_dec _ _ _); [reflexivity|contradiction].
  - rewrite Ea. reflexivity.
Qed.

(** ** C11, slanted band, any arithmetic *)
Section Slanted.
Context {N : Num}.
Variable L : NumLaws N.
Theorem slanted_corner_raises cdist x y o (lm : mat N) sp rules ws :
  well_posed cdist x y o lm sp rules SlantedBand -> o_open_end o = false -> o_open_begin o = false ->
  o_window_args o = band ws -> ~ (nr lm = 1 /\ nc lm = 1) ->
  leb (vabs (sub (ofZ (Z.of_nat (nc lm) - 1))
                 (div (ofZ ((Z.of_nat (nr lm) - 1) * Z.of_nat (nc lm))) (ofZ (Z.of_nat (nr lm)))))) ws = false ->
  dtw cdist x y o = Raise no_path.
Proof.
  intros WP He Hb Hw Hnm Hc. eapply (corner_excluded L); try eassumption. rewrite Hw.
  intros W. apply in_slanted in W.
  pose proof (wp_query _ _ _ _ _ _ _ _ WP). pose proof (wp_size _ _ _ _ _ _ _ _ WP) as [_ [Hm _]].
  replace (Z.of_nat (nc lm - 1)) with (Z.of_nat (nc lm) - 1)%Z in W by lia.
  replace (Z.of_nat (nr lm - 1)) with (Z.of_nat (nr lm) - 1)%Z in W by lia.
  rewrite W in Hc. discriminate.
Qed.
End Slanted.
(** With 2 query and 5 reference elements the band of width 1 never reaches the end. *)
Lemma slanted_2_5 cdist x y o (lm : mat NumF) sp rules :
  well_posed cdist x y o lm sp rules SlantedBand -> o_open_end o = false -> o_open_begin o = false ->
  o_window_args o = ws 1 -> nr lm = 2 -> nc lm = 5 -> dtw cdist x y o = Raise no_path.
Proof.
  intros WP He Hb Hw Hn Hm. eapply (slanted_corner_raises NumF_laws); try eassumption.
  - lia.
  - rewrite Hn, Hm. vm_compute. reflexivity.
Qed.
Definition mSl : mat NumF := ints 2 5 [0;0;0;0;0; 0;0;0;0;0]%Z.
Lemma exSl : fails mSl (named "symmetric2" (WTName "slantedband") (ws 1) true false false false) "symmetric2" SlantedBand
  (ValueError "No warping path found compatible with the local constraints").
Proof. ex_fail NumF_laws. Qed.
Lemma exSlOk : succeeds m5 (named "symmetric2" (WTName "slantedband") (ws 1) true false false false) "symmetric2" SlantedBand
  (fun d => dist_is 6 d && align_is [0;1;2;3;4;4]%Z [0;1;2;2;3;4]%Z [1;1;3;1;2]%Z d).
Proof. ex_ok NumF_laws. Qed.

(** ** C16: with asymmetric an open-begin alignment can start anywhere *)
Section Start.
Context {N : Num}.
Variable L : NumLaws N.
(** free in column j0, infinitely costly elsewhere *)
Definition one_column (n m j0 : nat) : mat N :=
  Mat n m (map (fun ij => if snd ij =? j0 then ofZ 0 else pinf) (indices n m)).
Lemma one_column_wf n m j0 : wf_mat (one_column n m j0).
Proof. unfold wf_mat, one_column. cbn [dat nr nc]. rewrite map_length. apply indices_length. Qed.
Lemma one_column_cell n m j0 i j : i < n -> j < m ->
  cell (one_column n m j0) i j = if j =? j0 then ofZ 0 else pinf.
Proof.
  intros Hi Hj. unfold cell, one_column, mget. cbn [nr nc dat].
  replace (i <? n) with true by lia. replace (j <? m) with true by lia. cbn [andb].
  rewrite nth_error_map, indices_nth by assumption. reflexivity.
Qed.
Definition asym_rules : list (rule N) :=
  productions [W 1 0 [(0, 0, (1, 1)%Z)]; W 1 1 [(0, 0, (1, 1)%Z)]; W 1 2 [(0, 0, (1, 1)%Z)]].
Lemma column_walk n m j0 kw : j0 < m -> forall t, t <= n ->
  exists vs ts c, open_walk asym_rules (one_column n m j0) NoWindow kw (repeat 1 t) vs ts (t, j0) c /\
    eqb c (ofZ 0) = true.
Proof.
  intros Hj. induction t as [|t IH]; intros Ht.
  - exists [(0, j0)], [(0, j0)], (ofZ 0). split.
    + apply walk_start; cbn [nr nc one_column]; [reflexivity|lia|lia].
    + rewrite (law_eq_ofZ _ L); reflexivity || lia.
  - destruct IH as [vs [ts [c [Wk Ec]]]]; [lia|].
    pose proof (walk_step asym_rules _ _ _ _ (fun i j => 1 <= i /\ in_window NoWindow kw (n + 1) m i j) _ _ _ _ _ _ 1
      (production (W 1 0 [(0, 0, (1, 1)%Z)])) Wk eq_refl) as Q.
    cbn [production r_di r_dj w_di w_dj nr nc one_column] in Q.
    replace (repeat 1 (S t)) with (repeat 1 t ++ [1]) by (rewrite <- repeat_cons; reflexivity).
    replace (S t, j0) with (t + 1, j0 + 0) by (f_equal; lia).
    eexists _, _, _. split; [apply Q; [lia|lia|split; [lia|exact I]]|].
    unfold charge. cbn [production r_add w_add map fold_left fst snd weight Z.eqb Pos.eqb].
    apply (law_macc_zero _ L); [exact Ec|apply (law_fin_ofZ _ L); lia|].
    rewrite !Nat.sub_0_r, padded_cell by (try apply one_column_wf; cbn [one_column nr nc]; lia).
    destruct (Nat.eqb_spec (t + 1) 0); [lia|]. rewrite one_column_cell by lia.
    rewrite Nat.add_0_r, Nat.eqb_refl. rewrite (law_eq_ofZ _ L); reflexivity || lia.
Qed.
Lemma all_repeat (l : list Z) x : (forall y, In y l -> y = x) -> l = repeat x (List.length l).
Proof.
  induction l as [|a l IH]; intros H; [reflexivity|]. cbn [List.length repeat].
  rewrite (H a (or_introl eq_refl)). f_equal. apply IH. intros y Hy. apply H. right. exact Hy.
Qed.
Lemma good_pinf : ~ good (@pinf N).
Proof. unfold good. rewrite (law_lt_irrefl _ L). discriminate. Qed.
Definition subsequence_opts : opts N := named "asymmetric" WTNone [] false false true true.
Theorem asymmetric_starts_anywhere n m j0 : 0 < n -> size_ok (n + 1) m -> j0 < m ->
  exists (d : DTW N) mp, run (one_column n m j0) subsequence_opts = Ok d /\ r_map d = Some mp /\ index1 mp = map Z.of_nat (seq 0 n) /\ index2 mp = repeat (Z.of_nat j0) n.
Proof.
  intros Hn Hs Hj. set (lm := one_column n m j0).
  assert (Wf : wf_mat lm) by apply one_column_wf.
  assert (WP : well_posed no_cdist (arr lm) None subsequence_opts lm asymmetric asym_rules NoWindow).
  { apply (named_posed L lm subsequence_opts "asymmetric" NoWindow asymmetric); try reflexivity; try assumption.
    all: try constructor; try exact I. }
  destruct (column_walk n m j0 [] Hj n (le_n n)) as [vs0 [ts0 [c0 [W0 E0]]]].
  assert (U0 : usable (repeat 1 n) c0) by (apply (eq_zero_usable L); exact E0).
  destruct (dtw_open_end_iff L _ _ _ _ _ _ _ _ WP eq_refl) as [[_ U]|[d [E [Es [Ew _]]]]].
  { exfalso. exact (U j0 Hj _ _ _ _ W0 U0). }
  pose proof (wp_costs _ _ _ _ _ _ _ _ WP) as HC.
  pose proof (wp_rules _ _ _ _ _ _ _ _ WP) as Hp. rewrite <- Es in Hp.
  destruct (dtw_alignment L _ _ _ _ _ _ _ HC E Hp eq_refl) as [mp [ks [vs [ts [Em [Wk [Us [_ D]]]]]]]].
  cbn [o_open_begin subsequence_opts named admissible end_cell] in Wk, D.
  rewrite Ew in Wk.
  destruct (one_per_query_named L _ _ _ _ _ _ "asymmetric" HC E (or_introl eq_refl)) as [mp' [Em' [I1 [_ [I2 I3]]]]]; try assumption; try reflexivity.
  { rewrite Es. reflexivity. }
  rewrite Em in Em'. injection Em' as <-.
  assert (NW : nonneg_weights asym_rules).
  { apply (predefined_nonneg L "asymmetric"); [reflexivity|]. intros [K|[]]. discriminate K. }
  destruct (walk_charged L _ _ _ _ _ _ _ _ _ _ _ NW Wk Us) as [Ch _].
  destruct D as [p0 [vs' [ts' [Ev [Et [D1 [D2 [D3 [D4 D5]]]]]]]]].
  assert (All : forall p, In p vs' -> snd p = j0).
  { intros p Hp'. apply In_nth_error in Hp'. destruct Hp' as [t Ht].
    assert (Hv : nth_error vs (S t) = Some p) by (rewrite Ev; exact Ht).
    assert (Lt : t < List.length ks).
    { pose proof (walk_length _ _ _ _ _ _ _ _ _ _ _ Wk) as Hl. pose proof (nth_error_Some vs (S t)) as Q.
      rewrite Hv in Q. destruct Q as [Q _]. specialize (Q ltac:(discriminate)). lia. }
    destruct (nth_error ks t) as [k|] eqn:K1; [|apply nth_error_None in K1; lia].
    destruct (walk_steps _ _ _ _ _ _ _ _ _ _ _ Wk t k K1) as [r [p1 [K2 [_ [K4 K5]]]]].
    rewrite Hv in K4. injection K4 as K4. assert (Kf : fst p = fst p1 + r_di r) by (rewrite K4; reflexivity).
    assert (Ks : snd p = snd p1 + r_dj r) by (rewrite K4; reflexivity). rewrite <- Kf, <- Ks in K5. clear K4.
    destruct (walk_vertex_range _ _ _ _ _ _ _ _ _ _ _ Wk p) as [K6 K7]; [eapply nth_error_In; exact Hv|].
    destruct (Nat.eq_dec (snd p) j0) as [|Hne]; [assumption|exfalso].
    assert (Ha : exists a, In a (r_add r) /\ fst a = (0, 0)).
    { apply rule_no_In in K2. unfold asym_rules, productions in K2. cbn [map] in K2.
      destruct K2 as [<- | [<- | [<- | [] ]]]; eexists; (split; [left; reflexivity|reflexivity]). }
    destruct Ha as [a [A1 A2]]. specialize (Ch t k r p a K1 K2 Hv A1). rewrite A2 in Ch. cbn [fst snd] in Ch.
    rewrite !Nat.sub_0_r in Ch. destruct K5 as [K5 _]. unfold lm in *. cbn [one_column nr nc] in *.
    rewrite padded_cell in Ch by (try apply one_column_wf; cbn [one_column nr nc]; lia).
    destruct (Nat.eqb_spec (fst p) 0); [lia|]. rewrite one_column_cell in Ch by lia.
    destruct (Nat.eqb_spec (snd p) j0); [contradiction|]. exact (good_pinf Ch). }
  exists d, mp. split; [exact E|]. split; [exact Em|].
  split; [exact I1|]. rewrite (all_repeat (index2 mp) (Z.of_nat j0)).
  - rewrite I3. reflexivity.
  - intros z Hz. rewrite <- I2, D4 in Hz. apply in_map_iff in Hz. destruct Hz as [p [<- Hp']]. unfold ref_ix.
      rewrite (All p Hp'). reflexivity.
Qed.
End Start.
