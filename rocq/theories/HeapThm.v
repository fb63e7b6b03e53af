(** HeapThm.v - what calls leave behind and what results share (theorems for C69 and C70). *)
From Verif Require Import Base Num StepPattern Window Core Backtrack Dtw CountPaths Warp Heap HeapSpec HeapFrame HeapRefine HeapDtw HeapMain.
From Coq Require Import ZifyBool ZifyNat.
Open Scope string_scope.
Open Scope list_scope.
Open Scope nat_scope.
Open Scope prog_scope.

Section HeapThm.
Context {N : Num}.

Lemma unchanged_more (h h' : heap N) : unchanged h h' -> more h h'.
Proof. intros [t ->]. apply more_app. Qed.

Lemma keeps_here (h : heap N) A (p : prog N A) Q : keeps h p Q -> unchanged h (snd (p h)) /\ forall a, fst (p h) = Ok a -> Q a.
Proof. intros K. destruct (K []) as [[t E] R]. rewrite app_nil_r in *. split; [exists t; exact E|exact R]. Qed.

(** ** C69 *)
Theorem calls_change_nothing E es (h h' : heap N) : (forall e, In e es -> is_call e) -> run E es h = Some h' -> unchanged h h'.
Proof. apply run_keeps. Qed.
Theorem call_outcome E (h : heap N) a x y o : worth E h a x y o ->
  agree (dtw (ha_cdist a) x y o) (h_dtw E a h) (fun d l h' => load_result h' l = Some d /\ List.length h <= l) /\ unchanged h (snd (h_dtw E a h)).
Proof.
  intros W. destruct (keeps_here _ _ _ _ (keeps_dtw h E a)) as [K1 K2]. split; [|exact K1].
  pose proof (dtw_refines E h a x y o W) as R. unfold agree in *. destruct (dtw _ x y o), (fst (h_dtw E a h)) eqn:F; auto.
  split; [apply R|apply K2; reflexivity].
Qed.

Lemma pattern_worth_more E (h h' : heap N) s p : more h h' -> pattern_worth E h s p -> pattern_worth E h' s p.
Proof.
  intros M [l sp Q1|s0 l sp Q1 Q2 Q3|s0 Q1 Q2]; [eapply worth_object|eapply worth_name|eapply worth_unknown]; try eassumption; eapply load_pattern_more; eassumption.
Qed.
Lemma worth_more E (h h' : heap N) a x y o : more h h' -> worth E h a x y o -> worth E h' a x y o.
Proof.
  intros M [W1 W2 W3 W4 W5 W6 W7 W8 W9]. constructor; auto.
  - eapply load_nd_more; eassumption.
  - destruct (ha_y a); [|exact W2]. destruct W2 as [v [Q1 Q2]]. exists v. split; [eapply load_nd_more; eassumption|exact Q2].
  - eapply pattern_worth_more; eassumption.
  - eapply load_dict_more; eassumption.
Qed.
Theorem call_after_calls E es (h h1 : heap N) a x y o : worth E h a x y o -> (forall e, In e es -> is_call e) -> run E es h = Some h1 ->
  agree (dtw (ha_cdist a) x y o) (h_dtw E a h1) (fun d l h' => load_result h' l = Some d).
Proof.
  intros W C R. pose proof (dtw_refines E h1 a x y o (worth_more _ _ _ _ _ _ _ (unchanged_more _ _ (run_keeps _ _ _ _ C R)) W)) as A.
  unfold agree in *. destruct (dtw _ x y o), (fst (h_dtw E a h1)); auto. apply A.
Qed.

Lemma maybe_more A (F : list (string * val N)) k (f g : ref -> option A) o : (forall r a, f r = Some a -> g r = Some a) -> maybe F k f = Some o -> maybe F k g = Some o.
Proof. unfold maybe. intros M. destruct (lookup k F) as [[]|]; auto. destruct (f r) eqn:Q; [|discriminate]. rewrite (M _ _ Q). auto. Qed.
Lemma mapping_more (h h' : heap N) F m : more h h' -> load_mapping h F = Some m -> load_mapping h' F = Some m.
Proof.
  intros M. unfold load_mapping.
  assert (K : forall k, match maybe F k (load_idx h) with Some o => maybe F k (load_idx h') = Some o | None => True end).
  { intros k. destruct (maybe F k (load_idx h)) eqn:Q; [|exact I]. eapply maybe_more; [|exact Q]. intros r a. apply load_idx_more. exact M. }
  pose proof (K "index1"); pose proof (K "index2"); pose proof (K "index1s"); pose proof (K "index2s"); pose proof (K "stepsTaken"). clear K.
  destruct (maybe F "index1" (load_idx h)) as [[]|]; try discriminate; destruct (maybe F "index2" (load_idx h)) as [[]|]; try discriminate;
  destruct (maybe F "index1s" (load_idx h)) as [[]|]; try discriminate; destruct (maybe F "index2s" (load_idx h)) as [[]|]; try discriminate;
  destruct (maybe F "stepsTaken" (load_idx h)) as [[]|]; try discriminate;
  rewrite H, H0, H1, H2, H3; auto.
Qed.
Lemma obind_some A B (o : option A) (f : A -> option B) b : obind o f = Some b -> exists a, o = Some a /\ f a = Some b.
Proof. destruct o; cbn; [eauto|discriminate]. Qed.

(** the parts of a result *)
Lemma result_parts (h : heap N) l d : load_result h l = Some d -> exists F, load_fields h l = Some F /\
  get_nat F "N" = Some (r_N d) /\ get_nat F "M" = Some (r_M d) /\ get_bool F "openEnd" = Some (r_openEnd d) /\ get_bool F "openBegin" = Some (r_openBegin d) /\
  get_win F "windowFunction" = Some (r_windowFunction d) /\ obind (field_ref F "windowArgs") (fun r => load_dict h (at_loc r)) = Some (r_windowArgs d) /\
  obind (field_ref F "stepPattern") (fun r => load_pattern h (at_loc r)) = Some (r_stepPattern d) /\
  get_nat F "jmin" = Some (r_jmin d) /\ get_num F "distance" = Some (r_distance d) /\ get_num F "normalizedDistance" = Some (r_normalizedDistance d) /\
  load_mapping h F = Some (r_map d) /\ maybe F "costMatrix" (load_mat h) = Some (r_costMatrix d) /\ maybe F "directionMatrix" (load_ints h) = Some (r_directionMatrix d) /\
  maybe F "localCostMatrix" (load_mat h) = Some (r_localCostMatrix d) /\
  maybe F "query" (fun r => option_map (@nd_val N) (load_nd h r)) = Some (r_query d) /\
  maybe F "reference" (fun r => option_map (@nd_val N) (load_nd h r)) = Some (r_reference d).
Proof.
  unfold load_result. intros Q.
  repeat match type of Q with obind ?o _ = _ => let H := fresh in let b := fresh "b" in apply obind_some in Q; destruct Q as [b [H Q]] end.
  injection Q as <-. eexists. split; [eassumption|]. cbn [r_N r_M r_openEnd r_openBegin r_windowFunction r_windowArgs r_stepPattern r_jmin r_distance r_normalizedDistance r_map r_costMatrix r_directionMatrix r_localCostMatrix r_query r_reference].
  repeat (split; [assumption|]). assumption.
Qed.
Lemma result_make (h : heap N) l d F : load_fields h l = Some F ->
  get_nat F "N" = Some (r_N d) -> get_nat F "M" = Some (r_M d) -> get_bool F "openEnd" = Some (r_openEnd d) -> get_bool F "openBegin" = Some (r_openBegin d) ->
  get_win F "windowFunction" = Some (r_windowFunction d) -> obind (field_ref F "windowArgs") (fun r => load_dict h (at_loc r)) = Some (r_windowArgs d) ->
  obind (field_ref F "stepPattern") (fun r => load_pattern h (at_loc r)) = Some (r_stepPattern d) ->
  get_nat F "jmin" = Some (r_jmin d) -> get_num F "distance" = Some (r_distance d) -> get_num F "normalizedDistance" = Some (r_normalizedDistance d) ->
  load_mapping h F = Some (r_map d) -> maybe F "costMatrix" (load_mat h) = Some (r_costMatrix d) -> maybe F "directionMatrix" (load_ints h) = Some (r_directionMatrix d) ->
  maybe F "localCostMatrix" (load_mat h) = Some (r_localCostMatrix d) ->
  maybe F "query" (fun r => option_map (@nd_val N) (load_nd h r)) = Some (r_query d) ->
  maybe F "reference" (fun r => option_map (@nd_val N) (load_nd h r)) = Some (r_reference d) -> load_result h l = Some d.
Proof.
  intros A0 A1 A2 A3 A4 A5 A6 A7 A8 A9 B0 B1 B2 B3 B4 B5 B6. unfold load_result.
  rewrite A0. cbn [obind]. rewrite A1, A2, A3, A4, A5. cbn [obind]. rewrite A6. cbn [obind]. rewrite A7. cbn [obind]. rewrite A8, A9, B0, B1, B2, B3, B4, B5, B6.
  destruct d; reflexivity.
Qed.
Lemma result_more (h h' : heap N) l d : more h h' -> load_result h l = Some d -> load_result h' l = Some d.
Proof.
  intros M Q. destruct (result_parts _ _ _ Q) as [F [A0 [A1 [A2 [A3 [A4 [A5 [A6 [A7 [A8 [A9 [B0 [B1 [B2 [B3 [B4 [B5 B6]]]]]]]]]]]]]]]]].
  eapply (result_make h' l d F); auto.
  - unfold load_fields in *. destruct (nth_error h l) eqn:E; [|discriminate]. rewrite (M _ _ E). exact A0.
  - apply obind_some in A6. destruct A6 as [r [-> E]]. cbn. eapply load_dict_more; eassumption.
  - apply obind_some in A7. destruct A7 as [r [-> E]]. cbn. eapply load_pattern_more; eassumption.
  - eapply mapping_more; eassumption.
  - eapply maybe_more; [|exact B2]. intros r a. apply load_mat_more. exact M.
  - eapply maybe_more; [|exact B3]. intros r a. apply load_ints_more. exact M.
  - eapply maybe_more; [|exact B4]. intros r a. apply load_mat_more. exact M.
  - eapply maybe_more; [|exact B5]. cbv beta. intros r a E. destruct (load_nd h r) eqn:E1; [|discriminate]. rewrite (load_nd_more _ _ _ _ M E1). exact E.
  - eapply maybe_more; [|exact B6]. cbv beta. intros r a E. destruct (load_nd h r) eqn:E1; [|discriminate]. rewrite (load_nd_more _ _ _ _ M E1). exact E.
Qed.
Theorem results_stay E es (h h1 : heap N) l d : load_result h l = Some d -> (forall e, In e es -> is_call e) -> run E es h = Some h1 -> load_result h1 l = Some d.
Proof. intros Q C R. eapply result_more; [|exact Q]. apply unchanged_more. eapply run_keeps; eassumption. Qed.
Theorem imported_stays E es (h h1 : heap N) : imported E h -> (forall e, In e es -> is_call e) -> run E es h = Some h1 -> imported E h1.
Proof.
  intros [I1 I2] C R. pose proof (unchanged_more _ _ (run_keeps _ _ _ _ C R)) as M. split; [eapply load_dict_more; eassumption|].
  intros s. specialize (I2 s). destruct (lookup s (e_patterns E)); [|exact I2]. destruct I2 as [sp [Q1 Q2]]. exists sp. split; [eapply load_pattern_more; eassumption|exact Q2].
Qed.
Lemma boot_lookup : forall t (h0 : heap N), forall s,
  match lookup s (boot_names (N:=N) (List.length h0) t) with
  | Some l => exists sp, load_pattern (h0 ++ boot_heap (List.length h0) t) l = Some sp /\ lookup s t = Some sp
  | None => lookup s t = None
  end.
Proof.
  induction t as [|[k sp] t IH]; intros h0 s; cbn [boot_names boot_heap lookup]; [reflexivity|].
  destruct (String.eqb s k).
  - exists sp. split; [|reflexivity]. unfold load_pattern. rewrite nth_error_app2 by lia. replace (_ + 1 - _) with 1 by lia. cbn [nth_error].
    rewrite nth_error_app2 by lia. rewrite Nat.sub_diag. destruct sp; reflexivity.
  - specialize (IH (h0 ++ [BRows (mx sp); BPattern (List.length h0) (hint sp)]) s). rewrite app_length in IH. cbn [List.length] in IH. rewrite <- app_assoc in IH. exact IH.
Qed.
Theorem import_gives : imported (N:=N) (fst (import_package (N:=N))) (snd (import_package (N:=N))).
Proof. split; [reflexivity|]. intros s. exact (boot_lookup pattern_table [BDict []] s). Qed.

(** a step pattern by name, window arguments not given *)
Theorem call_with_defaults E es (h h1 : heap N) a x y o s : imported E h -> load_nd h (ha_x a) = Some x ->
  match ha_y a with None => y = None | Some r => exists v, load_nd h r = Some v /\ y = Some v end ->
  ha_step_pattern a = HName s -> ha_window_args a = None ->
  o = mkOpts (SPName s) (ha_window_type a) [] (ha_keep_internals a) (ha_distance_only a) (ha_open_end a) (ha_open_begin a) ->
  (forall e, In e es -> is_call e) -> run E es h = Some h1 ->
  agree (dtw (ha_cdist a) x y o) (h_dtw E a h1) (fun d l h' => load_result h' l = Some d).
Proof.
  intros [I1 I2] X Y S A O C R. apply (call_after_calls E es h); auto. subst o. constructor; cbn; auto.
  - rewrite S. specialize (I2 s). destruct (lookup s (e_patterns E)) eqn:L.
    + destruct I2 as [sp [Q1 Q2]]. eapply worth_name; eassumption.
    + apply worth_unknown; assumption.
  - rewrite A. exact I1.
Qed.

Theorem T_is_new (h : heap N) sp v : load_pattern h sp = Some v ->
  exists l h' m, h_T sp h = (Ok l, h') /\ unchanged h h' /\ load_pattern h' l = Some (T v) /\
    nth_error h' l = Some (BPattern m (hint (T v))) /\ List.length h <= l /\ List.length h <= m.
Proof.
  intros Q. open_T. rewrite (see_some _ _ _ _ _ _ Q). rewrite !new_then. unfold new.
  eexists _, _, _. split; [reflexivity|]. split; [rewrite <- !app_assoc; eexists; reflexivity|].
  split; [|split; [apply nth_end|rewrite !app_length; cbn; lia]].
  unfold load_pattern. rewrite nth_end. erewrite nth_ext by apply nth_end. destruct v; reflexivity.
Qed.
Theorem countPaths_reads (h : heap N) l d : load_result h l = Some d -> h_countPaths l h = (countPaths d, h).
Proof. intros Q. open_countPaths. rewrite (see_some _ _ _ _ _ _ Q). reflexivity. Qed.
Theorem warpArea_reads (h : heap N) l d : load_result h l = Some d -> h_warpArea l h = (warpArea d, h).
Proof. intros Q. open_warpArea. rewrite (see_some _ _ _ _ _ _ Q). reflexivity. Qed.
Theorem warp_reads (h : heap N) l d b : load_result h l = Some d ->
  agree (warp d b) (h_warp l b h) (fun ii r h' => load_idx h' (Ref r []) = Some ii /\ List.length h <= r /\ unchanged h h').
Proof.
  intros Q. open_warp. rewrite (see_some _ _ _ _ _ _ Q). unfold andthen, lift, new, agree. destruct (warp d b); cbn; auto.
  split; [apply load_idx_at; apply nth_end|]. split; [lia|eexists; reflexivity].
Qed.

(** ** C70 *)
Theorem what_results_share E (h : heap N) a x y o l h' : worth E h a x y o -> h_dtw E a h = (Ok l, h') -> result_refs E h a h' l.
Proof.
  intros W R. pose proof (dtw_refines E h a x y o W) as A. unfold agree in A. rewrite R in A. cbn [fst snd] in A.
  destruct (dtw _ x y o); try contradiction. apply A.
Qed.

Lemma run_range E es (h h' : heap N) lo : writes_only (outside lo (List.length h)) es -> run E es h = Some h' ->
  forall l b, lo <= l -> nth_error h l = Some b -> nth_error h' l = Some b.
Proof.
  intros W R l b L Q. assert (Hl : l < List.length h) by (apply nth_error_Some; congruence).
  destruct (run_at _ _ _ _ l R Hl) as [E1 _]; [|congruence]. intros b' I. destruct (W _ _ I); lia.
Qed.
Lemma maybe_agree A (F : list (string * val N)) k (f g : ref -> option A) o o' :
  (forall r, field_ref F k = Some r -> forall a a', f r = Some a -> g r = Some a' -> a = a') ->
  maybe F k f = Some o -> maybe F k g = Some o' -> o = o'.
Proof.
  unfold maybe, field_ref. intros M. destruct (lookup k F) as [[]|]; try congruence.
  destruct (f r) eqn:Q; [|discriminate]. destruct (g r) eqn:Q2; [|discriminate]. rewrite (M _ eq_refl _ _ Q Q2). congruence.
Qed.

Theorem own_stays E (h : heap N) a x y o l (h1 : heap N) d es (h2 : heap N) d2 : worth E h a x y o -> h_dtw E a h = (Ok l, h1) -> load_result h1 l = Some d ->
  writes_only (outside (List.length h) (List.length h1)) es -> run E es h1 = Some h2 -> load_result h2 l = Some d2 ->
  own d2 = own d.
Proof.
  intros W R Q1 Wr Rn Q2. destruct (what_results_share _ _ _ _ _ _ _ _ W R) as [F [sp [S1 [_ [_ [_ [S2 [_ S3]]]]]]]].
  pose proof (run_range _ _ _ _ _ Wr Rn) as M.
  destruct (result_parts _ _ _ Q1) as [F1 [A0 [A1 [A2 [A3 [A4 [A5 [A6 [A7 [A8 [A9 [B0 [B1 [B2 [B3 [B4 _]]]]]]]]]]]]]]]].
  destruct (result_parts _ _ _ Q2) as [F2 [C0 [C1 [C2 [C3 [C4 [C5 [C6 [C7 [C8 [C9 [D0 [D1 [D2 [D3 [D4 _]]]]]]]]]]]]]]]].
  rewrite S1 in A0. injection A0 as <-.
  assert (F2 = F).
  { unfold load_fields in *. destruct (nth_error h1 l) as [b|] eqn:E1; [|discriminate]. rewrite (M l b ltac:(lia) E1) in C0. congruence. }
  subst F2. unfold own.
  assert (MAT : forall k o o', In k own_keys -> maybe F k (load_mat h1) = Some o -> maybe F k (load_mat h2) = Some o' -> o = o').
  { intros k oo oo' Hk. apply maybe_agree. intros r Hr u v. unfold load_mat, load_nd. destruct (S2 k r Hk Hr) as [L1 L2].
    destruct (nth_error h1 (at_loc r)) as [b|] eqn:E1; [|discriminate]. rewrite (M _ _ L1 E1). congruence. }
  assert (INTS : forall k o o', In k own_keys -> maybe F k (load_ints h1) = Some o -> maybe F k (load_ints h2) = Some o' -> o = o').
  { intros k oo oo' Hk. apply maybe_agree. intros r Hr u v. unfold load_ints. destruct (S2 k r Hk Hr) as [L1 L2].
    destruct (nth_error h1 (at_loc r)) as [b|] eqn:E1; [|discriminate]. rewrite (M _ _ L1 E1). congruence. }
  assert (IDX : forall k, In k own_keys -> match maybe F k (load_idx h1) with Some o => maybe F k (load_idx h2) = Some o | None => True end).
  { intros k Hk. destruct (maybe F k (load_idx h1)) eqn:G; [|exact I]. unfold maybe in *. destruct (lookup k F) as [[]|] eqn:G1; auto.
    assert (Hr : field_ref F k = Some r) by (unfold field_ref; rewrite G1; reflexivity). destruct (S2 k r Hk Hr) as [L1 L2].
    unfold load_idx in *. destruct (nth_error h1 (at_loc r)) as [b|] eqn:E1; [|discriminate]. rewrite (M _ _ L1 E1). exact G. }
  assert (MAP : r_map d2 = r_map d).
  { unfold load_mapping in B1, D1.
    assert (X1 := IDX "index1" ltac:(cbn; tauto)). assert (X2 := IDX "index2" ltac:(cbn; tauto)). assert (X3 := IDX "index1s" ltac:(cbn; tauto)).
    assert (X4 := IDX "index2s" ltac:(cbn; tauto)). assert (X5 := IDX "stepsTaken" ltac:(cbn; tauto)).
    destruct (maybe F "index1" (load_idx h1)) as [[]|]; try discriminate B1; destruct (maybe F "index2" (load_idx h1)) as [[]|]; try discriminate B1;
    destruct (maybe F "index1s" (load_idx h1)) as [[]|]; try discriminate B1; destruct (maybe F "index2s" (load_idx h1)) as [[]|]; try discriminate B1;
    destruct (maybe F "stepsTaken" (load_idx h1)) as [[]|]; try discriminate B1; rewrite X1, X2, X3, X4, X5 in D1; congruence. }
  rewrite MAP, <- (MAT "costMatrix" _ _ ltac:(cbn; tauto) B2 D2), <- (INTS "directionMatrix" _ _ ltac:(cbn; tauto) B3 D3), <- (MAT "localCostMatrix" _ _ ltac:(cbn; tauto) B4 D4).
  assert (r_N d2 = r_N d) as -> by congruence. assert (r_M d2 = r_M d) as -> by congruence. assert (r_openEnd d2 = r_openEnd d) as -> by congruence.
  assert (r_openBegin d2 = r_openBegin d) as -> by congruence. assert (r_windowFunction d2 = r_windowFunction d) as -> by congruence.
  assert (r_jmin d2 = r_jmin d) as -> by congruence. assert (r_distance d2 = r_distance d) as -> by congruence.
  assert (r_normalizedDistance d2 = r_normalizedDistance d) as -> by congruence. reflexivity.
Qed.

(** What the result shares with its caller shows the current state of those objects. *)
Theorem shared_follows E (h : heap N) a x y o l (h1 : heap N) es (h2 : heap N) d2 : worth E h a x y o -> h_dtw E a h = (Ok l, h1) ->
  writes_only (outside (List.length h) (List.length h1)) es -> run E es h1 = Some h2 -> load_result h2 l = Some d2 ->
  load_dict h2 (args_loc E a) = Some (r_windowArgs d2) /\
  (exists sp, pattern_loc E (ha_step_pattern a) = Some sp /\ load_pattern h2 sp = Some (r_stepPattern d2)) /\
  (ha_keep_internals a = true -> forall yr, ha_y a = Some yr ->
     r_query d2 = option_map (@nd_val N) (load_nd h2 (column_ref h (ha_x a))) /\
     r_reference d2 = option_map (@nd_val N) (load_nd h2 (column_ref h yr))).
Proof.
  intros W R Wr Rn Q2. destruct (what_results_share _ _ _ _ _ _ _ _ W R) as [F [sp [S1 [S4 [S5 [S6 [S2 [S7 S3]]]]]]]].
  pose proof (run_range _ _ _ _ _ Wr Rn) as M.
  destruct (result_parts _ _ _ Q2) as [F2 [C0 [C1 [C2 [C3 [C4 [C5 [C6 [C7 [C8 [C9 [D0 [D1 [D2 [D3 [D4 [D5 D6]]]]]]]]]]]]]]]]].
  assert (F2 = F).
  { unfold load_fields in *. destruct (nth_error h1 l) as [b|] eqn:E1; [|discriminate]. rewrite (M l b ltac:(lia) E1) in C0. congruence. }
  subst F2. rewrite S6 in C6. rewrite S5 in C7. cbn [obind at_loc] in C6, C7. split; [exact C6|]. split; [exists sp; auto|].
  intros Kp yr Hy. destruct (S7 Kp _ Hy) as [T1 T2]. unfold maybe, field_ref in *.
  destruct (lookup "query" F) as [[]|]; try discriminate T1. destruct (lookup "reference" F) as [[]|]; try discriminate T2.
  injection T1 as ->. injection T2 as ->. cbv beta in *.
  destruct (option_map nd_val (load_nd h2 (column_ref h (ha_x a)))); [|discriminate D5].
  destruct (option_map nd_val (load_nd h2 (column_ref h yr))); [|discriminate D6]. split; congruence.
Qed.

(** Two results have no memory in common. *)
Theorem results_disjoint E (h : heap N) a x y o l (h1 : heap N) es (h2 : heap N) a' x' y' o' l' (h3 : heap N) F F' :
  worth E h a x y o -> h_dtw E a h = (Ok l, h1) -> run E es h1 = Some h2 ->
  worth E h2 a' x' y' o' -> h_dtw E a' h2 = (Ok l', h3) ->
  load_fields h1 l = Some F -> load_fields h3 l' = Some F' ->
  l <> l' /\ forall k k' r r', In k own_keys -> In k' own_keys -> field_ref F k = Some r -> field_ref F' k' = Some r' -> at_loc r <> at_loc r'.
Proof.
  intros W R Rn W' R' G G'.
  destruct (what_results_share _ _ _ _ _ _ _ _ W R) as [F0 [sp [S1 [_ [_ [_ [S2 [_ S3]]]]]]]]. rewrite G in S1. injection S1 as <-.
  destruct (what_results_share _ _ _ _ _ _ _ _ W' R') as [F0' [sp' [S1' [_ [_ [_ [S2' [_ S3']]]]]]]]. rewrite G' in S1'. injection S1' as <-.
  assert (L : List.length h1 <= List.length h2).
  { clear -Rn S3. destruct (Nat.eq_dec (List.length h1) 0); [lia|].
    revert h1 Rn S3 n. induction es as [|e es IH]; intros h1 Rn S3 n; cbn [run] in Rn; [injection Rn as <-; lia|].
    destruct (step E e h1) as [h1'|] eqn:S; [|discriminate].
    assert (Q : List.length h1 <= List.length h1').
    { destruct (match e with EvWrite _ _ => true | _ => false end) eqn:B.
      - destruct e; try discriminate. cbn [step] in S. unfold put in S. destruct (l0 <? List.length h1); cbn in S; [|discriminate]. injection S as <-. rewrite upd_length. lia.
      - assert (C : is_call e) by (destruct e; try discriminate; exact I). rewrite <- (app_nil_r h1) in S.
        destruct (step_keeps _ _ _ _ _ C S) as [t' ->]. rewrite app_length. lia. }
    specialize (IH h1' Rn ltac:(lia) ltac:(lia)). lia. }
  split; [lia|]. intros k k' r r' K K' Q Q'. specialize (S2 k r K Q). specialize (S2' k' r' K' Q'). lia.
Qed.
End HeapThm.
