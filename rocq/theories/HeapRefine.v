(** HeapRefine.v - dtw() with object identity returns what the model of Dtw.v returns
    (proofs for C69 and C70). *)
From Verif Require Import Base Num StepPattern Window Core Backtrack Dtw CountPaths Warp Heap HeapSpec HeapFrame.
From Coq Require Import ZifyBool ZifyNat.
Open Scope string_scope.
Open Scope list_scope.
Open Scope nat_scope.
Open Scope prog_scope.

Section Refine.
Context {N : Num}.
Notation heap := (heap N).

Lemma agree_lift A B C (o : out C) (f : C -> out A) (g : C -> prog N B) (h : heap) Q :
  (forall c, o = Ok c -> agree (f c) (g c h) Q) -> agree (bind o f) ((c <-- lift o ;; g c) h) Q.
Proof. intros H. unfold andthen, lift. destruct o; cbn; auto; reflexivity. Qed.
Lemma agree_then A B A' B' (o : out A') (f : A' -> out A) (p : prog N B') (g : B' -> prog N B) (h : heap) Q R :
  agree o (p h) R -> (forall a b h', R a b h' -> agree (f a) (g b h') Q) -> agree (bind o f) ((c <-- p ;; g c) h) Q.
Proof.
  unfold agree, andthen. intros H K. destruct (p h) as [[b|e| | |] h'] eqn:E; destruct o; cbn in *; try contradiction; auto.
  exact (K _ _ _ H).
Qed.
Lemma see_some A B (f : heap -> option A) (k : A -> prog N B) (h : heap) a : f h = Some a -> (c <-- see f ;; k c) h = k a h.
Proof. intros E. unfold andthen, see. rewrite E. reflexivity. Qed.
Lemma new_then B b (k : loc -> prog N B) (h : heap) : (l <-- new b ;; k l) h = k (List.length h) (h ++ [b]).
Proof. reflexivity. Qed.
Lemma ret_then A B (a : A) (k : A -> prog N B) (h : heap) : (c <-- ret a ;; k c) h = k a h.
Proof. reflexivity. Qed.
Lemma put_then B l b (k : unit -> prog N B) (h : heap) : l < List.length h -> (c <-- put l b ;; k c) h = k tt (upd h l b).
Proof. intros H. unfold andthen, put. replace (l <? List.length h) with true by lia. reflexivity. Qed.

(** loading from a longer heap *)
Lemma nth_ext (h t : heap) l b : nth_error h l = Some b -> nth_error (h ++ t) l = Some b.
Proof. intros E. rewrite nth_error_app1; [exact E|]. apply nth_error_Some. congruence. Qed.
Definition more (h h' : heap) : Prop := forall l b, nth_error h l = Some b -> nth_error h' l = Some b.
Lemma more_refl h : more h h. Proof. intros l b E. exact E. Qed.
Lemma more_trans h1 h2 h3 : more h1 h2 -> more h2 h3 -> more h1 h3. Proof. unfold more. auto. Qed.
Lemma more_app h t : more h (h ++ t). Proof. intros l b. apply nth_ext. Qed.
Lemma load_nd_more h h' r a : more h h' -> load_nd h r = Some a -> load_nd h' r = Some a.
Proof. unfold load_nd. intros M E. destruct (nth_error h (at_loc r)) as [b|] eqn:Q; [|discriminate]. rewrite (M _ _ Q). exact E. Qed.
Lemma load_mat_more h h' r a : more h h' -> load_mat h r = Some a -> load_mat h' r = Some a.
Proof. unfold load_mat. intros M E. destruct (load_nd h r) eqn:Q; [|discriminate]. rewrite (load_nd_more _ _ _ _ M Q). exact E. Qed.
Lemma load_ints_more h h' r a : more h h' -> load_ints h r = Some a -> load_ints h' r = Some a.
Proof. unfold load_ints. intros M E. destruct (nth_error h (at_loc r)) as [b|] eqn:Q; [|discriminate]. rewrite (M _ _ Q). exact E. Qed.
Lemma load_idx_more h h' r a : more h h' -> load_idx h r = Some a -> load_idx h' r = Some a.
Proof. unfold load_idx. intros M E. destruct (nth_error h (at_loc r)) as [b|] eqn:Q; [|discriminate]. rewrite (M _ _ Q). exact E. Qed.
Lemma load_dict_more h h' r a : more h h' -> load_dict h r = Some a -> load_dict h' r = Some a.
Proof. unfold load_dict. intros M E. destruct (nth_error h r) as [b|] eqn:Q; [|discriminate]. rewrite (M _ _ Q). exact E. Qed.
Lemma load_pattern_more h h' r a : more h h' -> load_pattern h r = Some a -> load_pattern h' r = Some a.
Proof.
  unfold load_pattern. intros M E. destruct (nth_error h r) as [[]|] eqn:Q; try discriminate. rewrite (M _ _ Q).
  destruct (nth_error h mx) as [b|] eqn:Q2; [|discriminate]. rewrite (M _ _ Q2). exact E.
Qed.

Definition arr (m : mat N) : block N := BNd (NdArray (Nd2 m) true true).
Lemma load_mat_arr h l m : nth_error h l = Some (arr m) -> load_mat h (Ref l []) = Some m.
Proof. unfold load_mat, load_nd. cbn [at_loc views]. intros ->. reflexivity. Qed.
Lemma load_ints_at h l m : nth_error h l = Some (BInts m : block N) -> load_ints h (Ref l []) = Some m.
Proof. unfold load_ints. cbn [at_loc views]. intros ->. reflexivity. Qed.
Lemma load_idx_at h l m : nth_error h l = Some (BIdx m : block N) -> load_idx h (Ref l []) = Some m.
Proof. unfold load_idx. cbn [at_loc views]. intros ->. reflexivity. Qed.
Lemma nth_end (h : heap) b : nth_error (h ++ [b]) (List.length h) = Some b.
Proof. rewrite nth_error_app2, Nat.sub_diag by lia. reflexivity. Qed.

(** ** _computeCM_wrapper *)
Lemma wrapper_refines (h : heap) wm lm nsteps dir cm lma lmv wmv dirv cmv :
  load_nd h lm = Some lma -> nd_val lma = Nd2 lmv -> nth_error h wm = Some (BInts wmv) -> nth_error h dir = Some (BVec dirv) ->
  nth_error h cm = Some (arr cmv) ->
  agree (computeCM_wrapper (is_double lma && is_corder lma) wmv lmv nsteps dirv cmv) (h_wrapper wm lm nsteps dir cm h)
    (fun q o h' => o = List.length h + 1 /\
       h' = upd (h ++ [BInts (snd q)]) cm (arr (fst q)) ++ [BObj [("costMatrix", VRef (Ref cm [])); ("directionMatrix", VRef (Ref (List.length h) []))]]).
Proof.
  intros E1 E2 E3 E4 E5. unfold computeCM_wrapper. open_wrapper.
  assert (Hcm : cm < List.length h) by (apply nth_error_Some; congruence).
  rewrite (see_some _ _ _ _ _ _ E1). erewrite see_some by (unfold load_mat; rewrite E1, E2; reflexivity).
  erewrite see_some by (apply load_ints_at; exact E3). erewrite see_some by (unfold load_vec; rewrite E4; reflexivity).
  erewrite see_some by (apply load_mat_arr; exact E5).
  destruct (negb _); [reflexivity|]. destruct (Nat.eqb (nr lmv) 0 || Nat.eqb (nc lmv) 0 || Nat.eqb (List.length dirv) 0); [reflexivity|].
  apply agree_lift. intros n En. apply agree_lift. intros m Em. rewrite new_then.
  erewrite see_some by (apply load_ints_at; apply nth_end). cbn [dat].
  apply agree_lift. intros [cm' sm'] Ec. cbn [fst snd].
  rewrite put_then by (rewrite app_length; cbn; lia).
  rewrite put_then by (rewrite upd_length, app_length; cbn; lia).
  unfold agree, new. cbn [fst snd]. split.
  - rewrite !upd_length, app_length. reflexivity.
  - f_equal. rewrite (upd_app_l h) by exact Hcm. rewrite upd_app_r by (rewrite upd_length; lia). rewrite upd_length, Nat.sub_diag. cbn [upd].
    rewrite (upd_app_l h) by exact Hcm. reflexivity.
Qed.

(** ** _globalCostMatrix *)
Definition out_fields (cm sm sp : loc) : list (string * val N) :=
  [("costMatrix", VRef (Ref cm [])); ("directionMatrix", VRef (Ref sm [])); ("stepPattern", VRef (Ref sp []))].

Lemma global_refines (h : heap) lm lma lmv sp spv wf seed seedv args kw :
  load_nd h lm = Some lma -> nd_val lma = Nd2 lmv -> load_pattern h sp = Some spv -> load_dict h args = Some kw ->
  match seed, seedv with
  | None, None => True
  | Some p, Some v => nth_error h p = Some (arr v)
  | _, _ => False
  end ->
  agree (globalCostMatrix (is_double lma && is_corder lma) lmv spv wf seedv kw) (h_globalCostMatrix lm sp wf seed args h)
    (fun q o h' => exists cm sm, nth_error h' o = Some (BObj (out_fields cm sm sp)) /\
       nth_error h' cm = Some (arr (fst q)) /\ nth_error h' sm = Some (BInts (snd q)) /\
       List.length h <= o /\ (seed = Some cm \/ (seed = None /\ List.length h <= cm)) /\ List.length h <= sm /\
       List.length h <= List.length h' /\
       forall l b, nth_error h l = Some b -> seed <> Some l -> nth_error h' l = Some b).
Proof.
  intros E1 E2 E3 E4 Hs. unfold globalCostMatrix. open_global.
  erewrite see_some by (unfold load_mat; rewrite E1, E2; reflexivity).
  rewrite (see_some _ _ _ _ _ _ E4). apply agree_lift. intros wml Ew. rewrite new_then.
  erewrite see_some by (eapply load_pattern_more; [apply more_app|exact E3]). rewrite new_then.
  set (h1 := (h ++ [BInts (Mat (nr lmv) (nc lmv) wml)]) ++ [BVec (get_p spv)]).
  assert (M1 : more h h1) by (eapply more_trans; apply more_app).
  assert (L1 : List.length h1 = List.length h + 2) by (unfold h1; rewrite !app_length; cbn; lia).
  assert (W1 : nth_error h1 (List.length h) = Some (BInts (Mat (nr lmv) (nc lmv) wml))) by (unfold h1; apply nth_ext; apply nth_end).
  assert (D1 : nth_error h1 (List.length (h ++ [BInts (Mat (nr lmv) (nc lmv) wml)])) = Some (BVec (get_p spv))) by (unfold h1; apply nth_end).
  set (dir := List.length (h ++ _)) in *. assert (Ldir : dir = List.length h + 1) by (unfold dir; rewrite app_length; reflexivity).
  apply (agree_then _ _ _ _ _ _ _ _ _ _ (fun (v : mat N) (c : loc) (h2 : heap) =>
    nth_error h2 c = Some (arr v) /\ (seed = Some c \/ (seed = None /\ List.length h <= c /\ c <> List.length h /\ c <> dir)) /\ more h1 h2)).
  - destruct seed as [p|], seedv as [v|]; try contradiction.
    + unfold agree, ret. cbn [fst snd]. split; [apply M1; exact Hs|]. split; [left; reflexivity|apply more_refl].
    + rewrite new_then. destruct (mget lmv 0 0) as [v|]; [|reflexivity]. rewrite ret_then.
      rewrite put_then by (rewrite app_length; cbn; lia). unfold agree, ret. cbn [fst snd].
      rewrite upd_app_r by lia. rewrite Nat.sub_diag. cbn [upd]. split; [apply nth_end|]. split; [right; split; [reflexivity|lia]|apply more_app].
  - intros cmv c h2 [Hc [Hcl M2]].
    assert (M02 : more h h2) by (eapply more_trans; eauto).
    assert (L2 : List.length h1 <= List.length h2).
    { assert (X : List.length h2 > List.length h + 1); [|lia]. rewrite <- Ldir. apply nth_error_Some. rewrite (M2 _ _ D1). discriminate. }
    rewrite <- (match computeCM_wrapper (is_double lma && is_corder lma) (Mat (nr lmv) (nc lmv) wml) lmv (Z.of_nat (get_n_rows spv)) (get_p spv) cmv as o
       return bind o (fun q => Ok q) = o with Ok _ => eq_refl | Raise _ => eq_refl | Exit => eq_refl | UB => eq_refl | Diverge => eq_refl end).
    eapply agree_then.
    + apply wrapper_refines with (lma := lma); [eapply load_nd_more; eassumption|exact E2|apply M2; exact W1|apply M2; exact D1|exact Hc].
    + intros [cmx dmx] o h3 [-> ->]. cbn [fst snd].
      assert (Hcl2 : c < List.length h2) by (apply nth_error_Some; congruence).
      set (f0 := [("costMatrix", VRef (Ref c [])); ("directionMatrix", VRef (Ref (List.length h2) []))]).
      set (h3 := upd (h2 ++ [BInts dmx]) c (arr cmx)).
      assert (L3 : List.length h3 = List.length h2 + 1) by (unfold h3; rewrite upd_length, app_length; reflexivity).
      rewrite <- L3. unfold setattr at 1. unfold andthen at 1. unfold load_fields. rewrite nth_end. unfold put.
      replace (List.length h3 <? List.length (h3 ++ [BObj f0])) with true by (symmetry; apply Nat.ltb_lt; rewrite app_length; cbn [List.length]; lia).
      rewrite upd_app_r by lia. rewrite Nat.sub_diag. cbn [upd]. unfold agree, ret. cbn [fst snd].
      exists c, (List.length h2).
      assert (G : forall l b, nth_error h3 l = Some b -> nth_error (h3 ++ [BObj (set_field "stepPattern" (VRef (Ref sp [])) f0)]) l = Some b) by (intros; apply nth_ext; assumption).
      split; [apply nth_end|]. split; [|split; [|split; [|split; [|split; [|split]]]]].
      * apply G. unfold h3. apply nth_upd_same. rewrite app_length. lia.
      * apply G. unfold h3. rewrite nth_upd_other by lia. apply nth_end.
      * lia.
      * destruct Hcl as [Hcl|[Q1 [Q2 _]]]; auto.
      * lia.
      * rewrite app_length. lia.
      * intros l b Q Qs. apply G. unfold h3. rewrite nth_upd_other; [apply nth_ext; apply M02; exact Q|].
        intros Ec. subst l. destruct Hcl as [Hcl|[_ [Hcl _]]]; [exact (Qs Hcl)|]. assert (c < List.length h) by (apply nth_error_Some; rewrite Q; discriminate). lia.
Qed.
End Refine.
