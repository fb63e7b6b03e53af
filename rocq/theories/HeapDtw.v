(** HeapDtw.v - dtw() with object identity returns what the model of Dtw.v returns: the whole
    call (proofs for C69 and C70). *)
From Verif Require Import Base Num StepPattern Window Core Backtrack Dtw CountPaths Warp Heap HeapSpec HeapFrame HeapRefine.
From Coq Require Import ZifyBool ZifyNat.
Open Scope string_scope.
Open Scope list_scope.
Open Scope nat_scope.
Open Scope prog_scope.

Section HeapDtw.
Context {N : Num}.
Notation heap := (heap N).

(** A heap whose object [g] has the attributes [F] *)
Definition st (H : heap) (g : loc) (F : list (string * val N)) : heap := upd H g (BObj F).
Lemma st_length H g F : List.length (st H g F) = List.length H.
Proof. apply upd_length. Qed.
Lemma st_app H g F b : g < List.length H -> st H g F ++ [b] = st (H ++ [b]) g F.
Proof. intros L. unfold st. rewrite upd_app_l by exact L. reflexivity. Qed.
Lemma st_other H g F l : l <> g -> nth_error (st H g F) l = nth_error H l.
Proof. intros L. apply nth_upd_other. congruence. Qed.
Lemma st_fields H g F : g < List.length H -> load_fields (st H g F) g = Some F.
Proof. intros L. unfold load_fields, st. rewrite nth_upd_same by exact L. reflexivity. Qed.
Lemma st_new (H : heap) F : H ++ [BObj F] = st (H ++ [BObj F]) (List.length H) F.
Proof. unfold st. rewrite upd_app_r, Nat.sub_diag by lia. reflexivity. Qed.
Lemma setattr_st B H g F k v (K : unit -> prog N B) : g < List.length H ->
  (c <-- setattr g k v ;; K c) (st H g F) = K tt (st H g (set_field k v F)).
Proof.
  intros L. unfold andthen, setattr, put. rewrite st_fields by exact L. rewrite st_length. replace (g <? List.length H) with true by lia.
  unfold st. rewrite upd_upd. reflexivity.
Qed.
Lemma setattr_st_end H g F k v : g < List.length H -> setattr g k v (st H g F) = (Ok tt, st H g (set_field k v F)).
Proof.
  intros L. unfold setattr, put. rewrite st_fields by exact L. rewrite st_length. replace (g <? List.length H) with true by lia.
  unfold st. rewrite upd_upd. reflexivity.
Qed.
Lemma delattr_st B H g F k v (K : unit -> prog N B) : g < List.length H -> lookup k F = Some v ->
  (c <-- delattr g k ;; K c) (st H g F) = K tt (st H g (del_field k F)).
Proof.
  intros L E. unfold andthen, delattr, put. rewrite st_fields by exact L. rewrite E, st_length. replace (g <? List.length H) with true by lia.
  unfold st. rewrite upd_upd. reflexivity.
Qed.
Lemma delattr_st_end H g F k v : g < List.length H -> lookup k F = Some v ->
  delattr g k (st H g F) = (Ok tt, st H g (del_field k F)).
Proof.
  intros L E. unfold delattr, put. rewrite st_fields by exact L. rewrite E, st_length. replace (g <? List.length H) with true by lia.
  unfold st. rewrite upd_upd. reflexivity.
Qed.
Lemma getref_st B H g F k r (K : ref -> prog N B) : g < List.length H -> lookup k F = Some (VRef r) ->
  (c <-- getref g k ;; K c) (st H g F) = K r (st H g F).
Proof. intros L E. unfold andthen, getref. rewrite st_fields, E by exact L. reflexivity. Qed.
Lemma new_st B H g F b (K : loc -> prog N B) : g < List.length H ->
  (c <-- new b ;; K c) (st H g F) = K (List.length H) (st (H ++ [b]) g F).
Proof. intros L. rewrite new_then, st_length, st_app by exact L. reflexivity. Qed.

Lemma load_nd_st H g F r : at_loc r <> g -> load_nd (st H g F) r = load_nd H r.
Proof. intros L. unfold load_nd. rewrite st_other by exact L. reflexivity. Qed.
Lemma load_mat_st H g F r : at_loc r <> g -> load_mat (st H g F) r = load_mat H r.
Proof. intros L. unfold load_mat. rewrite load_nd_st by exact L. reflexivity. Qed.
Lemma load_ints_st H g F r : at_loc r <> g -> load_ints (st H g F) r = load_ints H r.
Proof. intros L. unfold load_ints. rewrite st_other by exact L. reflexivity. Qed.
Lemma load_idx_st H g F r : at_loc r <> g -> load_idx (st H g F) r = load_idx H r.
Proof. intros L. unfold load_idx. rewrite st_other by exact L. reflexivity. Qed.
Lemma load_dict_st H g F r : r <> g -> load_dict (st H g F) r = load_dict H r.
Proof. intros L. unfold load_dict. rewrite st_other by exact L. reflexivity. Qed.
Lemma load_pattern_st H g F l sp : load_pattern H l = Some sp -> nth_error H g = None \/ (exists f, nth_error H g = Some (BObj f)) ->
  load_pattern (st H g F) l = Some sp.
Proof.
  intros E Q. unfold load_pattern in *. destruct (nth_error H l) as [[]|] eqn:E1; try discriminate.
  assert (A : l <> g) by (intros Z0; subst l; destruct Q as [Q|[f Q]]; congruence). rewrite st_other, E1 by exact A.
  destruct (nth_error H mx) as [[]|] eqn:E2; try discriminate.
  assert (A2 : mx <> g) by (intros Z0; subst mx; destruct Q as [Q|[f Q]]; congruence). rewrite st_other, E2 by exact A2. exact E.
Qed.

(** views of views *)
Lemma load_mat_drop (h : heap) r m : load_mat h r = Some m -> load_mat h (Ref (at_loc r) (views r ++ [DropRow])) = Some (drop_first_row m).
Proof.
  unfold load_mat, load_nd. cbn [at_loc views]. destruct (nth_error h (at_loc r)) as [[]|]; try discriminate.
  rewrite fold_left_app. cbn [fold_left]. destruct (fold_left see_nd1 (views r) a) as [[] ? ?]; cbn; intros Q; try discriminate. injection Q as <-. reflexivity.
Qed.
Lemma load_ints_drop (h : heap) r m : load_ints h r = Some m -> load_ints h (Ref (at_loc r) (views r ++ [DropRow])) = Some (drop_first_row m).
Proof.
  unfold load_ints. cbn [at_loc views]. destruct (nth_error h (at_loc r)) as [[]|]; try discriminate.
  rewrite fold_left_app. cbn [fold_left]. intros Q. injection Q as <-. reflexivity.
Qed.
Lemma load_idx_tail (h : heap) r m : load_idx h r = Some m -> load_idx h (Ref (at_loc r) (views r ++ [Tail])) = Some (tl m).
Proof.
  unfold load_idx. cbn [at_loc views]. destruct (nth_error h (at_loc r)) as [[]|]; try discriminate.
  rewrite fold_left_app. cbn [fold_left]. intros Q. injection Q as <-. reflexivity.
Qed.
Lemma load_nd_column (h : heap) r a l : load_nd h r = Some a -> nd_val a = Nd1 l ->
  load_nd h (Ref (at_loc r) (views r ++ [AsColumn])) = Some (NdArray (as_column (nd_val a)) (is_double a) (is_corder a)).
Proof.
  unfold load_nd. cbn [at_loc views]. destruct (nth_error h (at_loc r)) as [[]|]; try discriminate.
  rewrite fold_left_app. cbn [fold_left]. intros Q _. injection Q as <-. reflexivity.
Qed.

(** ** The local cost matrix *)
Definition pure_local (cdist : mat N -> mat N -> out (mat N)) (x : ndarray N) (y : option (ndarray N)) :
  out (mat N * bool * option (nd N * nd N)) :=
  match y with
  | None =>
      match nd_val x with
      | Nd2 lm => Ok (lm, is_double x && is_corder x, None)
      | _ => Raise (ValueError "A 2D local distance matrix was expected")
      end
  | Some y =>
      if ndim_gt2 (nd_val x) || ndim_gt2 (nd_val y)
      then Raise (ValueError "Input arrays should be 1 or 2 dimensional")
      else
      let x' := as_column (nd_val x) in
      let y' := as_column (nd_val y) in
      match x', y' with
      | Nd2 xm, Nd2 ym => bind (cdist xm ym) (fun lm => Ok (lm, true, Some (x', y')))
      | _, _ => Raise (ValueError "XA must be a 2-dimensional array.")
      end
  end.
Lemma dtw_pure cdist x y o : dtw cdist x y o =
  bind (pure_local cdist x y) (fun q => let '(lm, cbuf, qr) := q in
    bind (canonicalizeStepPattern (o_step_pattern o)) (fun sp => dtw_lm cbuf lm qr sp (canonicalizeWindowFunction (o_window_type o)) o)).
Proof. reflexivity. Qed.

(** the series kept in the result are the arguments themselves, or column views of them *)
Definition series_kept (h : heap) (a : hargs N) (qr : option (nd N * nd N)) (qrr : option (ref * ref)) : Prop :=
  match qr, qrr, ha_y a with
  | None, None, None => True
  | Some (qx, qy), Some (rx, ry), Some y => option_map (@nd_val N) (load_nd h rx) = Some qx /\ option_map (@nd_val N) (load_nd h ry) = Some qy /\
      rx = column_ref h (ha_x a) /\ ry = column_ref h y
  | _, _, _ => False
  end.

Lemma local_refines (h : heap) a x y :
  load_nd h (ha_x a) = Some x ->
  match ha_y a with None => y = None | Some r => exists v, load_nd h r = Some v /\ y = Some v end ->
  agree (pure_local (ha_cdist a) x y) (h_local_costs a h) (fun q r h' =>
    let '(lm, cbuf, qr) := q in let '(lmr, qrr) := r in
    exists lma, load_nd h' lmr = Some lma /\ nd_val lma = Nd2 lm /\ (is_double lma && is_corder lma) = cbuf /\
      lmr = Ref (List.length h) [] /\ List.length h' = List.length h + 1 /\ more h h' /\ series_kept h a qr qrr).
Proof.
  intros Ex Ey. unfold pure_local. open_local. destruct (ha_y a) as [r|] eqn:Ha.
  - destruct Ey as [v [Ev ->]]. rewrite (see_some _ _ _ _ _ _ Ex), (see_some _ _ _ _ _ _ Ev).
    destruct (ndim_gt2 (nd_val x) || ndim_gt2 (nd_val v)); [reflexivity|]. cbv zeta.
    assert (K : forall (r0 : ref) (w : ndarray N), load_nd h r0 = Some w ->
      let r1 := match nd_val w with Nd1 _ => Ref (at_loc r0) (views r0 ++ [AsColumn]) | _ => r0 end in
      load_nd h r1 = Some (NdArray (as_column (nd_val w)) (is_double w) (is_corder w)) /\ r1 = column_ref h r0).
    { intros r0 w Q. cbv zeta. unfold column_ref. rewrite Q. destruct w as [wv wd wc]. cbn [nd_val is_double is_corder] in *. destruct wv; cbn [as_column];
        try (split; [exact Q|reflexivity]).
      split; [|reflexivity]. exact (load_nd_column _ _ _ _ Q eq_refl). }
    destruct (K _ _ Ex) as [K1 K2]. destruct (K _ _ Ev) as [K3 K4]. cbv zeta in K1, K3.
    rewrite (see_some _ _ _ _ _ _ K1), (see_some _ _ _ _ _ _ K3). cbn [nd_val].
    destruct (as_column (nd_val x)) as [?|?|xm|?] eqn:Cx; try reflexivity.
    destruct (as_column (nd_val v)) as [?|?|ym|?] eqn:Cy; try reflexivity.
    apply agree_lift. intros lm _. rewrite new_then. unfold agree, ret. cbn [fst snd].
    eexists. split; [unfold load_nd; cbn [at_loc views]; rewrite nth_end; reflexivity|]. split; [reflexivity|]. split; [reflexivity|].
    split; [reflexivity|]. split; [rewrite app_length; reflexivity|]. split; [apply more_app|].
    unfold series_kept. rewrite Ha, K1, K3. auto.
  - subst y. rewrite (see_some _ _ _ _ _ _ Ex), new_then. destruct (nd_val x) eqn:V; try reflexivity.
    unfold agree, ret. cbn [fst snd]. exists x. split; [unfold load_nd; cbn [at_loc views]; rewrite nth_end; reflexivity|].
    split; [exact V|]. split; [reflexivity|]. split; [reflexivity|]. split; [rewrite app_length; reflexivity|]. split; [apply more_app|].
    unfold series_kept. rewrite Ha. exact I.
Qed.
End HeapDtw.
