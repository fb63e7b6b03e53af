(** HeapMain.v - the whole call (proofs for C69 and C70). *)
From Verif Require Import Base Num StepPattern Window Core Backtrack Dtw CountPaths Warp Heap HeapSpec HeapFrame HeapRefine HeapDtw.
Open Scope string_scope.
Open Scope list_scope.
Open Scope nat_scope.
Open Scope prog_scope.

Section HeapMain.
Context {N : Num}.
Notation heap := (heap N).

Lemma fields_after (cm sm sp wa : loc) n m oe ob wf :
  set_field "windowArgs" (VRef (Ref wa []) : val N) (set_field "windowFunction" (VWin wf) (set_field "openBegin" (VBool ob) (set_field "openEnd" (VBool oe)
   (set_field "M" (VNat m) (set_field "N" (VNat n) (out_fields cm sm sp)))))) =
  [("costMatrix", VRef (Ref cm [])); ("directionMatrix", VRef (Ref sm [])); ("stepPattern", VRef (Ref sp [])); ("N", VNat n); ("M", VNat m);
   ("openEnd", VBool oe); ("openBegin", VBool ob); ("windowFunction", VWin wf); ("windowArgs", VRef (Ref wa []))].
Proof. reflexivity. Qed.

Lemma load_of_more (h h' : heap) g F :
  (forall l b, nth_error h l = Some b -> l <> g -> nth_error h' l = Some b) -> nth_error h g = Some (BObj F) ->
  forall l sp, load_pattern h l = Some sp -> load_pattern h' l = Some sp.
Proof.
  intros M G l sp. unfold load_pattern. destruct (nth_error h l) as [[]|] eqn:E1; try discriminate.
  rewrite (M _ _ E1) by (intros Z0; subst l; congruence). destruct (nth_error h mx) as [[]|] eqn:E2; try discriminate.
  rewrite (M _ _ E2) by (intros Z0; subst mx; congruence). auto.
Qed.

Lemma maybe_some A (F : list (string * val N)) k r (load : ref -> option A) x : lookup k F = Some (VRef r) -> load r = Some x -> maybe F k load = Some (Some x).
Proof. unfold maybe. intros -> ->. reflexivity. Qed.
Lemma maybe_none A (F : list (string * val N)) k (load : ref -> option A) : lookup k F = None -> maybe F k load = Some None.
Proof. unfold maybe. intros ->. reflexivity. Qed.

Lemma final_load (H : heap) g F n m oe ob w wa kw sp spv j v nv mp cm dm lmo q rf : g < List.length H ->
  get_nat F "N" = Some n -> get_nat F "M" = Some m -> get_bool F "openEnd" = Some oe -> get_bool F "openBegin" = Some ob ->
  get_win F "windowFunction" = Some w -> field_ref F "windowArgs" = Some (Ref wa []) -> load_dict (st H g F) wa = Some kw ->
  field_ref F "stepPattern" = Some (Ref sp []) -> load_pattern (st H g F) sp = Some spv ->
  get_nat F "jmin" = Some j -> get_num F "distance" = Some v -> get_num F "normalizedDistance" = Some nv ->
  load_mapping (st H g F) F = Some mp ->
  maybe F "costMatrix" (load_mat (st H g F)) = Some cm -> maybe F "directionMatrix" (load_ints (st H g F)) = Some dm ->
  maybe F "localCostMatrix" (load_mat (st H g F)) = Some lmo ->
  maybe F "query" (fun r => option_map (@nd_val N) (load_nd (st H g F) r)) = Some q ->
  maybe F "reference" (fun r => option_map (@nd_val N) (load_nd (st H g F) r)) = Some rf ->
  load_result (st H g F) g = Some (mkDTW n m oe ob w kw spv j v nv mp cm dm lmo q rf).
Proof.
  intros L A1 A2 A3 A4 A5 A6 A7 A8 A9 B1 B2 B3 B4 B5 B6 B7 B8 B9. unfold load_result. rewrite st_fields by exact L. cbn [obind].
  rewrite A1, A2, A3, A4, A5, A6. cbn [obind at_loc]. rewrite A7, A8. cbn [obind at_loc]. rewrite A9, B1, B2, B3, B4, B5, B6, B7, B8, B9. reflexivity.
Qed.

Definition add_map (i1 i2 i1s i2s ss : loc) (F : list (string * val N)) : list (string * val N) :=
  set_field "stepsTaken" (VRef (Ref ss [])) (set_field "index2s" (VRef (Ref i2s [])) (set_field "index1s" (VRef (Ref i1s []))
    (set_field "index2" (VRef (Ref i2 [])) (set_field "index1" (VRef (Ref i1 [])) F)))).
Lemma then_assoc A B C (p : prog N A) (f : A -> prog N B) (k : B -> prog N C) (h : heap) :
  (c <-- (b <-- p ;; f b) ;; k c) h = (b <-- p ;; (c <-- f b ;; k c)) h.
Proof. unfold andthen. destruct (p h) as [[] ?]; reflexivity. Qed.
Lemma lookup_set_same k v (F : list (string * val N)) : lookup k (set_field k v F) = Some v.
Proof. induction F as [|[k' v'] F IH]; cbn; [rewrite String.eqb_refl; reflexivity|]. destruct (String.eqb k k') eqn:E; cbn; rewrite ?String.eqb_refl, ?E; auto. Qed.
Lemma lookup_set_other k k' v (F : list (string * val N)) : k <> k' -> lookup k (set_field k' v F) = lookup k F.
Proof.
  intros D. induction F as [|[k2 v2] F IH]; cbn.
  - destruct (String.eqb_spec k k'); [contradiction|reflexivity].
  - destruct (String.eqb_spec k' k2) as [->|D2]; cbn.
    + destruct (String.eqb_spec k k2); [contradiction|reflexivity].
    + rewrite IH. reflexivity.
Qed.
Lemma lookup_del_same k (F : list (string * val N)) : lookup k (del_field k F) = None.
Proof. induction F as [|[k' v'] F IH]; cbn; [reflexivity|]. destruct (String.eqb_spec k k') as [->|D]; cbn; [exact IH|]. destruct (String.eqb_spec k k'); [contradiction|exact IH]. Qed.
Lemma lookup_del_other k k' (F : list (string * val N)) : k <> k' -> lookup k (del_field k' F) = lookup k F.
Proof.
  intros D. unfold del_field. induction F as [|[k2 v2] F IH]; cbn; [reflexivity|].
  destruct (String.eqb_spec k' k2) as [->|D2]; cbn.
  - destruct (String.eqb_spec k k2); [contradiction|exact IH].
  - rewrite IH. reflexivity.
Qed.
Lemma mapping_same (h : heap) F F' : (forall k, In k ["index1"; "index2"; "index1s"; "index2s"; "stepsTaken"] -> lookup k F' = lookup k F) ->
  load_mapping h F' = load_mapping h F.
Proof. intros E. unfold load_mapping, maybe. rewrite !E by (cbn; tauto). reflexivity. Qed.

Ltac dif := discriminate.
Ltac lks := repeat first [rewrite lookup_set_same | rewrite lookup_set_other by dif | rewrite lookup_del_same | rewrite lookup_del_other by dif].

(** dtw/dtw.py:477-486 *)
Lemma finish (H : heap) g F n m oe ob w wa kw sp spv j v nv mp rc rd cm dm lmr lmm qrr qr (keep : bool) :
  g < List.length H ->
  get_nat F "N" = Some n -> get_nat F "M" = Some m -> get_bool F "openEnd" = Some oe -> get_bool F "openBegin" = Some ob ->
  get_win F "windowFunction" = Some w -> field_ref F "windowArgs" = Some (Ref wa []) -> field_ref F "stepPattern" = Some (Ref sp []) ->
  get_nat F "jmin" = Some j -> get_num F "distance" = Some v -> get_num F "normalizedDistance" = Some nv ->
  lookup "costMatrix" F = Some (VRef rc) -> lookup "directionMatrix" F = Some (VRef rd) ->
  lookup "localCostMatrix" F = None -> lookup "query" F = None -> lookup "reference" F = None ->
  (forall F', load_dict (st H g F') wa = Some kw) -> (forall F', load_pattern (st H g F') sp = Some spv) ->
  (forall F', load_mat (st H g F') rc = Some cm) -> (forall F', load_ints (st H g F') rd = Some dm) -> (forall F', load_mat (st H g F') lmr = Some lmm) ->
  (forall F', load_mapping (st H g F') F = Some mp) ->
  match qr, qrr with
  | None, None => True
  | Some (qx, qy), Some (rx, ry) => forall F', option_map (@nd_val N) (load_nd (st H g F') rx) = Some qx /\ option_map (@nd_val N) (load_nd (st H g F') ry) = Some qy
  | _, _ => False
  end ->
  exists F', ((if keep then setattr g "localCostMatrix" (VRef lmr) ;;; match qrr with
                | Some (x, y) => setattr g "query" (VRef x) ;;; setattr g "reference" (VRef y) | None => ret tt end
              else delattr g "costMatrix" ;;; delattr g "directionMatrix") ;;; ret g) (st H g F) = (Ok g, st H g F') /\
    load_result (st H g F') g = Some (mkDTW n m oe ob w kw spv j v nv mp (if keep then Some cm else None) (if keep then Some dm else None)
      (if keep then Some lmm else None) (if keep then option_map fst qr else None) (if keep then option_map snd qr else None)) /\
    field_ref F' "windowArgs" = Some (Ref wa []) /\ field_ref F' "stepPattern" = Some (Ref sp []) /\
    (forall k r, In k own_keys -> field_ref F' k = Some r ->
       field_ref F k = Some r \/ r = lmr) /\
    (keep = true -> forall rx ry, qrr = Some (rx, ry) -> field_ref F' "query" = Some rx /\ field_ref F' "reference" = Some ry).
Proof.
  intros L A1 A2 A3 A4 A5 A6 A7 A8 A9 A10 C1 C2 C3 C4 C5 D1 D2 D3 D4 D5 D6 Q. destruct keep.
  - rewrite then_assoc, setattr_st by exact L. destruct qr as [[qx qy]|], qrr as [[rx ry]|]; try contradiction.
    + rewrite then_assoc, setattr_st by exact L. unfold andthen. rewrite setattr_st_end by exact L. unfold ret. eexists. split; [reflexivity|].
      split; [|split; [|split; [|split]]].
      * eapply final_load with (wa := wa) (sp := sp); auto; unfold get_nat, get_bool, get_win, get_num, field_ref in *; lks; auto.
        -- rewrite (mapping_same _ F); [apply D6|]. intros k Hk. cbn in Hk. destruct Hk as [<-|[<-|[<-|[<-|[<-|[]]]]]]; lks; reflexivity.
        -- eapply maybe_some; [lks; eassumption|apply D3].
        -- eapply maybe_some; [lks; eassumption|apply D4].
        -- eapply maybe_some; [lks; reflexivity|apply D5].
        -- eapply maybe_some; [lks; reflexivity|apply Q].
        -- eapply maybe_some; [lks; reflexivity|apply Q].
      * unfold field_ref in *. lks. exact A6.
      * unfold field_ref in *. lks. exact A7.
      * intros k r Hk. unfold field_ref. cbn in Hk; destruct Hk as [<-|[<-|[<-|[<-|[<-|[<-|[<-|[<-|[]]]]]]]]]; lks; auto.
        intros Z0. injection Z0 as <-. auto.
      * intros _ rx' ry' Z0. injection Z0 as <- <-. unfold field_ref. lks. auto.
    + unfold andthen, ret. eexists. split; [reflexivity|].
      split; [|split; [|split; [|split]]].
      * eapply final_load with (wa := wa) (sp := sp); auto; unfold get_nat, get_bool, get_win, get_num, field_ref in *; lks; auto.
        -- rewrite (mapping_same _ F); [apply D6|]. intros k Hk. cbn in Hk. destruct Hk as [<-|[<-|[<-|[<-|[<-|[]]]]]]; lks; reflexivity.
        -- eapply maybe_some; [lks; eassumption|apply D3].
        -- eapply maybe_some; [lks; eassumption|apply D4].
        -- eapply maybe_some; [lks; reflexivity|apply D5].
        -- apply maybe_none. lks. exact C4.
        -- apply maybe_none. lks. exact C5.
      * unfold field_ref in *. lks. exact A6.
      * unfold field_ref in *. lks. exact A7.
      * intros k r Hk. unfold field_ref. cbn in Hk; destruct Hk as [<-|[<-|[<-|[<-|[<-|[<-|[<-|[<-|[]]]]]]]]]; lks; auto.
        intros Z0. injection Z0 as <-. auto.
      * discriminate.
  - rewrite then_assoc. erewrite delattr_st by eassumption. unfold andthen. erewrite delattr_st_end; [|exact L|lks; exact C2]. unfold ret.
    eexists. split; [reflexivity|]. split; [|split; [|split; [|split]]].
    + eapply final_load with (wa := wa) (sp := sp); auto; unfold get_nat, get_bool, get_win, get_num, field_ref in *; lks; auto.
      * rewrite (mapping_same _ F); [apply D6|]. intros k Hk. cbn in Hk. destruct Hk as [<-|[<-|[<-|[<-|[<-|[]]]]]]; lks; reflexivity.
      * apply maybe_none. lks. reflexivity.
      * apply maybe_none. lks. reflexivity.
      * apply maybe_none. lks. exact C3.
      * apply maybe_none. lks. exact C4.
      * apply maybe_none. lks. exact C5.
    + unfold field_ref in *. lks. exact A6.
    + unfold field_ref in *. lks. exact A7.
    + intros k r Hk. unfold field_ref. cbn in Hk; destruct Hk as [<-|[<-|[<-|[<-|[<-|[<-|[<-|[<-|[]]]]]]]]]; lks; auto; discriminate.
    + discriminate.
Qed.

(** dtw/dtw.py:468-475 *)
Definition shifted (l1 i2 l1s i2s : loc) (rc rd : ref) (F : list (string * val N)) : list (string * val N) :=
  set_field "directionMatrix" (VRef (Ref (at_loc rd) (views rd ++ [DropRow]))) (set_field "costMatrix" (VRef (Ref (at_loc rc) (views rc ++ [DropRow])))
    (set_field "index2s" (VRef (Ref i2s [Tail])) (set_field "index2" (VRef (Ref i2 [Tail]))
      (set_field "index1s" (VRef (Ref l1s [])) (set_field "index1" (VRef (Ref l1 [])) F))))).
Lemma open_begin_shift B (H : heap) g F i1 i2 i1s i2s rc rd v1 v1s lmr (K : ref -> prog N B) : g < List.length H -> i1 <> g -> i1s <> g ->
  lookup "index1" F = Some (VRef (Ref i1 [])) -> lookup "index2" F = Some (VRef (Ref i2 [])) ->
  lookup "index1s" F = Some (VRef (Ref i1s [])) -> lookup "index2s" F = Some (VRef (Ref i2s [])) ->
  lookup "costMatrix" F = Some (VRef rc) -> lookup "directionMatrix" F = Some (VRef rd) ->
  nth_error H i1 = Some (BIdx v1) -> nth_error H i1s = Some (BIdx v1s) ->
  (lm2 <-- (r1 <-- getref g "index1" ;; v1 <-- see (fun h => load_idx h r1) ;;
     l1 <-- new (BIdx (List.map Z.pred (tl v1))) ;; setattr g "index1" (VRef (Ref l1 [])) ;;;
     r1s <-- getref g "index1s" ;; v1s <-- see (fun h => load_idx h r1s) ;;
     l1s <-- new (BIdx (List.map Z.pred (tl v1s))) ;; setattr g "index1s" (VRef (Ref l1s [])) ;;;
     r2 <-- getref g "index2" ;; setattr g "index2" (VRef (Ref (at_loc r2) (views r2 ++ [Tail]))) ;;;
     r2s <-- getref g "index2s" ;; setattr g "index2s" (VRef (Ref (at_loc r2s) (views r2s ++ [Tail]))) ;;;
     rc <-- getref g "costMatrix" ;; setattr g "costMatrix" (VRef (Ref (at_loc rc) (views rc ++ [DropRow]))) ;;;
     rd <-- getref g "directionMatrix" ;; setattr g "directionMatrix" (VRef (Ref (at_loc rd) (views rd ++ [DropRow]))) ;;;
     ret (Ref (at_loc lmr) (views lmr ++ [DropRow]))) ;; K lm2) (st H g F) =
  K (Ref (at_loc lmr) (views lmr ++ [DropRow]))
    (st ((H ++ [BIdx (List.map Z.pred (tl v1))]) ++ [BIdx (List.map Z.pred (tl v1s))]) g
        (shifted (List.length H) i2 (List.length (H ++ [BIdx (List.map Z.pred (tl v1))])) i2s rc rd F)).
Proof.
  intros L D1 D1s A1 A2 A3 A4 A5 A6 B1 B2.
  assert (L1 : g < List.length (H ++ [BIdx (List.map Z.pred (tl v1))] : heap)) by (rewrite app_length; lia).
  assert (L2 : g < List.length ((H ++ [BIdx (List.map Z.pred (tl v1))]) ++ [BIdx (List.map Z.pred (tl v1s))] : heap)) by (rewrite app_length; lia).
  rewrite then_assoc. rewrite (getref_st _ _ _ _ _ _ _ L A1).
  rewrite then_assoc. erewrite see_some by (rewrite load_idx_st by exact D1; apply load_idx_at; exact B1).
  rewrite then_assoc, new_st by exact L. rewrite then_assoc, setattr_st by exact L1.
  rewrite then_assoc. erewrite getref_st; [|exact L1|lks; exact A3].
  rewrite then_assoc. erewrite see_some by (rewrite load_idx_st by exact D1s; apply load_idx_at; apply nth_ext; exact B2).
  rewrite then_assoc, new_st by exact L1. rewrite then_assoc, setattr_st by exact L2.
  rewrite then_assoc. erewrite getref_st; [|exact L2|lks; exact A2]. rewrite then_assoc, setattr_st by exact L2.
  rewrite then_assoc. erewrite getref_st; [|exact L2|lks; exact A4]. rewrite then_assoc, setattr_st by exact L2.
  rewrite then_assoc. erewrite getref_st; [|exact L2|lks; exact A5]. rewrite then_assoc, setattr_st by exact L2.
  rewrite then_assoc. erewrite getref_st; [|exact L2|lks; exact A6]. rewrite then_assoc, setattr_st by exact L2.
  reflexivity.
Qed.

Ltac lk := reflexivity.
(** linear arithmetic with the relevant hypotheses only *)
Ltac nlia := repeat match goal with H : ?P |- _ => lazymatch P with
    | (_ <= _)%nat => fail | (_ < _)%nat => fail | @eq nat _ _ => fail | @eq loc _ _ => fail | _ => clear H end end; lia.

Theorem dtw_refines E (h : heap) a x y o : worth E h a x y o ->
  agree (dtw (ha_cdist a) x y o) (h_dtw E a h) (fun d l h' => load_result h' l = Some d /\ result_refs E h a h' l).
Proof.
  intros [Wx Wy Wp Wa Ww Wk Wd We Wb]. rewrite dtw_pure. open_dtw. rewrite Ww.
  eapply agree_then; [apply local_refines; eassumption|].
  intros [[lm cbuf] qr] [lmr qrr] h1 [lma [E1 [E2 [E3 [E4 [L1 [M1 Hser]]]]]]]. cbv beta iota zeta.
  fold (args_loc E a) in *.
  apply (agree_then _ _ _ _ _ _ _ _ _ _ (fun (v : steppat N) (l : loc) (h' : heap) => h' = h1 /\ load_pattern h l = Some v /\ pattern_loc E (ha_step_pattern a) = Some l)).
  { unfold pattern_loc. inversion Wp as [l v Q1 Q2 Q3|s l v Q1 Q2 Q3 Q4 Q5|s Q1 Q2 Q3 Q4]; cbn [canonicalizeStepPattern].
    - unfold agree, ret. cbn [fst snd]. split; [reflexivity|]. split; [assumption|reflexivity].
    - rewrite Q1, Q3. unfold agree, ret. cbn [fst snd]. split; [reflexivity|]. split; [assumption|reflexivity].
    - rewrite Q1, Q2. reflexivity. }
  intros spv sp h1' [-> [Esp0 Epl]].
  assert (Esp : load_pattern h1 sp = Some spv) by (eapply load_pattern_more; eassumption). rewrite (see_some _ _ _ _ _ _ Esp).
  erewrite see_some by (unfold load_mat; rewrite E1, E2; reflexivity).
  unfold dtw_lm. rewrite Wb, We, Wd, Wk.
  eapply (agree_then _ _ _ _ _ _ _ _ _ _ (fun (q : mat N * option (mat N) * bool) (r : ref * option loc) (h2 : heap) =>
    exists lma1, load_nd h2 (fst r) = Some lma1 /\ nd_val lma1 = Nd2 (fst (fst q)) /\ (is_double lma1 && is_corder lma1) = snd q /\
      match snd r, snd (fst q) with None, None => True | Some p, Some v => nth_error h2 p = Some (arr v) | _, _ => False end /\
      (forall p, snd r = Some p -> List.length h <= p < List.length h2 /\ p <> at_loc (fst r)) /\
      List.length h <= at_loc (fst r) < List.length h2 /\ views (fst r) = [] /\ more h1 h2)).
  { destruct (ha_open_begin a).
    - destruct (negb _); [reflexivity|]. rewrite !new_then. rewrite put_then by (rewrite !app_length; cbn; nlia).
      unfold agree, ret. cbn [fst snd]. rewrite upd_app_r, Nat.sub_diag by nlia. cbn [upd].
      eexists. split. { unfold load_nd. cbn [at_loc views]. erewrite nth_ext by apply nth_end. reflexivity. }
      split; [reflexivity|]. split; [reflexivity|]. split; [apply nth_end|].
      split. { intros p Q. injection Q as <-. cbn [at_loc]. rewrite !app_length. cbn [List.length]. nlia. }
      split. { cbn [at_loc]. rewrite !app_length. cbn [List.length]. nlia. }
      split; [reflexivity|]. eapply more_trans; apply more_app.
    - unfold agree, ret. cbn [fst snd]. exists lma. split; [exact E1|]. split; [exact E2|]. split; [exact E3|]. split; [exact I|].
      split; [discriminate|]. split; [subst lmr; cbn [at_loc]; nlia|]. split; [subst lmr; reflexivity|apply more_refl]. }
  intros [[lm1 precm] cbuf1] [lm1r seed] h2 [lma1 [G1 [G2 [G3 [G4 [G5 [G6 [G7 M2]]]]]]]]. cbn [fst snd] in *.
  eapply agree_then.
  { rewrite <- G3. apply global_refines; [exact G1|exact G2|eapply load_pattern_more; eassumption| |exact G4].
    eapply load_dict_more; [|exact Wa]. eapply more_trans; eassumption. }
  intros [cmx dmx] out h3 [cm [sm [K1 [K2 [K3 [K4 [K5 [K6 [K7 K8]]]]]]]]]. cbn [fst snd] in *.
  assert (L2 : List.length h1 <= List.length h2).
  { destruct (Nat.le_gt_cases (List.length h1) (List.length h2)) as [Q|Q]; [exact Q|]. exfalso.
    destruct (nth_error h1 (List.length h2)) as [b|] eqn:Q2; [|apply nth_error_None in Q2; nlia]. apply M2 in Q2.
    assert (List.length h2 < List.length h2) by (apply nth_error_Some; congruence). nlia. }
  assert (M3 : more h h3).
  { intros l b Q. assert (l < List.length h) by (apply nth_error_Some; congruence). apply K8; [apply M2; apply M1; exact Q|].
    intros Q2. destruct (G5 _ Q2) as [[? ?] ?]. nlia. }
  assert (C0 : List.length h <= cm).
  { destruct K5 as [K5|[_ K5]]; [destruct (G5 _ K5) as [[? ?] ?]; nlia|nlia]. }
  erewrite see_some by (unfold load_fields; rewrite K1; reflexivity). rewrite new_then. rewrite st_new.
  set (g := List.length h3). set (H0 := h3 ++ [BObj (out_fields cm sm sp)]).
  assert (Lg : g < List.length H0) by (unfold H0; rewrite app_length; cbn; nlia).
  assert (Lcm : cm < g) by (apply nth_error_Some; unfold g; rewrite K2; discriminate).
  assert (Lsm : sm < g) by (apply nth_error_Some; rewrite K3; discriminate).
  assert (M4 : more h3 H0) by apply more_app.
  rewrite !setattr_st by exact Lg. rewrite fields_after.
  match goal with |- context [st H0 g ?F] => remember F as F0 eqn:EF0 end.
  rewrite (getref_st _ _ _ _ _ (Ref cm [])) by (subst F0; auto; lk).
  erewrite see_some by (rewrite load_mat_st by (cbn; nlia); apply load_mat_arr; apply M4; exact K2).
  cbv zeta.
  eapply (agree_then _ _ _ _ _ _ _ _ _ _ (fun (j : nat) (j' : nat) (h' : heap) => j = j' /\ h' = st H0 g F0)).
  { destruct (ha_open_end a); [destruct (String.eqb _ "NA"); [reflexivity|]|split; reflexivity]. unfold agree, lift. cbn [fst snd].
    destruct (nanargmin _); first [exact I | reflexivity | split; reflexivity]. }
  intros jmin j' h4 [<- ->]. rewrite setattr_st by exact Lg.
  eapply (agree_then _ _ _ _ _ _ _ _ _ _ (fun (z : N) (z' : N) (h' : heap) => z = z' /\ h' = st H0 g (set_field "jmin" (VNat jmin) F0))).
  { destruct (nth_error _ jmin); [|reflexivity]. split; reflexivity. }
  intros v v' h4 [<- ->]. rewrite setattr_st by exact Lg. destruct (isnan v); [reflexivity|].
  eapply (agree_then _ _ _ _ _ _ _ _ _ _ (fun (z : N) (z' : N) (h' : heap) => z = z' /\ h' = st H0 g (set_field "distance" (VNum v) (set_field "jmin" (VNat jmin) F0)))).
  { destruct (negb _); [|split; reflexivity]. destruct (nth_error _ jmin); [|reflexivity]. split; reflexivity. }
  intros nv nv' h4 [<- ->]. rewrite setattr_st by exact Lg.
  set (F1 := set_field "normalizedDistance" _ _).
  eapply (agree_then _ _ _ _ _ _ _ _ _ _ (fun (mp : option mapping) (_ : unit) (h' : heap) => exists H,
    more H0 H /\ g < List.length H /\
    ((ha_distance_only a = true /\ mp = None /\ h' = st H g F1) \/
     (ha_distance_only a = false /\ exists q i1 i2 i1s i2s ss, mp = Some q /\
        nth_error H i1 = Some (BIdx (index1 q)) /\ nth_error H i2 = Some (BIdx (index2 q)) /\ nth_error H i1s = Some (BIdx (index1s q)) /\
        nth_error H i2s = Some (BIdx (index2s q)) /\ nth_error H ss = Some (BIdx (stepsTaken q)) /\
        g < i1 /\ g < i2 /\ g < i1s /\ g < i2s /\ g < ss /\
        h' = st H g (add_map i1 i2 i1s i2s ss F1))))).
  { destruct (ha_distance_only a).
    - unfold agree, ret. cbn [fst snd]. exists H0. split; [apply more_refl|]. split; [exact Lg|]. left. auto.
    - rewrite (getref_st _ _ _ _ _ (Ref sm [])) by (auto; unfold F1; subst F0; lk).
      erewrite see_some by (rewrite load_ints_st by (cbn; nlia); apply load_ints_at; apply M4; exact K3).
      apply agree_lift. intros mp _.
      rewrite !new_st by (rewrite ?app_length; nlia).
      rewrite !setattr_st by (rewrite ?app_length; nlia). rewrite setattr_st_end by (rewrite ?app_length; nlia).
      unfold agree. cbn [fst snd]. match goal with |- context [st ?H g (set_field "stepsTaken" _ _)] => exists H end.
      split; [|split; [rewrite !app_length; nlia|right; split; [reflexivity|]]].
      { do 5 (eapply more_trans; [|apply more_app]). apply more_refl. }
      exists mp. do 5 eexists. split; [reflexivity|].
      split; [do 4 apply nth_ext; apply nth_end|]. split; [do 3 apply nth_ext; apply nth_end|]. split; [do 2 apply nth_ext; apply nth_end|].
      split; [do 1 apply nth_ext; apply nth_end|]. split; [apply nth_end|].
      rewrite !app_length. cbn [List.length].
      split; [nlia|]. split; [nlia|]. split; [nlia|]. split; [nlia|]. split; [nlia|]. reflexivity. }
  intros mp0 _ h4 [H [M5 [LgH Cases]]].
  assert (M35 : more h3 H) by (eapply more_trans; eassumption).
  assert (M05 : more h H) by (eapply more_trans; eassumption).
  assert (Q0 : nth_error H g = Some (BObj (out_fields cm sm sp))) by (apply M5; apply nth_end).
  assert (DD : forall H' F, more H H' -> load_dict (st H' g F) (args_loc E a) = Some (o_window_args o)).
  { intros H' F M. rewrite load_dict_st; [eapply load_dict_more; [|exact Wa]; eapply more_trans; eassumption|].
    intros Z0. unfold load_dict in Wa. destruct (nth_error h (args_loc E a)) as [b|] eqn:Z1; [|discriminate].
    apply M05 in Z1. rewrite Z0, Q0 in Z1. injection Z1 as <-. discriminate. }
  assert (PP : forall H' F, more H H' -> load_pattern (st H' g F) sp = Some spv).
  { intros H' F M. apply load_pattern_st; [|right; eexists; apply M; exact Q0].
    eapply load_pattern_more; [exact M|]. eapply load_pattern_more; [exact M05|exact Esp0]. }
  assert (NN : forall H' F r v0, more H H' -> load_nd h r = Some v0 -> load_nd (st H' g F) r = Some v0).
  { intros H' F r v0 M Q. rewrite load_nd_st; [eapply load_nd_more; [|exact Q]; eapply more_trans; eassumption|].
    intros Z0. unfold load_nd in Q. destruct (nth_error h (at_loc r)) as [b|] eqn:Z1; [|discriminate].
    apply M05 in Z1. rewrite Z0, Q0 in Z1. injection Z1 as <-. discriminate. }
  assert (CC : forall H' F, more H H' -> load_mat (st H' g F) (Ref cm []) = Some cmx).
  { intros H' F M. rewrite load_mat_st by (cbn [at_loc]; nlia). apply load_mat_arr. apply M. apply M35. exact K2. }
  assert (SS : forall H' F, more H H' -> load_ints (st H' g F) (Ref sm []) = Some dmx).
  { intros H' F M. rewrite load_ints_st by (cbn [at_loc]; nlia). apply load_ints_at. apply M. apply M35. exact K3. }
  assert (Nl : at_loc lm1r < g) by (destruct G6; unfold g; nlia).
  assert (LL : forall H' F, more H H' -> load_mat (st H' g F) lm1r = Some lm1).
  { intros H' F M. rewrite load_mat_st by nlia.
    assert (Q1 : load_nd h3 lm1r = Some lma1).
    { unfold load_nd in G1 |- *. destruct (nth_error h2 (at_loc lm1r)) as [b|] eqn:Z1; [|discriminate].
      rewrite (K8 _ _ Z1); [exact G1|]. intros Z2. destruct (G5 _ Z2) as [_ Z3]. apply Z3. reflexivity. }
    unfold load_mat. rewrite (load_nd_more h3 H' lm1r lma1); [rewrite G2; reflexivity|eapply more_trans; eassumption|exact Q1]. }
  assert (IX : forall H' F l v0, more H H' -> g < l -> nth_error H l = Some (BIdx v0) -> load_idx (st H' g F) (Ref l []) = Some v0).
  { intros H' F l v0 M Q1 Q2. rewrite load_idx_st by (cbn [at_loc]; nlia). apply load_idx_at. apply M. exact Q2. }
  assert (NL : forall l v0, nth_error H l = Some v0 -> l < List.length H) by (intros l v0 Q1; apply nth_error_Some; congruence).
  assert (SER : match qr, qrr with
    | None, None => True
    | Some (qx, qy), Some (rx, ry) => forall H' F', more H H' ->
        option_map (@nd_val N) (load_nd (st H' g F') rx) = Some qx /\ option_map (@nd_val N) (load_nd (st H' g F') ry) = Some qy
    | _, _ => False end).
  { unfold series_kept in Hser. destruct qr as [[qx qy]|], qrr as [[rx ry]|], (ha_y a) as [yr|]; try contradiction; auto.
    destruct Hser as [S1 [S2 _]]. intros H' F' M. destruct (load_nd h rx) as [ax|] eqn:Sx; [|discriminate]. destruct (load_nd h ry) as [ay|] eqn:Sy; [|discriminate].
    rewrite (NN H' F' _ _ M Sx), (NN H' F' _ _ M Sy). auto. }
  assert (FIN : forall H' F rc rd cmf dmf lmf lmm mpf, more H H' -> g < List.length H' ->
    (forall k, In k ["N"; "M"; "openEnd"; "openBegin"; "windowFunction"; "windowArgs"; "stepPattern"; "jmin"; "distance"; "normalizedDistance"; "localCostMatrix"; "query"; "reference"] ->
       lookup k F = lookup k F1) ->
    lookup "costMatrix" F = Some (VRef rc) -> lookup "directionMatrix" F = Some (VRef rd) ->
    (forall F', load_mat (st H' g F') rc = Some cmf) -> (forall F', load_ints (st H' g F') rd = Some dmf) -> (forall F', load_mat (st H' g F') lmf = Some lmm) ->
    (forall F', load_mapping (st H' g F') F = Some mpf) ->
    (List.length h <= at_loc lmf < List.length H') ->
    (forall k r, In k own_keys -> field_ref F k = Some r ->
       List.length h <= at_loc r < List.length H') ->
    agree (Ok (mkDTW (nr lm) (nc lm) (ha_open_end a) (ha_open_begin a) (canonicalizeWindowFunction (ha_window_type a)) (o_window_args o) spv jmin v nv mpf
        (if ha_keep_internals a then Some cmf else None) (if ha_keep_internals a then Some dmf else None)
        (if ha_keep_internals a then Some lmm else None) (if ha_keep_internals a then option_map fst qr else None) (if ha_keep_internals a then option_map snd qr else None)))
      (((if ha_keep_internals a then setattr g "localCostMatrix" (VRef lmf) ;;; match qrr with
                | Some (x, y) => setattr g "query" (VRef x) ;;; setattr g "reference" (VRef y) | None => ret tt end
              else delattr g "costMatrix" ;;; delattr g "directionMatrix") ;;; ret g) (st H' g F))
      (fun d l h' => load_result h' l = Some d /\ result_refs E h a h' l)).
  { intros H' F rc rd cmf dmf lmf lmm mpf M LgH' SAME Rc Rd Lc Ld Ll Lmp Rng Rngs.
    assert (SAME' : forall k v0, In k ["N"; "M"; "openEnd"; "openBegin"; "windowFunction"; "windowArgs"; "stepPattern"; "jmin"; "distance"; "normalizedDistance"; "localCostMatrix"; "query"; "reference"] ->
       lookup k F1 = v0 -> lookup k F = v0) by (intros k v0 Q1 <-; apply SAME; exact Q1).
    destruct (finish H' g F (nr lm) (nc lm) (ha_open_end a) (ha_open_begin a) (canonicalizeWindowFunction (ha_window_type a)) (args_loc E a) (o_window_args o) sp spv jmin v nv mpf
        rc rd cmf dmf lmf lmm qrr qr (ha_keep_internals a)) as [F' [R1 [R2 [R3 [R4 [R5 R6]]]]]];
      try (unfold get_nat, get_bool, get_win, get_num, field_ref; rewrite SAME by (cbn; tauto); unfold F1; subst F0; reflexivity);
      try (rewrite SAME by (cbn; tauto); unfold F1; subst F0; reflexivity); auto.
    { destruct qr as [[qx qy]|], qrr as [[rx ry]|]; auto. }
    rewrite R1. unfold agree. cbn [fst snd]. split; [exact R2|].
    exists F', sp. split; [apply st_fields; exact LgH'|]. split; [exact Epl|]. split; [exact R4|]. split; [exact R3|].
    rewrite st_length. split; [|split; [|split; [apply (Nat.le_trans _ cm); [exact C0|apply Nat.lt_le_incl; exact Lcm]|exact LgH']]].
    { intros k r Hk Fr. destruct (R5 k r Hk Fr) as [Q1|Q1]; [eapply Rngs; eassumption|subst r; exact Rng]. }
    { intros Kp yr Hy. unfold series_kept in Hser. rewrite Hy in Hser. destruct qr as [[qx qy]|], qrr as [[rx ry]|]; try contradiction.
      destruct (R6 Kp _ _ eq_refl) as [Q1 Q2]. destruct Hser as [_ [_ [-> ->]]]. split; assumption. } }
  assert (LmH : List.length h <= at_loc lm1r < List.length H).
  { split; [apply G6|]. apply (Nat.lt_trans _ g); [exact Nl|exact LgH]. }
  assert (S0 : List.length h <= sm) by nlia.
  assert (RF1 : forall k r, In k own_keys -> field_ref F1 k = Some r ->
       List.length h <= at_loc r < g).
  { intros k r Hk. unfold field_ref, F1. subst F0. cbn [own_keys In] in Hk. destruct Hk as [<-|[<-|[<-|[<-|[<-|[<-|[<-|[<-|[]]]]]]]]]; cbn; intros Z0; try discriminate Z0;
      injection Z0 as <-; cbn [at_loc]; split; assumption. }
  assert (C1 : lookup "costMatrix" F1 = Some (VRef (Ref cm []))) by (unfold F1; subst F0; reflexivity).
  assert (S1 : lookup "directionMatrix" F1 = Some (VRef (Ref sm []))) by (unfold F1; subst F0; reflexivity).
  assert (NM : forall h', load_mapping h' F1 = Some None) by (intros h'; unfold F1; subst F0; reflexivity).
  assert (LhG : List.length h <= g) by (apply (Nat.le_trans _ cm); [exact C0|apply Nat.lt_le_incl; exact Lcm]).
  clearbody F1.
  destruct Cases as [[Ed [-> ->]]|[Ed [q [i1 [i2 [i1s [i2s [ss [-> [I1 [I2 [I1s [I2s [Iss [J1 [J2 [J1s [J2s [Jss ->]]]]]]]]]]]]]]]]]]].
  - destruct (ha_open_begin a).
    + unfold andthen at 1 2, getref. rewrite st_fields by exact LgH.
      destruct (lookup "index1" F1) as [z|] eqn:Z0; [|reflexivity].
      specialize (NM H). unfold load_mapping, maybe in NM. rewrite Z0 in NM. destruct z; try discriminate NM.
      exfalso. destruct (load_idx H r); try discriminate NM. 
      repeat match type of NM with context [match ?x with _ => _ end] => destruct x; try discriminate NM end.
    + cbn [bind]. rewrite ret_then. cbv zeta.
      apply (FIN H F1 (Ref cm []) (Ref sm []) cmx dmx lm1r lm1 None); auto using more_refl.
      intros k r Hk Fr. destruct (RF1 k r Hk Fr) as [Q1 Q2]. split; [exact Q1|]. apply (Nat.lt_trans _ g); [exact Q2|exact LgH].
  - pose proof (NL _ _ I1) as Y1. pose proof (NL _ _ I2) as Y2. pose proof (NL _ _ I1s) as Y3. pose proof (NL _ _ I2s) as Y4. pose proof (NL _ _ Iss) as Y5.
    assert (YY : forall l, g < l -> l < List.length H -> forall H', more H H' -> List.length H <= List.length H' -> List.length h <= l < List.length H').
    { intros l Q1 Q2 H' _ Q3. clear -LhG Q1 Q2 Q3. lia. }
    destruct (ha_open_begin a).
    + cbn [bind]. cbv zeta.
      erewrite (open_begin_shift _ H g _ i1 i2 i1s i2s); [|exact LgH|clear -J1; lia|clear -J1s; lia|unfold add_map; lks; reflexivity|unfold add_map; lks; reflexivity|unfold add_map; lks; reflexivity
        |unfold add_map; lks; reflexivity|unfold add_map; lks; exact C1|unfold add_map; lks; exact S1|exact I1|exact I1s].
      set (H' := (H ++ [BIdx (List.map Z.pred (tl (index1 q)))]) ++ [BIdx (List.map Z.pred (tl (index1s q)))]).
      assert (M6 : more H H') by (unfold H'; eapply more_trans; apply more_app).
      assert (LL6 : List.length H' = List.length H + 2) by (unfold H'; rewrite !app_length; cbn [List.length]; clear; lia).
      apply (FIN H' _ (Ref cm [DropRow]) (Ref sm [DropRow]) (drop_first_row cmx) (drop_first_row dmx)
        (Ref (at_loc lm1r) (views lm1r ++ [DropRow])) (drop_first_row lm1)); auto.
      * nlia.
      * intros k Hk. unfold shifted, add_map. cbn [own_keys In] in Hk.
        repeat match type of Hk with _ \/ _ => destruct Hk as [<-|Hk]; [lks; reflexivity|] end. contradiction.
      * unfold shifted. lks. reflexivity.
      * unfold shifted. lks. reflexivity.
      * intros F'. apply (load_mat_drop _ (Ref cm [])). auto.
      * intros F'. apply (load_ints_drop _ (Ref sm [])). auto.
      * intros F'. apply load_mat_drop. auto.
      * intros F'. unfold load_mapping.
        rewrite (maybe_some _ _ "index1" (Ref (List.length H) []) _ (List.map Z.pred (tl (index1 q)))); [|unfold shifted, add_map; lks; reflexivity|].
        2: { rewrite load_idx_st by (cbn [at_loc]; nlia). apply load_idx_at. unfold H'. apply nth_ext, nth_end. }
        rewrite (maybe_some _ _ "index1s" (Ref (List.length (H ++ [BIdx (List.map Z.pred (tl (index1 q)))])) []) _ (List.map Z.pred (tl (index1s q)))); [|unfold shifted, add_map; lks; reflexivity|].
        2: { rewrite load_idx_st by (cbn [at_loc]; rewrite app_length; nlia). apply load_idx_at. unfold H'. apply nth_end. }
        rewrite (maybe_some _ _ "index2" (Ref i2 [Tail]) _ (tl (index2 q))); [|unfold shifted, add_map; lks; reflexivity|apply (load_idx_tail _ (Ref i2 [])); auto].
        rewrite (maybe_some _ _ "index2s" (Ref i2s [Tail]) _ (tl (index2s q))); [|unfold shifted, add_map; lks; reflexivity|apply (load_idx_tail _ (Ref i2s [])); auto].
        rewrite (maybe_some _ _ "stepsTaken" (Ref ss []) _ (stepsTaken q)); [|unfold shifted, add_map; lks; reflexivity|auto].
        reflexivity.
      * cbn [at_loc]. destruct LmH; nlia.
      * intros k r Hk. unfold field_ref, shifted, add_map. cbn [own_keys In] in Hk.
        repeat match type of Hk with _ \/ _ => destruct Hk as [<-|Hk]; [lks; intros Z0; try (injection Z0 as <-; cbn [at_loc]; rewrite ?app_length; cbn [List.length])|] end; try contradiction; try nlia.
        destruct (RF1 "localCostMatrix" r) as [? ?]; [cbn; tauto|exact Z0|nlia].
    + cbn [bind]. rewrite ret_then. cbv zeta.
      apply (FIN H _ (Ref cm []) (Ref sm []) cmx dmx lm1r lm1); auto using more_refl.
      * intros k Hk. unfold add_map. cbn [own_keys In] in Hk.
        repeat match type of Hk with _ \/ _ => destruct Hk as [<-|Hk]; [lks; reflexivity|] end. contradiction.
      * unfold add_map. lks. exact C1.
      * unfold add_map. lks. exact S1.
      * intros F'. unfold load_mapping.
        rewrite (maybe_some _ _ "index1" (Ref i1 []) _ (index1 q)); [|unfold add_map; lks; reflexivity|auto using more_refl].
        rewrite (maybe_some _ _ "index1s" (Ref i1s []) _ (index1s q)); [|unfold add_map; lks; reflexivity|auto using more_refl].
        rewrite (maybe_some _ _ "index2" (Ref i2 []) _ (index2 q)); [|unfold add_map; lks; reflexivity|auto using more_refl].
        rewrite (maybe_some _ _ "index2s" (Ref i2s []) _ (index2s q)); [|unfold add_map; lks; reflexivity|auto using more_refl].
        rewrite (maybe_some _ _ "stepsTaken" (Ref ss []) _ (stepsTaken q)); [|unfold add_map; lks; reflexivity|auto using more_refl].
        destruct q; reflexivity.
      * intros k r Hk. unfold field_ref, add_map. cbn [own_keys In] in Hk.
        repeat match type of Hk with _ \/ _ => destruct Hk as [<-|Hk]; [lks; intros Z0; try (injection Z0 as <-; cbn [at_loc]; rewrite ?app_length; cbn [List.length])|] end; try contradiction; try nlia;
        ((let K := fresh in assert (K : List.length h <= at_loc r < g) by (eapply RF1; [|exact Z0]; cbn; tauto); destruct K; nlia)).
Qed.
End HeapMain.
