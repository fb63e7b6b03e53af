(** Examples18.v - concrete cases for C69 and C70. *)
From Verif Require Import Base Num NumQ StepPattern Window Core Backtrack Dtw CountPaths Warp Examples Examples8 Examples11 Heap HeapSpec HeapFrame HeapRefine HeapDtw HeapMain HeapThm.
Open Scope string_scope.
Open Scope list_scope.
Open Scope nat_scope.

(** import dtw; x = numpy.array([1.,2,4]); y = numpy.array([1.,3,3,4]) *)
Definition E18 : env := fst (import_package (N:=NumQ)).
Definition xa (l : list Z) : ndarray NumQ := NdArray (Nd1 (List.map ofZ l)) true true.
Definition h18 : heap NumQ := snd (import_package (N:=NumQ)) ++ [BNd (xa [1; 2; 4]%Z); BNd (xa [1; 3; 3; 4]%Z)].
Definition ix : loc := List.length (snd (import_package (N:=NumQ))).
Definition call18 (wt : wtype NumQ) (s : string) (ob : bool) : hargs NumQ :=
  HArgs (cdist_of sq) (Ref ix []) (Some (Ref (ix + 1) [])) (HName s) wt None true false false ob.
Definition opts18 (wt : wtype NumQ) (s : string) (ob : bool) : opts NumQ := mkOpts (SPName s) wt [] true false false ob.

Lemma start18 : imported E18 h18.
Proof.
  destruct (import_gives (N:=NumQ)) as [I1 I2]. assert (M : more (snd (import_package (N:=NumQ))) h18) by apply more_app.
  split; [eapply load_dict_more; [exact M|exact I1]|]. intros s. specialize (I2 s). fold E18 in I2. destruct (lookup s (e_patterns E18)); [|exact I2].
  destruct I2 as [sp [Q1 Q2]]. exists sp. split; [eapply load_pattern_more; [exact M|exact Q1]|exact Q2].
Qed.
Lemma worth18 wt s ob : worth E18 h18 (call18 wt s ob) (xa [1; 2; 4]%Z) (Some (xa [1; 3; 3; 4]%Z)) (opts18 wt s ob).
Proof.
  constructor; try reflexivity.
  - exists (xa [1; 3; 3; 4]%Z). split; reflexivity.
  - destruct start18 as [_ I2]. specialize (I2 s). cbn [call18 ha_step_pattern opts18 o_step_pattern]. destruct (lookup s (e_patterns E18)) eqn:L.
    + destruct I2 as [sp [Q1 Q2]]. eapply worth_name; eassumption.
    + apply worth_unknown; assumption.
Qed.

Definition left_ok {A} (r : out A * heap NumQ) : bool := match fst r with Ok _ => true | _ => false end.
Definition raised {A} (r : out A * heap NumQ) : bool := match fst r with Raise _ => true | _ => false end.

(** Calls that return, a call that raises (open-begin with symmetric2), T(), warp(), countPaths(). *)
Definition hist18 : list (event NumQ) :=
  [EvDtw (call18 WTNone "symmetric2" false); EvDtw (call18 WTNone "symmetric2" true); EvDtw (call18 WTNone "asymmetric" true);
   EvT 4; EvNew (BDict [("window_size", ofZ 2)]); EvDtw (call18 WTNone "no such pattern" false)].
Lemma history18 : imported E18 h18 /\ (forall e, In e hist18 -> is_call e) /\ exists h1, run E18 hist18 h18 = Some h1 /\
  raised (h_dtw E18 (call18 WTNone "symmetric2" true) h18) = true /\ left_ok (h_dtw E18 (call18 WTNone "asymmetric" true) h18) = true /\
  (List.length h18 + 25 <? List.length h1) = true.
Proof.
  split; [exact start18|]. split.
  { intros e I. cbn in I. repeat destruct I as [<-|I]; try exact Logic.I; contradiction. }
  destruct (run E18 hist18 h18) as [h1|] eqn:R.
  - exists h1. split; [reflexivity|]. split; [vm_compute; reflexivity|]. split; [vm_compute; reflexivity|].
    assert (K : match run E18 hist18 h18 with Some h1 => List.length h18 + 25 <? List.length h1 | None => false end = true) by (vm_compute; reflexivity).
    rewrite R in K. exact K.
  - exfalso. assert (K : match run E18 hist18 h18 with Some _ => true | None => false end = true) by (vm_compute; reflexivity). rewrite R in K. discriminate.
Qed.
Lemma after18 : exists h1 d, run E18 hist18 h18 = Some h1 /\ dtw (cdist_of sq) (xa [1; 2; 4]%Z) (Some (xa [1; 3; 3; 4]%Z)) (opts18 WTNone "symmetric2" false) = Ok d /\
  exists l h2, h_dtw E18 (call18 WTNone "symmetric2" false) h1 = (Ok l, h2) /\ load_result h2 l = Some d.
Proof.
  destruct history18 as [_ [C [h1 [R _]]]]. exists h1.
  assert (Y : is_ok (dtw (cdist_of sq) (xa [1; 2; 4]%Z) (Some (xa [1; 3; 3; 4]%Z)) (opts18 WTNone "symmetric2" false)) = true) by (vm_compute; reflexivity).
  apply is_ok_ex in Y. destruct Y as [d Y]. exists d. split; [exact R|]. split; [exact Y|].
  pose proof (call_after_calls E18 hist18 h18 h1 _ _ _ _ (worth18 WTNone "symmetric2" false) C R) as A. cbn [call18 ha_cdist] in A. rewrite Y in A.
  unfold agree in A. destruct (h_dtw E18 (call18 WTNone "symmetric2" false) h1) as [o h2]. cbn [fst snd] in A. destruct o as [l| | | |]; try contradiction.
  exists l, h2. auto.
Qed.

(** Numbers of a matrix, for comparisons *)
Definition eqZ (v : NumQ) (z : Z) : bool := leb v (ofZ z) && leb (ofZ z) v.
Definition same_mat (m : option (mat NumQ)) (l : list Z) : bool :=
  match m with Some m => Nat.eqb (List.length (dat m)) (List.length l) && forallb (fun p => eqZ (fst p) (snd p)) (combine (dat m) l) | None => false end.
Definition same_nd (m : option (nd NumQ)) (l : list Z) : bool := match m with Some (Nd2 m) => same_mat (Some m) l | _ => false end.

(** x is changed in place after the call: the query of the result shows it, its matrices do not. *)
Definition change18 : list (event NumQ) := [EvWrite ix (BNd (xa [9; 9; 9]%Z)); EvDtw (call18 WTNone "asymmetric" false)].
Definition look18 : bool :=
  match h_dtw E18 (call18 WTNone "symmetric2" false) h18 with
  | (Ok l, h1) => match run E18 change18 h1 with
      | Some h2 => match load_result h1 l, load_result h2 l with
          | Some d, Some d2 => same_nd (r_query d) [1; 2; 4]%Z && same_nd (r_query d2) [9; 9; 9]%Z && same_nd (r_reference d2) [1; 3; 3; 4]%Z &&
              same_mat (r_localCostMatrix d2) [0; 4; 4; 9; 1; 1; 1; 4; 9; 1; 1; 0]%Z && (List.length h18 <? List.length h1) && (ix <? List.length h18)
          | _, _ => false end
      | None => false end
  | _ => false end.
Lemma change_runs : look18 = true.
Proof. vm_compute. reflexivity. Qed.
Lemma sharing18 : exists l h1 d h2 d2, worth E18 h18 (call18 WTNone "symmetric2" false) (xa [1; 2; 4]%Z) (Some (xa [1; 3; 3; 4]%Z)) (opts18 WTNone "symmetric2" false) /\
  h_dtw E18 (call18 WTNone "symmetric2" false) h18 = (Ok l, h1) /\ load_result h1 l = Some d /\
  writes_only (outside (List.length h18) (List.length h1)) change18 /\ run E18 change18 h1 = Some h2 /\ load_result h2 l = Some d2 /\
  same_nd (r_query d) [1; 2; 4]%Z = true /\ same_nd (r_query d2) [9; 9; 9]%Z = true /\ same_mat (r_localCostMatrix d2) [0; 4; 4; 9; 1; 1; 1; 4; 9; 1; 1; 0]%Z = true.
Proof.
  pose proof change_runs as K. unfold look18 in K. destruct (h_dtw E18 (call18 WTNone "symmetric2" false) h18) as [o h1] eqn:R.
  destruct o as [l| | | |]; try discriminate K. destruct (run E18 change18 h1) as [h2|] eqn:Rn; [|discriminate K].
  destruct (load_result h1 l) as [d|] eqn:Q1; [|discriminate K]. destruct (load_result h2 l) as [d2|] eqn:Q2; [|discriminate K].
  repeat rewrite Bool.andb_true_iff in K. destruct K as [[[[[K1 K2] K3] K4] K5] K6].
  exists l, h1, d, h2, d2. split; [apply worth18|]. split; [reflexivity|]. split; [exact Q1|]. split.
  { intros l0 b I. destruct I as [I|[I|[]]]; [|discriminate]. injection I as <- _. left. apply Nat.ltb_lt. exact K6. }
  split; [exact Rn|]. split; [exact Q2|]. auto.
Qed.

(** The dictionary that all calls without window_args share: a program that changes it through the windowArgs
    of a result changes what later calls do. *)
Definition result_args18 : bool :=
  match h_dtw E18 (call18 WTNone "symmetric2" false) h18 with
  | (Ok l, h1) => match load_fields h1 l with
      | Some F => match field_ref F "windowArgs" with
          | Some r => raised (h_dtw E18 (call18 (WTName "sakoechiba") "symmetric2" false) h1) &&
              match run E18 [EvWrite (at_loc r) (BDict [("window_size", ofZ 1)])] h1 with
              | Some h2 => left_ok (h_dtw E18 (call18 (WTName "sakoechiba") "symmetric2" false) h2)
              | None => false end
          | None => false end
      | None => false end
  | _ => false end.
Lemma default_dict_shared : result_args18 = true.
Proof. vm_compute. reflexivity. Qed.
Lemma pattern18 : exists v, load_pattern h18 4 = Some v /\ (List.length (mx v) =? 6) = true.
Proof. eexists. split; [reflexivity|vm_compute; reflexivity]. Qed.
