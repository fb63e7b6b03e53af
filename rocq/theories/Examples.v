(** Examples.v - concrete calls that meet the hypotheses of the property theorems. *)
From Coq Require Import ZifyBool ZifyNat.
From Verif Require Import Base Num StepPattern Window Core Backtrack Dtw Spec Api Tables Vocab Terms
  NumQ NumQLaws NumF NumFLaws ApiThms Derived Thm8 Thm10.
Open Scope string_scope.
Open Scope list_scope.
Open Scope nat_scope.

Section Ex.
Context {N : Num}.
Variable L : NumLaws N.

Lemma dtw_pattern_arg cdist x y (o : opts N) d : dtw cdist x y o = Ok d ->
  pattern_of (o_step_pattern o) (r_stepPattern d) /\
  canonicalizeWindowFunction (o_window_type o) = r_windowFunction d.
Proof.
  intros H.
  assert (K : canonicalizeStepPattern (o_step_pattern o) = Ok (r_stepPattern d) /\
              canonicalizeWindowFunction (o_window_type o) = r_windowFunction d).
  { revert H. unfold dtw.
    destruct y; [destruct (ndim_gt2 _ || ndim_gt2 _); [discriminate|]; destruct (as_column _); try discriminate; destruct (as_column _); try discriminate; destruct (cdist _ _); try discriminate; cbn [bind]|destruct (nd_val x); try discriminate; cbn [bind]].
    all: destruct (canonicalizeStepPattern (o_step_pattern o)) as [p| | | |]; try discriminate; cbn [bind].
    all: unfold dtw_lm; intros H.
    all: repeat match type of H with
      | bind ?e _ = Ok _ => destruct e as [[[? ?] ?]| | | |] in H; cbn [bind] in H; try discriminate H
      | bind ?e _ = Ok _ => destruct e as [[? ?]| | | |] in H; cbn [bind] in H; try discriminate H
      | bind ?e _ = Ok _ => destruct e in H; cbn [bind] in H; try discriminate H
      | (if ?b then _ else _) = Ok _ => destruct b in H; try discriminate H
      | (let '(_, _) := ?p in _) = Ok _ => destruct p in H
      end.
    all: injection H as <-; split; reflexivity. }
  destruct K as [K1 K2]. split; [|exact K2].
  destruct (o_step_pattern o) as [s|nm]; cbn [canonicalizeStepPattern] in K1.
  - apply Ok_inj in K1. subst. constructor.
  - destruct (lookup nm pattern_table) eqn:E; [|discriminate]. apply Ok_inj in K1. subst. constructor. exact E.
Qed.

(** A call with one argument, a C-ordered array of doubles. *)
Definition no_cdist : mat N -> mat N -> out (mat N) := fun _ _ => Raise TypeError.
Definition arr (lm : mat N) : ndarray N := NdArray (Nd2 lm) true true.
Definition run (lm : mat N) (o : opts N) : out (DTW N) := dtw no_cdist (arr lm) None o.

(** The call on the matrix [lm] with the named pattern [k] and the window [w] meets
    the documented requirements and returns a result with property [P]. *)
Definition succeeds (lm : mat N) (o : opts N) (k : string) (w : winfun N) (P : DTW N -> bool) : Prop :=
  exists sp l d, lookup k pattern_table = Some sp /\ lookup k predefined = Some l /\
    well_posed no_cdist (arr lm) None o lm sp (productions l) w /\
    run lm o = Ok d /\ r_stepPattern d = sp /\ r_windowFunction d = w /\ P d = true.
(** ... or raises the exception [e]. *)
Definition fails (lm : mat N) (o : opts N) (k : string) (w : winfun N) (e : exn) : Prop :=
  exists sp l, lookup k pattern_table = Some sp /\ lookup k predefined = Some l /\
    well_posed no_cdist (arr lm) None o lm sp (productions l) w /\
    run lm o = Raise e.

Lemma named_posed lm o k w (sp : steppat N) l :
  lookup k pattern_table = Some sp -> lookup k predefined = Some l ->
  o_step_pattern o = SPName k -> wf_mat lm -> window_of (o_window_type o) w ->
  window_total w (o_window_args o) (rows_used (o_open_begin o) lm) (nc lm) ->
  0 < nr lm -> size_ok (rows_used (o_open_begin o) lm) (nc lm) ->
  negb (o_open_begin o) || (String.eqb (hint sp) "N" && negb (o_distance_only o)) = true ->
  negb (o_open_end o) || negb (String.eqb (hint sp) "NA") = true ->
  well_posed no_cdist (arr lm) None o lm sp (productions l) w.
Proof.
  intros H1 H2 H3 H4 H5 H6 H7 H8 H9 H10. constructor; try assumption.
  - apply costs_one; [reflexivity|exact H4].
  - right. split; reflexivity.
  - rewrite H3. constructor. exact H1.
  - apply (named_rules L k); assumption.
  - intros E. rewrite E in H9. cbn [negb orb] in H9. apply andb_prop in H9. destruct H9 as [A B].
    split; [apply String.eqb_eq; exact A|]. destruct (o_distance_only o); [discriminate|reflexivity].
  - intros E F. rewrite E, F in H10. discriminate H10.
Qed.

Definition checkOk (x : out (DTW N)) (P : DTW N -> bool) : bool := match x with Ok d => P d | _ => false end.

Lemma succeeds_intro lm o k w (sp : steppat N) l P :
  lookup k pattern_table = Some sp -> lookup k predefined = Some l ->
  o_step_pattern o = SPName k -> wf_mat lm -> window_of (o_window_type o) w ->
  window_total w (o_window_args o) (rows_used (o_open_begin o) lm) (nc lm) ->
  0 < nr lm -> size_ok (rows_used (o_open_begin o) lm) (nc lm) ->
  negb (o_open_begin o) || (String.eqb (hint sp) "N" && negb (o_distance_only o)) = true ->
  negb (o_open_end o) || negb (String.eqb (hint sp) "NA") = true ->
  checkOk (run lm o) P = true ->
  succeeds lm o k w P.
Proof.
  intros H1 H2 H3 H4 H5 H6 H7 H8 H9 H10 H11.
  destruct (run lm o) as [d| | | |] eqn:E; try discriminate H11.
  exists sp, l, d. split; [exact H1|]. split; [exact H2|]. split; [eapply named_posed; eassumption|].
  split; [exact E|]. destruct (dtw_pattern_arg no_cdist (arr lm) None o d E) as [A B].
  split. { rewrite H3 in A. inversion A as [|kk s Hs E1 E2]. subst. congruence. }
  split; [|exact H11]. rewrite <- B. apply window_of_canon. exact H5.
Qed.

Definition checkRaise (x : out (DTW N)) (msg : string) : bool :=
  match x with Raise (ValueError m) => String.eqb m msg | _ => false end.
Lemma fails_intro lm o k w (sp : steppat N) l msg :
  lookup k pattern_table = Some sp -> lookup k predefined = Some l ->
  o_step_pattern o = SPName k -> wf_mat lm -> window_of (o_window_type o) w ->
  window_total w (o_window_args o) (rows_used (o_open_begin o) lm) (nc lm) ->
  0 < nr lm -> size_ok (rows_used (o_open_begin o) lm) (nc lm) ->
  negb (o_open_begin o) || (String.eqb (hint sp) "N" && negb (o_distance_only o)) = true ->
  negb (o_open_end o) || negb (String.eqb (hint sp) "NA") = true ->
  checkRaise (run lm o) msg = true ->
  fails lm o k w (ValueError msg).
Proof.
  intros H1 H2 H3 H4 H5 H6 H7 H8 H9 H10 H11.
  exists sp, l. split; [exact H1|]. split; [exact H2|]. split; [eapply named_posed; eassumption|].
  destruct (run lm o) as [|[m| | | | |]| | |]; try discriminate H11. apply String.eqb_eq in H11. subst. reflexivity.
Qed.

(** The distance is the integer z, and the alignment is the given one. *)
Definition dist_is (z : Z) (d : DTW N) : bool := eqb (r_distance d) (ofZ z).
Definition zlist_eqb (a b : list Z) : bool := if list_eq_dec Z.eq_dec a b then true else false.
Definition align_is (i1 i2 steps : list Z) (d : DTW N) : bool :=
  match r_map d with
  | Some mp => zlist_eqb (index1 mp) i1 && zlist_eqb (index2 mp) i2 && zlist_eqb (stepsTaken mp) steps
  | None => false
  end.
Definition ints (n m : nat) (l : list Z) : mat N := Mat n m (map ofZ l).
Definition named (k : string) (t : wtype N) (kw : kwargs N) (keep donly oend obeg : bool) : opts N :=
  mkOpts (SPName k) t kw keep donly oend obeg.
End Ex.

Ltac ex_window := first [exact I | intros i j _ _; eexists; reflexivity].
Ltac ex_size := unfold size_ok; split; [apply Nat.ltb_lt; reflexivity|split; [apply Nat.ltb_lt; reflexivity|apply Z.leb_le; reflexivity]].
Ltac ex_ok L := eapply (succeeds_intro L);
  [reflexivity|reflexivity|reflexivity|reflexivity|constructor|ex_window|apply Nat.ltb_lt; reflexivity|ex_size|
   vm_compute; reflexivity|vm_compute; reflexivity|vm_compute; reflexivity].
Ltac ex_fail L := eapply (fails_intro L);
  [reflexivity|reflexivity|reflexivity|reflexivity|constructor|ex_window|apply Nat.ltb_lt; reflexivity|ex_size|
   vm_compute; reflexivity|vm_compute; reflexivity|vm_compute; reflexivity].

(** ** Binary64 *)
Definition mA : mat NumF := ints 3 4 [1;5;2;4; 3;1;6;2; 4;2;1;1]%Z.
(** the same with a missing value and an infinite one *)
Definition mB : mat NumF := Mat 3 4 (map ofZ [1;5;2;4; 3;1]%Z ++ [nan; pinf] ++ map ofZ [4;2;1;1]%Z).
Definition mSq : mat NumF := ints 3 3 [0;2;4; 2;0;3; 4;3;0]%Z.
Definition mWall : mat NumF := Mat 3 2 (map ofZ [1;1]%Z ++ [nan; pinf] ++ map ofZ [1;1]%Z).

Definition oKeep (k : string) : opts NumF := named k WTNone [] true false false false.

Lemma exA : succeeds mA (oKeep "symmetric2") "symmetric2" NoWindow
  (fun d => dist_is 6 d && align_is [0;1;2;2]%Z [0;1;2;3]%Z [1;1;2]%Z d).
Proof. ex_ok NumF_laws. Qed.

Definition ws (z : Z) : kwargs NumF := band (ofZ z).
Definition m5 : mat NumF := ints 5 5 [0;2;4;3;1; 2;1;3;2;2; 4;3;0;1;2; 3;2;1;4;2; 1;2;3;1;1]%Z.
Definition steps_are (i1s i2s : list Z) (d : DTW NumF) : bool :=
  match r_map d with Some mp => zlist_eqb (index1s mp) i1s && zlist_eqb (index2s mp) i2s | None => false end.

(** an obstacle in the way, productions with inner points *)
Lemma exB : succeeds mB (oKeep "symmetricP1") "symmetricP1" NoWindow
  (fun d => dist_is 6 d && align_is [0;1;2;2]%Z [0;1;2;3]%Z [2;1]%Z d && steps_are [0;1;2]%Z [0;1;3]%Z d).
Proof. ex_ok NumF_laws. Qed.
(** no alignment at all *)
Lemma exWall : fails mWall (oKeep "symmetric2") "symmetric2" NoWindow
  (ValueError "No warping path found compatible with the local constraints").
Proof. ex_fail NumF_laws. Qed.
(** open end *)
Lemma exE : succeeds mA (named "asymmetric" WTNone [] true false true false) "asymmetric" NoWindow
  (fun d => dist_is 3 d && align_is [0;1;2]%Z [0;1;2]%Z [2;2]%Z d && (r_jmin d =? 2)).
Proof. ex_ok NumF_laws. Qed.
(** open begin and end *)
Lemma exBE : succeeds mA (named "asymmetricP1" WTNone [] true false true true) "asymmetricP1" NoWindow
  (fun d => dist_is 5 d && align_is [0;1;2]%Z [2;3;3]%Z [2;3]%Z d && (r_jmin d =? 3)).
Proof. ex_ok NumF_laws. Qed.
(** open begin, closed end *)
Lemma exOB : succeeds mA (named "asymmetric" WTNone [] true false false true) "asymmetric" NoWindow
  (fun d => dist_is 3 d && align_is [0;1;2]%Z [0;1;3]%Z [1;2;3]%Z d).
Proof. ex_ok NumF_laws. Qed.
Lemma exRigid : succeeds mA (named "rigid" WTNone [] true false true true) "rigid" NoWindow
  (fun d => dist_is 12 d && align_is [0;1;2]%Z [1;2;3]%Z [1;1;1]%Z d).
Proof. ex_ok NumF_laws. Qed.
Lemma exRigidLong : fails mSq (named "rigid" WTNone [] true false true true) "rigid" NoWindow
  (ValueError "All-NaN slice encountered").
Proof. ex_fail NumF_laws. Qed.
(** windows *)
Lemma exSC : succeeds mA (named "symmetricP1" (WTName "sakoechiba") (ws 1) true false false false) "symmetricP1" SakoeChiba
  (fun d => dist_is 6 d && align_is [0;1;2;2]%Z [0;1;2;3]%Z [2;1]%Z d).
Proof. ex_ok NumF_laws. Qed.
Lemma exSCnarrow : fails mA (named "symmetric2" (WTName "sakoechiba") (ws 0) true false false false) "symmetric2" SakoeChiba
  (ValueError "No warping path found compatible with the local constraints").
Proof. ex_fail NumF_laws. Qed.
Lemma exIta : succeeds m5 (named "symmetric2" (WTName "itakura") [] true false false false) "symmetric2" Itakura
  (fun d => dist_is 6 d && align_is [0;1;2;3;4;4]%Z [0;1;2;2;3;4]%Z [1;1;3;1;2]%Z d).
Proof. ex_ok NumF_laws. Qed.
Definition mLong : mat NumF := ints 2 4 [0;0;0;0;0;0;0;0]%Z.
Lemma exItaLong : fails mLong (named "symmetric2" (WTName "itakura") [] true false false false) "symmetric2" Itakura
  (ValueError "No warping path found compatible with the local constraints").
Proof. ex_fail NumF_laws. Qed.
(** a user-defined window: rejects one cell *)
Definition userw : winfun NumF := UserWin (fun i j n m kw => Ok (negb ((i =? 1)%Z && (j =? 1)%Z))).
Lemma exUser : succeeds mA (named "symmetric2" (WTFun userw) [] true false false false) "symmetric2" userw
  (fun d => match r_map d with Some mp => negb (zlist_eqb (index2 mp) [0;1;2;3]%Z) | None => false end).
Proof. ex_ok NumF_laws. Qed.
(** identical series *)
Lemma exSq : succeeds mSq (oKeep "symmetric2") "symmetric2" NoWindow
  (fun d => dist_is 0 d && align_is [0;1;2]%Z [0;1;2]%Z [1;1]%Z d).
Proof. ex_ok NumF_laws. Qed.
Lemma exMori : succeeds mA (oKeep "mori2006") "mori2006" NoWindow (fun d => dist_is 10 d).
Proof. ex_ok NumF_laws. Qed.
Lemma exAsym : succeeds mA (oKeep "asymmetric") "asymmetric" NoWindow (fun d => dist_is 3 d).
Proof. ex_ok NumF_laws. Qed.

(** An alignment other than the optimal one, with its cost. *)
Lemma steps_walk {N : Num} (rules : list (rule N)) (lm : mat N) kw ks c :
  forallb (fun k => match rule_no rules k with Some _ => true | None => false end) ks = true ->
  Thm1.target rules 0 0 ks = (nr lm - 1, nc lm - 1) -> 0 < nr lm -> 0 < nc lm ->
  replay_cost rules (cell lm) 0 0 (cell lm 0 0) ks = c ->
  exists vs ts, closed_walk rules lm NoWindow kw ks vs ts (nr lm - 1, nc lm - 1) c.
Proof.
  intros Hk Ht Hn Hm Hc.
  assert (K : Thm1.known rules ks).
  { intros k Hin. rewrite forallb_forall in Hk. specialize (Hk k Hin). destruct (rule_no rules k); [eauto|discriminate]. }
  destruct (Feas.walk_of_target rules (cell lm) (nr lm) (nc lm) (closed_source lm) (in_window NoWindow kw (nr lm) (nc lm))
    0 0 (cell lm 0 0) ks) as [vs [ts [c' W]]]; try assumption.
  - reflexivity.
  - intros a b _ _. exact I.
  - rewrite Ht. cbn [fst]. lia.
  - rewrite Ht. cbn [snd]. lia.
  - rewrite Ht in W. destruct (Thm1.walk_replay _ _ _ _ _ _ _ _ _ _ _ W) as [i [j [c0 [S0 [_ [_ [_ [_ [_ [_ E]]]]]]]]]].
    unfold closed_source in S0. destruct (Nat.eqb_spec i 0); [|discriminate]. destruct (Nat.eqb_spec j 0); [|discriminate].
    subst i j. injection S0 as <-. rewrite Hc in E. subst c'. exists vs, ts. exact W.
Qed.
Lemma exA_other : exists l vs ts c, lookup "symmetric2" predefined = Some l /\
  closed_walk (productions l) mA NoWindow [] [2;2;2;3;3] vs ts (nr mA - 1, nc mA - 1) c /\
  usable [2;2;2;3;3] c /\ eqb c (ofZ 15) = true.
Proof.
  set (l := match lookup "symmetric2" predefined with Some l => l | None => [] end).
  destruct (steps_walk (@productions NumF l) mA [] [2;2;2;3;3] (replay_cost (productions l) (cell mA) 0 0 (cell mA 0 0) [2;2;2;3;3]))
    as [vs [ts W]]; try reflexivity; try (cbn; lia).
  exists l, vs, ts, (replay_cost (productions l) (cell mA) 0 0 (cell mA 0 0) [2;2;2;3;3]).
  split; [reflexivity|]. split; [exact W|]. split; [split; [|intros _]|]; vm_compute; reflexivity.
Qed.
