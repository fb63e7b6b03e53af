(** ThreadProof.v - proofs for C71 and C72. *)
From Verif Require Import Base Num StepPattern Window Core Backtrack Dtw CountPaths Warp Heap HeapSpec HeapFrame HeapRefine HeapDtw HeapMain HeapThm Threads ThreadSpec.
From Coq Require Import ZifyBool ZifyNat.
Open Scope string_scope.
Open Scope list_scope.
Open Scope nat_scope.

Section ThreadProof.
Context {N : Num}.

(** ** Interrupted and uninterrupted runs *)
Lemma steps_stop A n (o : out A) (h : heap N) : steps n (Stop o) h = (Stop o, h).
Proof. induction n; cbn; auto. Qed.
Lemma steps_add A n m (c : cmd N A) h : steps (n + m) c h = let (c', h') := steps n c h in steps m c' h'.
Proof. revert c h. induction n as [|n IH]; intros c h; cbn; [reflexivity|]. destruct (step1 c h). apply IH. Qed.

Lemma stop_inj A (o o' : out A) (h h' : heap N) : (Stop (N := N) o, h) = (Stop o', h') -> o = o' /\ h = h'.
Proof. intros E. split; [|exact (f_equal snd E)]. pose proof (f_equal (fun p => stopped (fst p)) E) as Q. cbn in Q. congruence. Qed.
Lemma steps_then A B (c : cmd N A) (f : A -> cmd N B) n : forall h o h1, steps n c h = (Stop o, h1) ->
  exists k, steps k (Then c f) h = (Then (Stop o) f, h1).
Proof.
  revert c. induction n as [|n IH]; intros c h o h1 E; cbn in E.
  - injection E as -> ->. exists 0. reflexivity.
  - destruct (stopped c) as [o'|] eqn:St.
    + destruct c; try discriminate St. cbn in E. rewrite steps_stop in E. apply stop_inj in E. destruct E as [-> ->]. exists 0. reflexivity.
    + destruct (step1 c h) as [c' h'] eqn:Q. destruct (IH _ _ _ _ E) as [k K]. exists (S k). cbn. rewrite St, Q. exact K.
Qed.
Lemma steps_catch A (c : cmd N A) (f : exn -> cmd N A) n : forall h o h1, steps n c h = (Stop o, h1) ->
  exists k, steps k (Catch c f) h = (Catch (Stop o) f, h1).
Proof.
  revert c. induction n as [|n IH]; intros c h o h1 E; cbn in E.
  - injection E as -> ->. exists 0. reflexivity.
  - destruct (stopped c) as [o'|] eqn:St.
    + destruct c; try discriminate St. cbn in E. rewrite steps_stop in E. apply stop_inj in E. destruct E as [-> ->]. exists 0. reflexivity.
    + destruct (step1 c h) as [c' h'] eqn:Q. destruct (IH _ _ _ _ E) as [k K]. exists (S k). cbn. rewrite St, Q. exact K.
Qed.

(** Every run ends, as the uninterrupted run. *)
Theorem runs_end A (c : cmd N A) : forall h, exists k, steps k c h = (Stop (fst (whole c h)), snd (whole c h)).
Proof.
  induction c as [A o|A p|A B c IH f IHf|A c IH f IHf]; intros h.
  - exists 0. reflexivity.
  - exists 1. cbn. destruct (p h). reflexivity.
  - destruct (IH h) as [k1 K1]. destruct (steps_then _ _ c f _ _ _ _ K1) as [k2 K2]. cbn [whole]. unfold andthen.
    destruct (whole c h) as [o h1]. cbn [fst snd] in K2. destruct o as [a|e| | |].
    + destruct (IHf a h1) as [k3 K3]. exists (k2 + S k3). rewrite steps_add, K2. cbn. exact K3.
    + exists (k2 + 1). rewrite steps_add, K2. reflexivity.
    + exists (k2 + 1). rewrite steps_add, K2. reflexivity.
    + exists (k2 + 1). rewrite steps_add, K2. reflexivity.
    + exists (k2 + 1). rewrite steps_add, K2. reflexivity.
  - destruct (IH h) as [k1 K1]. destruct (steps_catch _ c f _ _ _ _ K1) as [k2 K2]. cbn [whole].
    destruct (whole c h) as [o h1]. cbn [fst snd] in K2. destruct o as [a|e| | |].
    + exists (k2 + 1). rewrite steps_add, K2. reflexivity.
    + destruct (IHf e h1) as [k3 K3]. exists (k2 + S k3). rewrite steps_add, K2. cbn. exact K3.
    + exists (k2 + 1). rewrite steps_add, K2. reflexivity.
    + exists (k2 + 1). rewrite steps_add, K2. reflexivity.
    + exists (k2 + 1). rewrite steps_add, K2. reflexivity.
Qed.
Lemma stopped_whole A (c : cmd N A) h k o h1 : steps k c h = (Stop o, h1) -> whole c h = (o, h1).
Proof.
  intros E. destruct (runs_end _ c h) as [k2 K]. assert (steps (k + k2) c h = steps (k2 + k) c h) as Q by (f_equal; lia).
  rewrite !steps_add, E, K, !steps_stop in Q. symmetry in Q. apply stop_inj in Q. destruct Q as [<- <-]. destruct (whole c h); reflexivity.
Qed.

(** ** The stepwise programs are those of Heap.v *)
Lemma whole_then A B (c : cmd N A) (f : A -> cmd N B) p g : (forall h, whole c h = p h) -> (forall a h, whole (f a) h = g a h) ->
  forall h, whole (Then c f) h = andthen p g h.
Proof. intros H1 H2 h. cbn. unfold andthen. rewrite H1. destruct (p h) as [[]]; auto. Qed.

Ltac as_cmd := cbv beta iota delta [direct stepwise seq2 op K].
Ltac wstep :=
  first
  [ reflexivity
  | apply whole_then; [|intro]; intros
  | match goal with |- whole (let '(_, _) := ?x in _) _ = _ => destruct x end
  | match goal with |- whole (match ?x with _ => _ end) _ = _ => destruct x end
  | progress cbv zeta ].

Lemma whole_wrapper wm lm ns dir cm h : whole (c_wrapper (N := N) (K := stepwise) wm lm ns dir cm) h = h_wrapper wm lm ns dir cm h.
Proof. open_wrapper. unfold c_wrapper. as_cmd. revert h. repeat (intros; wstep). Qed.
Lemma whole_global lm sp wf seed args h : whole (c_globalCostMatrix (N := N) (K := stepwise) lm sp wf seed args) h = h_globalCostMatrix lm sp wf seed args h.
Proof.
  open_global. unfold c_globalCostMatrix.
  set (W := @c_wrapper N stepwise). assert (HW : forall a b c d e h, whole (W a b c d e) h = h_wrapper a b c d e h) by (intros; apply whole_wrapper). clearbody W.
  as_cmd. revert h. repeat (intros; first [apply HW | wstep]).
Qed.
Lemma whole_local a h : whole (c_local_costs (N := N) (K := stepwise) a) h = h_local_costs a h.
Proof. open_local. unfold c_local_costs. as_cmd. revert h. repeat (intros; wstep). Qed.
Theorem whole_dtw E a h : whole (c_dtw (N := N) (K := stepwise) E a) h = h_dtw E a h.
Proof.
  open_dtw. unfold c_dtw.
  set (G := @c_globalCostMatrix N stepwise). assert (HG : forall a b c d e h, whole (G a b c d e) h = h_globalCostMatrix a b c d e h) by (intros; apply whole_global). clearbody G.
  set (L := @c_local_costs N stepwise). assert (HL : forall a h, whole (L a) h = h_local_costs a h) by (intros; apply whole_local). clearbody L.
  as_cmd. revert h. repeat (intros; first [apply HG | apply HL | wstep]).
Qed.

(** ** What an interrupted run leaves alone *)
Fixpoint safe (h : heap N) {A} (c : cmd N A) : (A -> Prop) -> Prop :=
  match c in cmd _ A return (A -> Prop) -> Prop with
  | Stop o => fun Q => forall a, o = Ok a -> Q a
  | Atom p => fun Q => keeps h p Q
  | Then c f => fun Q => safe h c (fun a => safe h (f a) Q)
  | Catch c k => fun Q => safe h c Q /\ forall e, safe h (k e) Q
  end.
Lemma safe_weaken h A (c : cmd N A) : forall Q R : A -> Prop, (forall a, Q a -> R a) -> safe h c Q -> safe h c R.
Proof.
  induction c as [A o|A p|A B c IH f IHf|A c IH f IHf]; intros Q R M; cbn.
  - intros S a E. apply M. apply S. exact E.
  - apply keeps_weaken. exact M.
  - apply IH. intros a. apply IHf. exact M.
  - intros [S1 S2]. split; [eapply IH; eassumption|]. intros e. eapply IHf; eauto.
Qed.
Lemma safe_then h A B (c : cmd N A) (f : A -> cmd N B) R Q : safe h c R -> (forall a, R a -> safe h (f a) Q) -> safe h (Then c f) Q.
Proof. intros S1 S2. cbn. eapply safe_weaken; [|exact S1]. exact S2. Qed.
Lemma safe_any h A (c : cmd N A) Q : safe h c Q -> safe h c (fun _ => True).
Proof. apply safe_weaken. auto. Qed.
Lemma step1_safe (h : heap N) A (c : cmd N A) : forall Q t c' h', safe h c Q -> step1 c (h ++ t) = (c', h') -> exists t', h' = h ++ t' /\ safe h c' Q.
Proof.
  induction c as [A o|A p|A B c IH f IHf|A c IH f IHf]; intros Q t c' h' S E; cbn in E.
  - injection E as <- <-. exists t. auto.
  - destruct (p (h ++ t)) as [o h1] eqn:P. injection E as <- <-. destruct (S t) as [[t' K1] K2]. rewrite P in K1, K2. cbn in K1, K2. exists t'. split; [exact K1|].
    cbn. exact K2.
  - cbn in S. destruct (stopped c) as [o|] eqn:St.
    + destruct c; try discriminate St. injection St as ->. cbn in S. destruct o as [a|e| | |]; injection E as <- <-; exists t; split; auto; cbn; try discriminate; apply S; reflexivity.
    + destruct (step1 c (h ++ t)) as [c1 h1] eqn:P. injection E as <- <-. destruct (IH _ _ _ _ S P) as [t' [K1 K2]]. exists t'. split; [exact K1|exact K2].
  - cbn in S. destruct S as [S1 S2]. destruct (stopped c) as [o|] eqn:St.
    + destruct c; try discriminate St. injection St as ->. cbn in S1. destruct o as [a|e| | |]; injection E as <- <-; exists t; split; auto; cbn; try discriminate; auto.
    + destruct (step1 c (h ++ t)) as [c1 h1] eqn:P. injection E as <- <-. destruct (IH _ _ _ _ S1 P) as [t' [K1 K2]]. exists t'. split; [exact K1|split; [exact K2|exact S2]].
Qed.
Lemma steps_safe (h : heap N) A n : forall (c : cmd N A) Q t c' h', safe h c Q -> steps n c (h ++ t) = (c', h') -> exists t', h' = h ++ t' /\ safe h c' Q.
Proof.
  induction n as [|n IH]; intros c Q t c' h' S E; cbn in E.
  - injection E as <- <-. eauto.
  - destruct (step1 c (h ++ t)) as [c1 h1] eqn:P. destruct (step1_safe _ _ _ _ _ _ _ S P) as [t1 [-> S1]]. eapply IH; eassumption.
Qed.

Ltac sstep :=
  first
  [ apply keeps_fail
  | apply keeps_ret; first [exact I | assumption | (cbn; assumption) | (split; cbn; assumption) | idtac]
  | eapply safe_then; [first [apply keeps_see | apply keeps_lift | apply keeps_new | apply keeps_getref
        | (apply keeps_put; assumption) | (apply keeps_setattr; assumption) | (apply keeps_delattr; assumption)]
      | let a := fresh "a" in let H := fresh "K" in intros a H ]
  | match goal with |- safe _ (if ?b then _ else _) _ => destruct b end ].

Lemma safe_wrapper (h : heap N) wm lm nsteps dir cm : List.length h <= cm ->
  safe h (c_wrapper (K := stepwise) wm lm nsteps dir cm) (fun l => List.length h <= l).
Proof. intros H. unfold c_wrapper. as_cmd. repeat sstep. apply keeps_new. Qed.
Lemma safe_global (h : heap N) lm sp wf seed args : (forall p, seed = Some p -> List.length h <= p) ->
  safe h (c_globalCostMatrix (K := stepwise) lm sp wf seed args) (fun l => List.length h <= l).
Proof.
  intros H. unfold c_globalCostMatrix.
  set (W := @c_wrapper N stepwise). assert (HW : forall wm lm ns dir cm, List.length h <= cm -> safe h (W wm lm ns dir cm) (fun l => List.length h <= l)) by (intros; apply safe_wrapper; assumption).
  clearbody W. as_cmd. repeat sstep.
  apply (safe_then _ _ _ _ _ (fun l => List.length h <= l)).
  - destruct seed as [p|]; [apply keeps_ret; apply H; reflexivity|].
    sstep. apply (safe_then _ _ _ _ _ (fun _ => True)); [destruct (mget _ 0 0); repeat sstep|intros v _].
    repeat sstep.
  - intros c Hc. apply (safe_then _ _ _ _ _ (fun l => List.length h <= l)); [apply HW; exact Hc|]. intros o Ho. repeat sstep.
Qed.
Lemma safe_local (h : heap N) a : safe h (c_local_costs (K := stepwise) a) (fun _ => True).
Proof.
  unfold c_local_costs. as_cmd. destruct (ha_y a) as [y|]; repeat sstep; cbv zeta.
  - repeat sstep. destruct (nd_val _); repeat sstep. destruct (nd_val _); repeat sstep.
  - destruct (nd_val _); repeat sstep.
Qed.
Theorem safe_dtw (h : heap N) E a : safe h (c_dtw (K := stepwise) E a) (fun l => List.length h <= l).
Proof.
  unfold c_dtw.
  set (G := @c_globalCostMatrix N stepwise).
  assert (HG : forall lm sp wf seed args, (forall p, seed = Some p -> List.length h <= p) -> safe h (G lm sp wf seed args) (fun l => List.length h <= l)) by (intros; apply safe_global; assumption).
  set (L := @c_local_costs N stepwise). assert (HL : safe h (L a) (fun _ => True)) by apply safe_local.
  clearbody G L. as_cmd.
  eapply safe_then; [apply HL|]. intros [lm qr] _. cbv zeta.
  apply (safe_then _ _ _ _ _ (fun _ => True)).
  { destruct (ha_step_pattern a) as [l|s]; [apply keeps_ret; exact I|]. destruct (lookup s (e_patterns E)); [apply keeps_ret; exact I|apply keeps_fail]. }
  intros sp _. do 2 sstep.
  apply (safe_then _ _ _ _ _ (fun q => forall p, snd q = Some p -> List.length h <= p)).
  { destruct (ha_open_begin a); [|apply keeps_ret; discriminate]. destruct (negb _); [apply keeps_fail|]. do 3 sstep.
    apply keeps_ret. cbn. intros p E0. injection E0 as <-. assumption. }
  intros [lm1 seed] Hs. cbn in Hs.
  eapply safe_then; [apply HG; exact Hs|]. intros out Ho.
  do 10 sstep. cbv zeta.
  apply (safe_then _ _ _ _ _ (fun _ => True)).
  { destruct (ha_open_end a); [|apply keeps_ret; exact I]. destruct (String.eqb _ "NA"); [apply keeps_fail|apply keeps_lift]. }
  intros jmin _. sstep.
  apply (safe_then _ _ _ _ _ (fun _ => True)). { destruct (nth_error _ jmin); [apply keeps_ret; exact I|apply keeps_fail]. }
  intros v _. sstep. destruct (isnan v); [apply keeps_fail|].
  apply (safe_then _ _ _ _ _ (fun _ => True)).
  { destruct (negb _); [|apply keeps_ret; exact I]. destruct (nth_error _ jmin); [apply keeps_ret; exact I|apply keeps_fail]. }
  intros nv _. sstep.
  apply (safe_then _ _ _ _ _ (fun _ => True)).
  { destruct (ha_distance_only a); [apply keeps_ret; exact I|]. do 12 sstep. apply keeps_setattr. assumption. }
  intros _ _.
  apply (safe_then _ _ _ _ _ (fun _ => True)).
  { destruct (ha_open_begin a); [|apply keeps_ret; exact I]. repeat sstep. }
  intros lm2 _.
  apply (safe_then _ _ _ _ _ (fun _ => True)); [|intros _ _; apply keeps_ret; assumption].
  destruct (ha_keep_internals a).
  - sstep. destruct qr as [[x y]|]; [|apply keeps_ret; exact I]. sstep. apply keeps_setattr. assumption.
  - sstep. apply keeps_delattr. assumption.
Qed.

Theorem client_safe E (h : heap N) A (c : cmd N A) : client E (List.length h) A c -> safe h c (fun _ => True).
Proof.
  induction 1.
  - cbn. auto.
  - eapply safe_any, safe_dtw.
  - unfold c_T. as_cmd. repeat sstep. eapply keeps_any, keeps_new.
  - unfold c_countPaths. as_cmd. sstep. apply keeps_lift.
  - unfold c_warp. as_cmd. repeat sstep. eapply keeps_any, keeps_new.
  - unfold c_warpArea. as_cmd. sstep. apply keeps_lift.
  - eapply keeps_any, keeps_new.
  - apply keeps_see.
  - apply keeps_put. assumption.
  - eapply safe_then; [eassumption|]. auto.
  - cbn. auto.
Qed.

(** ** C72: interruption at any point *)
Theorem interrupted E (h : heap N) A (c : cmd N A) n : client E (List.length h) A c -> unchanged h (snd (steps n c h)).
Proof.
  intros C. destruct (steps n c h) as [c' h'] eqn:Q. rewrite <- (app_nil_r h) in Q at 1.
  destruct (steps_safe _ _ _ _ _ _ _ _ (client_safe _ _ _ _ C) Q) as [t [-> _]]. exists t. reflexivity.
Qed.

Theorem call_after_interruption E (h : heap N) A (c : cmd N A) n a x y o : client E (List.length h) A c -> worth E h a x y o ->
  agree (dtw (ha_cdist a) x y o) (h_dtw E a (snd (steps n c h))) (fun d l h' => load_result h' l = Some d).
Proof.
  intros C W. pose proof (dtw_refines E _ a x y o (worth_more _ _ _ _ _ _ _ (unchanged_more _ _ (interrupted E h A c n C)) W)) as R.
  unfold agree in *. destruct (dtw _ x y o), (fst (h_dtw E a (snd (steps n c h)))); auto. apply R.
Qed.
Theorem results_after_interruption E (h : heap N) A (c : cmd N A) n l d : client E (List.length h) A c -> load_result h l = Some d ->
  load_result (snd (steps n c h)) l = Some d.
Proof. intros C. apply result_more. apply unchanged_more. eapply interrupted. exact C. Qed.

(** ** C71: threads *)
Lemma firstn_here {A} (l t : list A) : firstn (List.length l) (l ++ t) = l.
Proof. rewrite firstn_app, Nat.sub_diag, firstn_all. cbn. apply app_nil_r. Qed.
Lemma skipn_here {A} (l t : list A) : skipn (List.length l) (l ++ t) = t.
Proof. rewrite skipn_app, Nat.sub_diag, skipn_all. reflexivity. Qed.

Lemma steps_snoc A n (c : cmd N A) h : steps (S n) c h = let (c', h') := steps n c h in step1 c' h'.
Proof. replace (S n) with (n + 1) by lia. rewrite steps_add. destruct (steps n c h) as [c' h']. cbn. destruct (step1 c' h'); reflexivity. Qed.

Lemma threads_invariant E (h : heap N) A (cs : list (cmd N A)) : (forall c, In c cs -> client E (List.length h) A c) -> forall s,
  exists ths, run_threads s (h, start cs) = (h, ths) /\ List.length ths = List.length cs /\
    forall t c, nth_error cs t = Some c -> exists th, nth_error ths t = Some th /\ steps (turns t s) c h = (t_rest th, h ++ t_own th).
Proof.
  intros C s. induction s as [|t0 s IH] using rev_ind.
  - exists (start cs). split; [reflexivity|]. split; [apply map_length|]. intros t c Hc. exists (Thread c nil). unfold start. rewrite nth_error_map, Hc. cbn.
    rewrite app_nil_r. auto.
  - destruct IH as [ths [E1 [E2 E3]]]. unfold run_threads in *. rewrite fold_left_app, E1. cbn [fold_left]. unfold turn. cbn [fst snd].
    destruct (nth_error ths t0) as [th0|] eqn:T0.
    + assert (L0 : t0 < List.length ths) by (apply nth_error_Some; congruence).
      destruct (nth_error cs t0) as [c0|] eqn:C0; [|apply nth_error_None in C0; lia].
      destruct (E3 _ _ C0) as [th0' [T0' S0]]. assert (th0' = th0) by congruence. subst th0'.
      destruct (step1 (t_rest th0) (h ++ t_own th0)) as [c' h'] eqn:P.
      assert (SF : exists own, h' = h ++ own).
      { pose proof S0 as Q. rewrite <- (app_nil_r h) in Q at 1.
        destruct (steps_safe _ _ _ _ _ _ _ _ (client_safe _ _ _ _ (C _ (nth_error_In _ _ C0))) Q) as [t' [_ SF]].
        destruct (step1_safe _ _ _ _ _ _ _ SF P) as [own [-> _]]. eauto. }
      destruct SF as [own ->]. rewrite firstn_here, skipn_here. eexists. split; [reflexivity|]. split; [rewrite upd_length; exact E2|].
      intros t c Hc. unfold turns. rewrite count_occ_app. cbn [count_occ]. destruct (Nat.eq_dec t0 t) as [->|Dt].
      * assert (c0 = c) by congruence. subst c0. exists (Thread c' own). split; [apply nth_upd_same; exact L0|]. rewrite Nat.add_1_r, steps_snoc.
        unfold turns in S0. rewrite S0. exact P.
      * rewrite Nat.add_0_r. rewrite nth_upd_other by congruence. apply E3. exact Hc.
    + exists ths. split; [reflexivity|]. split; [exact E2|]. intros t c Hc. destruct (E3 _ _ Hc) as [th [T1 S1]].
      exists th. split; [exact T1|]. unfold turns. rewrite count_occ_app. cbn [count_occ]. destruct (Nat.eq_dec t0 t) as [->|Dt]; [congruence|]. rewrite Nat.add_0_r. exact S1.
Qed.

(** Any number of threads, any schedule: a thread that has ended has the outcome and the objects of its
    uninterrupted run; it ends if it gets enough turns; the shared objects are unchanged. *)
Theorem threads_independent E (h : heap N) A (cs : list (cmd N A)) : (forall c, In c cs -> client E (List.length h) A c) ->
  (forall schedule, fst (run_threads schedule (h, start cs)) = h) /\
  forall t c, nth_error cs t = Some c ->
    (forall schedule, exists th, nth_error (snd (run_threads schedule (h, start cs))) t = Some th /\
       forall o, t_rest th = Stop o -> whole c h = (o, h ++ t_own th)) /\
    exists k, forall schedule, k <= turns t schedule -> exists th o, nth_error (snd (run_threads schedule (h, start cs))) t = Some th /\ t_rest th = Stop o.
Proof.
  intros C. split.
  { intros s. destruct (threads_invariant E h A cs C s) as [ths [-> _]]. reflexivity. }
  intros t c Hc. split.
  - intros s. destruct (threads_invariant E h A cs C s) as [ths [-> [_ I]]]. cbn [snd]. destruct (I _ _ Hc) as [th [T1 S1]]. exists th. split; [exact T1|].
    intros o Q. rewrite Q in S1. eapply stopped_whole. exact S1.
  - destruct (runs_end _ c h) as [k K]. exists k. intros s Ls. destruct (threads_invariant E h A cs C s) as [ths [-> [_ I]]]. cbn [snd].
    destruct (I _ _ Hc) as [th [T1 S1]]. exists th. replace (turns t s) with (k + (turns t s - k)) in S1 by lia. rewrite steps_add, K, steps_stop in S1.
    eexists. split; [exact T1|]. symmetry. exact (f_equal fst S1).
Qed.

(** In particular dtw(): *)
Theorem threads_dtw E (h : heap N) (cs : list (cmd N loc)) t a x y o : (forall c, In c cs -> client E (List.length h) loc c) ->
  nth_error cs t = Some (c_dtw (K := stepwise) E a) -> worth E h a x y o ->
  exists k, forall schedule, k <= turns t schedule -> exists th res, nth_error (snd (run_threads schedule (h, start cs))) t = Some th /\ t_rest th = Stop res /\
    agree (dtw (ha_cdist a) x y o) (res, h ++ t_own th) (fun d l h' => load_result h' l = Some d).
Proof.
  intros C Hc W. destruct (threads_independent E h loc cs C) as [_ I]. destruct (I _ _ Hc) as [I1 [k I2]]. exists k. intros s Ls.
  destruct (I2 s Ls) as [th [res [T1 T2]]]. destruct (I1 s) as [th' [T1' T3]]. assert (th' = th) by congruence. subst th'.
  exists th, res. split; [exact T1|]. split; [exact T2|]. specialize (T3 _ T2). rewrite whole_dtw in T3.
  pose proof (dtw_refines E h a x y o W) as A. rewrite T3 in A. unfold agree in *. destruct (dtw _ x y o); cbn [fst snd] in *; destruct res; auto. apply A.
Qed.
End ThreadProof.
