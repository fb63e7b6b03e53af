(** HeapGo.v - histories go on after every proper call, also after one that raises (proofs for C69). *)
From Verif Require Import Base Num StepPattern Window Core Backtrack Dtw CountPaths Warp Heap HeapSpec HeapFrame HeapRefine HeapDtw HeapMain HeapThm HeapGoSpec.
From Coq Require Import ZifyBool ZifyNat.
Open Scope string_scope.
Open Scope list_scope.
Open Scope nat_scope.

Section Go.
Context {N : Num}.

Lemma agree_left {A B} (o : out A) (r : out B * heap N) st : agree o r st -> returns_or_raises o -> left_by r = Some (snd r).
Proof.
  destruct r as [b h]. unfold agree, left_by. cbn [fst snd]. intros G [[v ->]|[e ->]]; destruct b; try contradiction; reflexivity.
Qed.
Lemma out_left {A} (o : out A) (h : heap N) : returns_or_raises o -> left_by (o, h) = Some h.
Proof. intros [[v ->]|[e ->]]; reflexivity. Qed.

Lemma proper_step E (h : heap N) e : proper_call E h e -> exists h', step E e h = Some h' /\ unchanged h h'.
Proof.
  intros P.
  assert (K : exists h', step E e h = Some h').
  { destruct e as [a|sp|l|l b|l|b|l b]; cbn [proper_call step] in *.
    - destruct P as [x [y [o [W O]]]]. eexists. apply (agree_left _ _ _ (proj1 (call_outcome E h a x y o W)) O).
    - destruct P as [v Q]. destruct (T_is_new h sp v Q) as [l [h' [m [R _]]]]. rewrite R. eexists. reflexivity.
    - destruct P as [d [Q O]]. rewrite (countPaths_reads _ _ _ Q). eexists. apply out_left. exact O.
    - destruct P as [d [Q O]]. eexists. apply (agree_left _ _ _ (warp_reads _ _ _ b Q) O).
    - destruct P as [d [Q O]]. rewrite (warpArea_reads _ _ _ Q). eexists. apply out_left. exact O.
    - eexists. reflexivity.
    - contradiction. }
  destruct K as [h' S]. exists h'. split; [exact S|].
  assert (C : is_call e) by (destruct e; try exact Logic.I; contradiction).
  rewrite <- (app_nil_r h) in S. apply (step_keeps E e h [] h' C S).
Qed.

Lemma proper_more E (h h' : heap N) e : unchanged h h' -> proper_call E h e -> proper_call E h' e.
Proof.
  intros U P. pose proof (unchanged_more _ _ U) as M. destruct e as [a|sp|l|l b|l|b|l b]; cbn [proper_call] in *; auto.
  - destruct P as [x [y [o [W O]]]]. exists x, y, o. split; [|exact O]. eapply worth_more; eauto.
  - destruct P as [v Q]. exists v. eapply load_pattern_more; eauto.
  - destruct P as [d [Q O]]. exists d. split; [|exact O]. eapply result_more; eauto.
  - destruct P as [d [Q O]]. exists d. split; [|exact O]. eapply result_more; eauto.
  - destruct P as [d [Q O]]. exists d. split; [|exact O]. eapply result_more; eauto.
Qed.

(** Any sequence of proper calls runs to its end. *)
Theorem history_goes_on E es (h : heap N) : (forall e, In e es -> proper_call E h e) -> exists h', run E es h = Some h' /\ unchanged h h'.
Proof.
  revert h. induction es as [|e es IH]; intros h P.
  - exists h. split; [reflexivity|]. exists []. symmetry. apply app_nil_r.
  - destruct (proper_step E h e (P e (or_introl eq_refl))) as [h1 [S U]].
    destruct (IH h1) as [h2 [R U2]].
    { intros e' I. apply (proper_more E h); [exact U|]. apply P. right. exact I. }
    exists h2. cbn [run]. rewrite S. split; [exact R|]. destruct U as [t ->]. destruct U2 as [t2 ->]. exists (t ++ t2). symmetry. apply app_assoc.
Qed.

(** In particular a call of dtw() that raises can be followed by any other call. *)
Theorem after_exception E es (h : heap N) a x y o e : worth E h a x y o -> dtw (ha_cdist a) x y o = Raise e ->
  (forall e', In e' es -> proper_call E h e') ->
  exists h1 h2, fst (h_dtw E a h) = Raise e /\ snd (h_dtw E a h) = h1 /\ unchanged h h1 /\ run E (EvDtw a :: es) h = run E es h1 /\ run E es h1 = Some h2.
Proof.
  intros W R P. destruct (call_outcome E h a x y o W) as [A U]. rewrite R in A.
  destruct (h_dtw E a h) as [r h1] eqn:H. unfold agree in A. cbn [fst snd] in *. destruct r; try contradiction. subst e.
  destruct (history_goes_on E es h1) as [h2 [R2 _]].
  { intros e' I. apply (proper_more E h); [exact U|]. apply P. exact I. }
  exists h1, h2. split; [reflexivity|]. split; [reflexivity|]. split; [exact U|]. split; [|exact R2].
  cbn [run step]. rewrite H. reflexivity.
Qed.
End Go.
