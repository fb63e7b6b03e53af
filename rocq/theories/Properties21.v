(** Properties21.v - C71, C72: threads and interruptions.

    Only theorem statements, each closed by a lemma proved elsewhere, and concrete cases
    that meet their hypotheses.  See Properties1.v for the arithmetic [N] and [NumLaws]. *)
From Verif Require Import Base Num StepPattern Window Core Backtrack Dtw Spec Api Tables Vocab Terms.
From Verif Require Import NumQ NumQLaws NumF NumFLaws.
From Verif Require Import CountPaths Warp Examples Examples8 Examples11 Heap HeapSpec HeapFrame HeapRefine HeapDtw HeapMain HeapThm Threads ThreadSpec ThreadProof Examples18 Examples19.
Open Scope string_scope.
Open Scope list_scope.
Open Scope nat_scope.

(** C71: any number of threads that use the package on shared objects, any schedule: the shared objects stay as they
    are, a thread that has ended has the outcome and the objects of its run without interruption, and it ends if
    it gets enough turns. *)
Theorem C71_threads_independent : forall (N : Num) E (h : heap N) A (cs : list (cmd N A)),
  (forall c, In c cs -> client E (List.length h) A c) ->
  (forall schedule, fst (run_threads schedule (h, start cs)) = h) /\
  forall t c, nth_error cs t = Some c ->
    (forall schedule, exists th, nth_error (snd (run_threads schedule (h, start cs))) t = Some th /\
       forall o, t_rest th = Stop o -> whole c h = (o, h ++ t_own th)) /\
    exists k, forall schedule, k <= turns t schedule -> exists th o, nth_error (snd (run_threads schedule (h, start cs))) t = Some th /\ t_rest th = Stop o.
Proof. exact (fun N  => @threads_independent N). Qed.
Print Assumptions C71_threads_independent.

(** C71: a thread that calls dtw() gets what dtw() of the values of its arguments gives, whatever the other threads do
    and however they are scheduled. *)
Theorem C71_threads_dtw : forall (N : Num) E (h : heap N) (cs : list (cmd N loc)) t a x y (o : opts N),
  (forall c, In c cs -> client E (List.length h) loc c) ->
  nth_error cs t = Some (c_dtw (K := stepwise) E a) -> worth E h a x y o ->
  exists k, forall schedule, k <= turns t schedule -> exists th res, nth_error (snd (run_threads schedule (h, start cs))) t = Some th /\ t_rest th = Stop res /\
    agree (dtw (ha_cdist a) x y o) (res, h ++ t_own th) (fun d l h' => load_result h' l = Some d).
Proof. exact (fun N  => @threads_dtw N). Qed.
Print Assumptions C71_threads_dtw.

(** C71: the stepwise program without interruption is the call of C69 and C70. *)
Theorem C71_uninterrupted : forall (N : Num) E a h,
  whole (c_dtw (N := N) (K := stepwise) E a) h = h_dtw E a h.
Proof. exact (fun N  => @whole_dtw N). Qed.
Print Assumptions C71_uninterrupted.

(** C71: every program ends after finitely many operations. *)
Theorem C71_runs_end : forall (N : Num) A (c : cmd N A),
  forall h, exists k, steps k c h = (Stop (fst (whole c h)), snd (whole c h)).
Proof. exact (fun N  => @runs_end N). Qed.
Print Assumptions C71_runs_end.

Example C71_case_clients : forall c, In c threads19 -> client E18 (List.length h18) loc c.
Proof. exact clients19. Qed.

Example C71_case_interleaved : ended (run_threads (round_robin 20) (h18, start threads19)) = [None; None; None] /\
  ended (run_threads (round_robin 250) (h18, start threads19)) = [Some true; Some true; Some true].
Proof. exact interleaved19. Qed.

(** C72: a program that is interrupted after any number of operations has changed nothing that existed when it started. *)
Theorem C72_interrupted : forall (N : Num) E (h : heap N) A (c : cmd N A) n,
  client E (List.length h) A c -> unchanged h (snd (steps n c h)).
Proof. exact (fun N  => @interrupted N). Qed.
Print Assumptions C72_interrupted.

(** C72: a later call is not affected by the interrupted one. *)
Theorem C72_call_after : forall (N : Num) E (h : heap N) A (c : cmd N A) n a x y (o : opts N),
  client E (List.length h) A c -> worth E h a x y o ->
  agree (dtw (ha_cdist a) x y o) (h_dtw E a (snd (steps n c h))) (fun d l h' => load_result h' l = Some d).
Proof. exact (fun N  => @call_after_interruption N). Qed.
Print Assumptions C72_call_after.

(** C72: earlier results are not affected either. *)
Theorem C72_results_after : forall (N : Num) E (h : heap N) A (c : cmd N A) n l d,
  client E (List.length h) A c -> load_result h l = Some d ->
  load_result (snd (steps n c h)) l = Some d.
Proof. exact (fun N  => @results_after_interruption N). Qed.
Print Assumptions C72_results_after.

Example C72_case_interrupted : client E18 (List.length h18) loc (c_dtw (K := stepwise) E18 (call18 WTNone "asymmetric" true)) /\
  (match stopped (fst (steps 60 (c_dtw (K := stepwise) E18 (call18 WTNone "asymmetric" true)) h18)) with None => true | Some _ => false end &&
   (List.length h18 + 5 <=? List.length (snd (steps 60 (c_dtw (K := stepwise) E18 (call18 WTNone "asymmetric" true)) h18)))) = true.
Proof. exact interrupted19. Qed.
