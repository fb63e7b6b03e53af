(** Examples19.v - concrete cases for C71 and C72. *)
From Verif Require Import Base Num NumQ StepPattern Window Core Backtrack Dtw CountPaths Warp Examples Examples8 Examples11 Heap HeapSpec HeapFrame HeapRefine HeapDtw HeapMain HeapThm Threads ThreadSpec ThreadProof Examples18.
Open Scope string_scope.
Open Scope list_scope.
Open Scope nat_scope.

(** Three threads: a call, an open-begin call, and one that fails, catches the exception, creates a dictionary, calls
    again with it and then changes it. *)
Definition thread3 : cmd NumQ loc :=
  Then (Catch (c_dtw (K := stepwise) E18 (call18 (WTName "sakoechiba") "symmetric2" false)) (fun _ => Atom (new (BDict [("window_size", ofZ 2)]))))
    (fun l => Then (c_dtw (K := stepwise) E18 (HArgs (cdist_of sq) (Ref ix []) (Some (Ref (ix + 1) [])) (HName "symmetric2") (WTName "sakoechiba") (Some l) true false false false))
      (fun r => if List.length h18 <=? l then Then (Atom (put l (BDict []))) (fun _ => Stop (Ok r)) else Stop (Ok r))).
Definition threads19 : list (cmd NumQ loc) :=
  [c_dtw (K := stepwise) E18 (call18 WTNone "symmetric2" false); c_dtw (K := stepwise) E18 (call18 WTNone "asymmetric" true); thread3].
Lemma clients19 : forall c, In c threads19 -> client E18 (List.length h18) loc c.
Proof.
  intros c I. cbn [threads19 In] in I. destruct I as [<-|[<-|[<-|[]]]].
  - apply client_dtw.
  - apply client_dtw.
  - unfold thread3. apply client_then; [apply client_catch; [apply client_dtw|intros e; apply client_new]|].
    intros l. apply client_then; [apply client_dtw|]. intros r. destruct (List.length h18 <=? l) eqn:L; [|apply client_stop].
    apply client_then; [apply client_change; apply Nat.leb_le; exact L|]. intros _. apply client_stop.
Qed.
(** Turns: 0 1 2 0 1 2 ...; after 60 turns nobody has ended, after 600 all have, with results. *)
Definition round_robin (n : nat) : list nat := List.concat (repeat [0; 1; 2] n).
Definition ended (w : heap NumQ * list (thread NumQ loc)) : list (option bool) :=
  List.map (fun th => match stopped (t_rest th) with Some (Ok _) => Some true | Some _ => Some false | None => None end) (snd w).
Lemma interleaved19 : ended (run_threads (round_robin 20) (h18, start threads19)) = [None; None; None] /\
  ended (run_threads (round_robin 250) (h18, start threads19)) = [Some true; Some true; Some true].
Proof. split; vm_compute; reflexivity. Qed.
(** A run that is interrupted in the middle has created objects but not ended. *)
Lemma interrupted19 : client E18 (List.length h18) loc (c_dtw (K := stepwise) E18 (call18 WTNone "asymmetric" true)) /\
  (match stopped (fst (steps 60 (c_dtw (K := stepwise) E18 (call18 WTNone "asymmetric" true)) h18)) with None => true | Some _ => false end &&
   (List.length h18 + 5 <=? List.length (snd (steps 60 (c_dtw (K := stepwise) E18 (call18 WTNone "asymmetric" true)) h18)))) = true.
Proof. split; [apply client_dtw|]. vm_compute. reflexivity. Qed.
