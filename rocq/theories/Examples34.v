(** Examples34.v - a concrete case for the continuation of histories (C69). *)
From Verif Require Import Base Num NumQ StepPattern Window Core Backtrack Dtw CountPaths Warp Examples Examples8 Examples11 Heap HeapSpec HeapFrame HeapRefine HeapDtw HeapMain HeapThm Examples18 HeapGoSpec HeapGo.
Open Scope string_scope.
Open Scope list_scope.
Open Scope nat_scope.

Definition ends {A} (o : out A) : bool := match o with Ok _ | Raise _ => true | _ => false end.
Lemma ends_ok {A} (o : out A) : ends o = true -> returns_or_raises o.
Proof. destruct o; try discriminate; intros _; [left|right]; eexists; reflexivity. Qed.
Lemma proper34 wt s ob : ends (dtw (cdist_of sq) (xa [1; 2; 4]%Z) (Some (xa [1; 3; 3; 4]%Z)) (opts18 wt s ob)) = true ->
  proper_call E18 h18 (EvDtw (call18 wt s ob)).
Proof.
  intros H. exists (xa [1; 2; 4]%Z), (Some (xa [1; 3; 3; 4]%Z)), (opts18 wt s ob). split; [apply worth18|]. apply ends_ok. exact H.
Qed.
(** The calls of the case of C69, among them one that asks for open-begin with symmetric2 and one with an unknown pattern. *)
Lemma goes_on34 : (forall e, In e hist18 -> proper_call E18 h18 e) /\
  (exists e, dtw (cdist_of sq) (xa [1; 2; 4]%Z) (Some (xa [1; 3; 3; 4]%Z)) (opts18 WTNone "symmetric2" true) = Raise e) /\
  (exists e, dtw (cdist_of sq) (xa [1; 2; 4]%Z) (Some (xa [1; 3; 3; 4]%Z)) (opts18 WTNone "no such pattern" false) = Raise e).
Proof.
  assert (R : forall o : out (DTW NumQ), match o with Raise _ => true | _ => false end = true -> exists e, o = Raise e).
  { intros [v|e| | |]; try discriminate. intros _. eexists. reflexivity. }
  split; [|split].
  - intros e I. cbn in I. destruct I as [<-|[<-|[<-|[<-|[<-|[<-|[]]]]]]].
    + apply proper34. vm_compute. reflexivity.
    + apply proper34. vm_compute. reflexivity.
    + apply proper34. vm_compute. reflexivity.
    + assert (P : match load_pattern h18 4 with Some _ => true | None => false end = true) by (vm_compute; reflexivity).
      cbn [proper_call]. destruct (load_pattern h18 4) as [v|]; [|discriminate P]. exists v. reflexivity.
    + exact Logic.I.
    + apply proper34. vm_compute. reflexivity.
  - apply R. vm_compute. reflexivity.
  - apply R. vm_compute. reflexivity.
Qed.
