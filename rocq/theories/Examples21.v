(** Examples21.v - concrete cases for C75 (ties) and C76 (a series and itself). *)
From Coq Require Import QArith Qcanon ZifyBool ZifyNat.
From Verif Require Import Base Num NumQ NumQLaws NumF NumFLaws StepPattern Window Core Backtrack Dtw Spec Api Tables Vocab Terms
  Derived Examples Examples7 SeriesSpec Examples8 TieSpec Tie.
Import ListNotations.
Open Scope string_scope.
Open Scope list_scope.
Open Scope nat_scope.

Definition z21 (n m : nat) : mat NumQ := ints n m (repeat 0%Z (n * m)).
(** Two samples against three, all local costs zero: every alignment is optimal.  The returned one
    takes productions 2, 1; the alignment 1, 2 also costs 0; read from the end, 1 comes before 2. *)
Lemma tie21 :
  succeeds (z21 2 3) (oQ "symmetric1") "symmetric1" NoWindow (fun d => dist_is 0 d && align_is [0;0;1]%Z [0;1;2]%Z [2;1]%Z d && isfin (r_distance d)) /\
  (exists l vs ts, lookup "symmetric1" predefined = Some l /\
     @closed_walk NumQ (productions l) (z21 2 3) NoWindow [] [1; 2] vs ts (1, 2) (ofZ 0)) /\
  parts_with_lower [2; 1] [1; 2] /\ ~ parts_with_lower [1; 2] [2; 1].
Proof.
  split; [ex_ok NumQ_laws|]. split; [|split].
  - eexists _, _, _. split; [reflexivity|].
    pose proof (walk_start (@productions NumQ (match lookup "symmetric1" predefined with Some l => l | None => [] end)) (cell (z21 2 3)) 2 3
      (closed_source (z21 2 3)) (fun _ _ => True) 0 0 (ofZ 0) eq_refl ltac:(lia) ltac:(lia)) as W0.
    pose proof (walk_step _ _ _ _ _ _ _ _ _ _ _ _ 1 _ W0 eq_refl ltac:(cbn; lia) ltac:(cbn; lia) I) as W1.
    pose proof (walk_step _ _ _ _ _ _ _ _ _ _ _ _ 2 _ W1 eq_refl ltac:(cbn; lia) ltac:(cbn; lia) I) as W2.
    cbn [app] in W2.
    match type of W2 with walk _ _ _ _ _ _ _ _ _ _ ?c => assert (E : c = ofZ 0) by (vm_compute; apply f_equal; apply Qc_is_canon; reflexivity); rewrite E in W2 end.
    exact W2.
  - right. exists [2], 1, [1], 2, []. repeat split; lia.
  - intros [H|[u [a [u' [b [common [E1 [E2 Hab]]]]]]]]; [discriminate|].
    destruct common as [|c common _] using rev_ind.
    + apply (app_inj_tail [1] u 2 a) in E1. apply (app_inj_tail [2] u' 1 b) in E2. destruct E1 as [_ <-], E2 as [_ <-]. lia.
    + rewrite app_comm_cons, app_assoc in E1, E2. apply (app_inj_tail [1] _ 2 c) in E1. apply (app_inj_tail [2] _ 1 c) in E2.
      destruct E1 as [_ <-], E2 as [_ E2]. discriminate E2.
Qed.

(** A constant series and itself: symmetric2 returns the identity, asymmetric (whose first production is not the diagonal) does not. *)
Lemma self21 :
  succeeds (z21 3 3) (oQ "symmetric2") "symmetric2" NoWindow (align_is [0;1;2]%Z [0;1;2]%Z [1;1]%Z) /\
  succeeds (z21 3 3) (oQ "asymmetric") "asymmetric" NoWindow (align_is [0;1;2]%Z [0;2;2]%Z [3;1]%Z) /\
  nonneg_costs (z21 3 3) /\ (forall i, i < 3 -> eqb (cell (z21 3 3) i i) (ofZ 0) = true).
Proof.
  split; [ex_ok NumQ_laws|]. split; [ex_ok NumQ_laws|]. split.
  - intros i j Hi Hj. left. cbn in Hi, Hj. destruct i as [|[|[|i]]]; [| | |lia]; (destruct j as [|[|[|j]]]; [| | |lia]); vm_compute; reflexivity.
  - intros i Hi. destruct i as [|[|[|i]]]; [| | |lia]; vm_compute; reflexivity.
Qed.
