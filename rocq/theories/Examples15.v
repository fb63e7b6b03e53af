(** Examples15.v - concrete cases for C65 and C66. *)
From Coq Require Import QArith Qcanon.
From Verif Require Import Base Num NumQ NumQLaws NumF NumFLaws StepPattern Window Core Backtrack Dtw Spec Api Tables Vocab Terms Examples Examples7 HoldSpec JoinSpec.
Open Scope string_scope.
Open Scope list_scope.
Open Scope nat_scope.

(** The query held on its first sample, the reference on its second. *)
Definition hf (t : nat) : nat := nth t [0; 0; 1] 0.
Definition hh (t : nat) : nat := nth t [0; 1; 1; 2] 0.
Definition h_lm : mat NumF := ints 2 3 [1;5;2; 3;1;6]%Z.
Definition h_lm' : mat NumF := ints 3 4 [1;5;5;2; 1;5;5;2; 3;1;1;6]%Z.
Lemma held_case : held hf hh h_lm h_lm' /\
  succeeds h_lm' (oKeep "symmetric2") "symmetric2" NoWindow (fun d => dist_is 11 d) /\
  succeeds h_lm (oKeep "symmetric2") "symmetric2" NoWindow (fun d => dist_is 9 d).
Proof.
  split; [|split; ex_ok NumF_laws].
  split; [|split].
  - split; [reflexivity|]. split; [reflexivity|]. intros t Ht. cbn in Ht. destruct t as [|[|t]]; [left|right|lia]; reflexivity.
  - split; [reflexivity|]. split; [reflexivity|]. intros t Ht. cbn in Ht. destruct t as [|[|[|t]]]; [right|left|right|lia]; reflexivity.
  - intros i j Hi Hj. cbn in Hi, Hj. destruct i as [|[|[|i]]]; [| | |lia]; (destruct j as [|[|[|[|j]]]]; [| | | |lia]); reflexivity.
Qed.

(** Two 2 x 2 parts joined: the bound 0 + 5 + (2 - 1) * 3 is attained. *)
Definition j_1 : mat NumQ := ints 2 2 [0;2; 1;0]%Z.
Definition j_2 : mat NumQ := ints 2 2 [3;1; 2;1]%Z.
Definition j_12 : mat NumQ := ints 4 4 [0;2;9;9; 1;0;9;9; 9;9;3;1; 9;9;2;1]%Z.
Lemma joined_case : joined j_1 j_2 j_12 /\
  succeeds j_1 (oQ "symmetric2") "symmetric2" NoWindow (fun d => dist_is 0 d) /\
  succeeds j_2 (oQ "symmetric2") "symmetric2" NoWindow (fun d => dist_is 5 d) /\
  succeeds j_12 (oQ "symmetric2") "symmetric2" NoWindow (fun d => dist_is 8 d).
Proof.
  split; [|split; [|split]; ex_ok NumQ_laws].
  split; [reflexivity|]. split; [reflexivity|]. split; intros i j Hi Hj; cbn in Hi, Hj; (destruct i as [|[|i]]; [| |lia]); (destruct j as [|[|j]]; [| |lia]); reflexivity.
Qed.
