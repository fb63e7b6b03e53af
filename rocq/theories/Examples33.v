(** Examples33.v - concrete cases for C88 (sums of local costs). *)
From Coq Require Import QArith Qcanon ZifyBool ZifyNat.
From Verif Require Import Base Num NumQ NumQLaws StepPattern Window Core Backtrack Dtw Spec Api Tables Vocab Terms
  Derived Examples Examples7 SumSpec.
Import ListNotations.
Open Scope string_scope.
Open Scope list_scope.
Open Scope nat_scope.

(** Two channels, aligned best along opposite sides of the rectangle, and their sum. *)
Definition a33 : mat NumQ := ints 3 3 [0;0;0; 9;9;0; 9;9;0]%Z.
Definition b33 : mat NumQ := ints 3 3 [0;9;9; 0;9;9; 0;0;0]%Z.
Definition s33 : mat NumQ := ints 3 3 [0;9;9; 9;18;9; 9;9;0]%Z.
Lemma summed33 : summed a33 b33 s33.
Proof.
  unfold summed. do 4 (split; [reflexivity|]). intros i j Hi Hj. cbn in Hi, Hj. unfold number_or_missing.
  destruct i as [|[|[|i]]]; [| | |lia]; (destruct j as [|[|[|j]]]; [| | |lia]);
    (split; [left; reflexivity|split; [left; reflexivity|]]); apply (f_equal (fun q => XFin q)); apply Qc_is_canon; vm_compute; reflexivity.
Qed.
(** Each channel has distance 0, together they have 27. *)
Lemma channels33 :
  succeeds a33 (oQ "symmetric2") "symmetric2" NoWindow (dist_is 0) /\
  succeeds b33 (oQ "symmetric2") "symmetric2" NoWindow (dist_is 0) /\
  succeeds s33 (oQ "symmetric2") "symmetric2" NoWindow (dist_is 27).
Proof. split; [ex_ok NumQ_laws|]. split; ex_ok NumQ_laws. Qed.

(** The same alignment is best for both channels: the distances add up. *)
Lemma same33 :
  succeeds a33 (oQ "rigid") "rigid" NoWindow (dist_is 9) /\
  succeeds b33 (oQ "rigid") "rigid" NoWindow (dist_is 9) /\
  succeeds s33 (oQ "rigid") "rigid" NoWindow (dist_is 18).
Proof. split; [ex_ok NumQ_laws|]. split; ex_ok NumQ_laws. Qed.

(** Open end: the channels may end in different columns, and the distances (not normalized) need not compare: 5 + 0 > 4. *)
Definition oOpen (k : string) : opts NumQ := named k WTNone [] true false true false.
Lemma open33 :
  succeeds (ints 1 2 [4;1]%Z) (oOpen "symmetric2") "symmetric2" NoWindow (dist_is 5) /\
  succeeds (ints 1 2 [0;5]%Z) (oOpen "symmetric2") "symmetric2" NoWindow (dist_is 0) /\
  succeeds (ints 1 2 [4;6]%Z) (oOpen "symmetric2") "symmetric2" NoWindow (dist_is 4).
Proof. split; [ex_ok NumQ_laws|]. split; ex_ok NumQ_laws. Qed.

(** The first channel counted twice. *)
Definition m33 : mat NumQ := ints 3 3 [0;9;9; 18;27;9; 18;18;0]%Z.
Lemma mixed33 : mixed (Q2Qc 2) (Q2Qc 1) a33 b33 m33 /\ succeeds m33 (oQ "rigid") "rigid" NoWindow (dist_is 27) /\
  succeeds m33 (oQ "symmetric1") "symmetric1" NoWindow (dist_is 18).
Proof.
  split.
  - unfold mixed. do 4 (split; [reflexivity|]). intros i j Hi Hj. cbn in Hi, Hj. unfold number_or_missing.
    destruct i as [|[|[|i]]]; [| | |lia]; (destruct j as [|[|[|j]]]; [| | |lia]);
      (split; [left; reflexivity|split; [left; reflexivity|]]); apply (f_equal (fun q => XFin q)); apply Qc_is_canon; vm_compute; reflexivity.
  - split; ex_ok NumQ_laws.
Qed.
