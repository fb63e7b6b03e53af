(** Examples22.v - concrete cases for C77 (what lies off the alignment) and C78 (accumulated costs never decrease). *)
From Coq Require Import QArith Qcanon ZifyBool ZifyNat.
From Verif Require Import Base Num NumQ NumQLaws NumF NumFLaws StepPattern Window Core Backtrack Dtw Spec Api Tables Vocab Terms
  Derived Examples Examples7 SeriesSpec Examples8 Examples10 Thm8 NarrowSpec Narrow Grow.
Import ListNotations.
Open Scope string_scope.
Open Scope list_scope.
Open Scope nat_scope.

Definition lm22 : mat NumQ := ints 4 4 [0;1;9;9; 9;9;1;9; 9;9;9;1; 9;9;9;2]%Z.
(** The same costs on the alignment, larger ones (or other ones) elsewhere. *)
Definition lm22' : mat NumQ := ints 4 4 [0;1;12;9; 50;9;1;9; 9;11;9;1; 9;9;10;2]%Z.
Definition band22 (z : Z) : opts NumQ := named "symmetric1" (WTName "sakoechiba") (bandQ z) true false false false.

(** Without a window, with a band of one and with larger costs elsewhere: the same alignment of cost 5.  A band of zero cuts it off. *)
Lemma narrow22 :
  succeeds lm22 (oQ "symmetric1") "symmetric1" NoWindow (fun d => dist_is 5 d && align_is [0;0;1;2;3]%Z [0;1;2;3;3]%Z [2;1;1;3]%Z d) /\
  succeeds lm22 (band22 1) "symmetric1" SakoeChiba (fun d => dist_is 5 d && align_is [0;0;1;2;3]%Z [0;1;2;3;3]%Z [2;1;1;3]%Z d) /\
  succeeds lm22 (band22 0) "symmetric1" SakoeChiba (dist_is 20) /\
  succeeds lm22' (oQ "symmetric1") "symmetric1" NoWindow (fun d => dist_is 5 d && align_is [0;0;1;2;3]%Z [0;1;2;3;3]%Z [2;1;1;3]%Z d) /\
  raised lm22 lm22' /\ nonneg_costs lm22 /\
  same_on_alignment lm22 lm22' (Mapping [0;0;1;2;3]%Z [0;1;2;3;3]%Z [0;0;1;2;3]%Z [0;1;2;3;3]%Z [2;1;1;3]%Z) /\
  alignment_in_window false SakoeChiba (bandQ 1) 4 4 (Mapping [0;0;1;2;3]%Z [0;1;2;3;3]%Z [0;0;1;2;3]%Z [0;1;2;3;3]%Z [2;1;1;3]%Z).
Proof.
  split; [ex_ok NumQ_laws|]. split; [ex_ok NumQ_laws|]. split; [ex_ok NumQ_laws|]. split; [ex_ok NumQ_laws|].
  split.
  { split; [reflexivity|]. split; [reflexivity|]. intros i j Hi Hj. left. cbn in Hi, Hj.
    destruct i as [|[|[|[|i]]]]; [| | | |lia]; (destruct j as [|[|[|[|j]]]]; [| | | |lia]); vm_compute; reflexivity. }
  split.
  { intros i j Hi Hj. left. cbn in Hi, Hj.
    destruct i as [|[|[|[|i]]]]; [| | | |lia]; (destruct j as [|[|[|[|j]]]]; [| | | |lia]); vm_compute; reflexivity. }
  split.
  - intros t i j. do 5 (destruct t as [|t]; [cbn; intros E1 E2; injection E1 as <-; injection E2 as <-; reflexivity|]). destruct t; discriminate.
  - intros t i j. do 4 (destruct t as [|t]; [cbn; intros E1 E2; injection E1 as <-; injection E2 as <-; reflexivity|]). destruct t; discriminate.
Qed.

Definition lmF22 : mat NumF := ints 4 4 [0;1;9;9; 9;9;1;9; 9;9;9;1; 9;9;9;2]%Z.
(** Every entry of the third row is above 2, and so is the distance, 5; the costs along the alignment are 0, 1, 2, 3, 5. *)
Lemma grow22 :
  succeeds lmF22 (named "symmetric1" WTNone [] true false false false) "symmetric1" NoWindow (fun d => dist_is 5 d &&
    cells_are (r_costMatrix d) [Some 0; Some 1; Some 10; Some 19; Some 9; Some 9; Some 2; Some 11; Some 18; Some 18; Some 11; Some 3; Some 27; Some 27; Some 20; Some 5]%Z) /\
  In "symmetric1" one_row_names /\ ~ In "symmetric1" negative_names.
Proof.
  split; [ex_ok NumF_laws|]. split; [left; reflexivity|]. intros [H|[]]; discriminate H.
Qed.
