(** Examples27.v - concrete cases for C84 (the number of points of an alignment). *)
From Verif Require Import Base Num NumQ NumQLaws NumF NumFLaws StepPattern Window Core Backtrack Dtw Spec Api Tables Vocab Terms
  ApiProof ApiThms Examples PointsSpec.
Import ListNotations.
Open Scope string_scope.
Open Scope list_scope.
Open Scope nat_scope.

(** A staircase of 2 + 3 points: the largest number (N + jmin with N = 3, jmin = 2). *)
Definition stairs27 : mat NumF := ints 3 3 [0;9;9; 0;1;9; 9;2;3]%Z.
Lemma longest27 : succeeds stairs27 (named "symmetric2" WTNone [] true false false false) "symmetric2" NoWindow
  (fun d => align_is [0;1;1;2;2]%Z [0;0;1;1;2]%Z [3;2;3;2]%Z d && (r_jmin d =? 2)) .
Proof. ex_ok NumF_laws. Qed.
(** The diagonal: the smallest number with symmetric2; and an open-begin call with asymmetricP05. *)
Definition diag27 : mat NumF := ints 3 4 [0;9;9;9; 9;0;9;9; 9;9;0;1]%Z.
Lemma shortest27 :
  succeeds diag27 (named "symmetric2" WTNone [] true false true false) "symmetric2" NoWindow
    (fun d => align_is [0;1;2]%Z [0;1;2]%Z [1;1]%Z d && (r_jmin d =? 2)) /\
  succeeds diag27 (named "asymmetricP05" WTNone [] true false true true) "asymmetricP05" NoWindow
    (fun d => align_is [0;1;2]%Z [1;1;2]%Z [4;3]%Z d) /\
  In "asymmetricP05" (gapless_names true) /\ In "asymmetricP05" (gapless_names false).
Proof. split; [ex_ok NumF_laws|]. split; [ex_ok NumF_laws|]. split; vm_compute; tauto. Qed.
(** typeIIa jumps over the reference sample 1. *)
Definition jump27 : mat NumF := ints 2 3 [0;9;9; 9;9;0]%Z.
Lemma skips27 : succeeds jump27 (named "typeIIa" WTNone [] true false false false) "typeIIa" NoWindow
    (align_is [0;1]%Z [0;2]%Z [2]%Z) /\ ~ In "typeIIa" (gapless_names false).
Proof. split; [ex_ok NumF_laws|]. vm_compute. intuition discriminate. Qed.
Lemma mvm27 : checkOk (run diag27 (mkOpts (SPObj (mvmStepPattern 2)) WTNone [] true false true true))
   (fun d => negb (dist_is 9 d) && match r_map d with Some mp => List.length (index1 mp) =? 3 | None => false end) = true.
Proof. vm_compute. reflexivity. Qed.
