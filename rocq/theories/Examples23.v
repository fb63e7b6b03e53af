(** Examples23.v - concrete cases for C80 (how the number of alignments changes with the problem). *)
From Coq Require Import ZifyBool ZifyNat.
From Verif Require Import Base Num NumQ NumQLaws NumF NumFLaws StepPattern Window Core Backtrack Dtw CountPaths Spec Api CountSpec Tables Vocab Terms
  ApiProof ApiThms CountProof CountThm CountThm2 Examples Examples2 CountEx Count3 Thm6 Thm10.
Import ListNotations.
Open Scope string_scope.
Open Scope list_scope.
Open Scope nat_scope.

(** Other costs, the same count; a band of one, fewer. *)
Lemma costs23 :
  succeeds mA (named "symmetric2" WTNone [] true false false false) "symmetric2" NoWindow (count_is 25) /\
  succeeds mA' (named "symmetric2" WTNone [] true false false false) "symmetric2" NoWindow (count_is 25) /\
  succeeds mA (named "symmetric2" (WTName "sakoechiba") (band (ofZ 1)) true false false false) "symmetric2" SakoeChiba (count_is 15) /\
  succeeds mA (named "symmetric2" (WTName "sakoechiba") (band (ofZ 2)) true false false false) "symmetric2" SakoeChiba (count_is 24) /\
  counts_fit (@productions NumF (match lookup "symmetric2" predefined with Some l => l | None => [] end)) mA SakoeChiba (band (ofZ 2)).
Proof.
  split; [ex_ok NumF_laws|]. split; [ex_ok NumF_laws|]. split; [ex_ok NumF_laws|]. split; [ex_ok NumF_laws|].
  apply counts_fit_small.
  - vm_compute. reflexivity.
  - intros i j Hi Hj. eexists. reflexivity.
  - vm_compute. discriminate.
Qed.
(** mvmStepPattern(2) admits one alignment of 3 with 5 samples, mvmStepPattern(3) three. *)
Definition m35 : mat NumF := ints 3 5 [1;5;2;4;2; 3;1;6;2;1; 4;2;1;1;3]%Z.
Lemma mvm23 : checkOk (run m35 (oMvm 2)) (count_is 1) = true /\ checkOk (run m35 (oMvm 3)) (count_is 3) = true /\
  checkOk (run m35 (oMvm 1)) (fun _ => true) = false.
Proof. split; [vm_compute; reflexivity|]. split; vm_compute; reflexivity. Qed.
(** The transposed problem, the transposed step pattern. *)
Definition mAT : mat NumF := ints 4 3 [1;3;4; 5;1;2; 2;6;1; 4;2;1]%Z.
Definition oT23 (s : steppat NumF) : opts NumF := mkOpts (SPObj (T s)) WTNone [] true false false false.
Lemma transposed23 : exists sp, lookup "asymmetric" pattern_table = Some sp /\
  checkOk (run mA (named "asymmetric" WTNone [] true false false false)) (count_is 2) = true /\
  checkOk (run mAT (oT23 sp)) (count_is 2) = true.
Proof. eexists. split; [reflexivity|]. split; vm_compute; reflexivity. Qed.
