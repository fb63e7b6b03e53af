(** Examples26.v - concrete cases for C83 (finding the query in the reference). *)
From Verif Require Import Base Num NumQ NumQLaws NumF NumFLaws StepPattern Window Core Backtrack Dtw Spec Api Tables Vocab Terms
  ApiProof ApiThms Examples SearchSpec.
Import ListNotations.
Open Scope string_scope.
Open Scope list_scope.
Open Scope nat_scope.

(** A query of two samples and a reference of five: the costs of the places 1, 2, 3 are 5, 3, 3. *)
Definition m26 : mat NumF := ints 2 5 [0;1;2;3;9; 9;0;4;1;0]%Z.
Definition search (k : string) (oe : bool) : opts NumF := named k WTNone [] true false oe true.
Lemma search26 :
  succeeds m26 (search "rigid" true) "rigid" NoWindow (fun d => dist_is 3 d && align_is [0;1]%Z [2;3]%Z [1;1]%Z d && (r_jmin d =? 3)) /\
  place m26 NoWindow [] 1 /\ place m26 NoWindow [] 2 /\ place m26 NoWindow [] 3 /\
  eqb (overlay m26 1) (ofZ 5) = true /\ eqb (overlay m26 2) (ofZ 3) = true /\ eqb (overlay m26 3) (ofZ 3) = true /\
  eqb (overlay m26 0) (ofZ 0) = true.
Proof.
  split; [ex_ok NumF_laws|].
  do 3 (split; [split; [lia|]; split; [cbn; lia|intros; exact I]|]).
  vm_compute. repeat split; reflexivity.
Qed.
Lemma closed26 : succeeds m26 (search "rigid" false) "rigid" NoWindow (dist_is 3) /\ nc m26 - nr m26 = 3.
Proof. split; [ex_ok NumF_laws|reflexivity]. Qed.
(** The query occurs at the very start: asymmetric finds it. *)
Lemma occurs26 : occurs m26 0 /\ succeeds m26 (search "asymmetric" true) "asymmetric" NoWindow
  (fun d => dist_is 0 d && align_is [0;1]%Z [0;1]%Z [1;2]%Z d && (r_jmin d =? 1)).
Proof.
  split; [|ex_ok NumF_laws]. split; [cbn; lia|]. intros [|[|i]] Hi; [vm_compute; reflexivity|vm_compute; reflexivity|cbn in Hi; lia].
Qed.
(** Here it occurs on the samples 2 and 3. *)
Definition n26 : mat NumF := ints 2 5 [9;1;0;3;9; 9;0;4;0;1]%Z.
Lemma found26 : occurs n26 2 /\ succeeds n26 (search "rigid" true) "rigid" NoWindow
  (fun d => dist_is 0 d && align_is [0;1]%Z [2;3]%Z [1;1]%Z d) /\
  checkOk (run n26 (mkOpts (SPObj (mvmStepPattern 2)) WTNone [] true false true true)) (fun d => dist_is 0 d && (r_jmin d =? 3)) = true.
Proof.
  split; [split; [cbn; lia|]; intros [|[|i]] Hi; [vm_compute; reflexivity|vm_compute; reflexivity|cbn in Hi; lia]|].
  split; [ex_ok NumF_laws|vm_compute; reflexivity].
Qed.
