(** Examples25.v - concrete cases for C82 (factors between the distances of step patterns). *)
From Verif Require Import Base Num NumQ NumQLaws StepPattern Window Core Backtrack Dtw Spec Api Tables Vocab Terms PatSpec FactorSpec
  ApiProof ApiThms Examples Examples7.
Import ListNotations.
Open Scope string_scope.
Open Scope list_scope.
Open Scope nat_scope.

(** The factor 2 between symmetric1 and symmetric2 is attained. *)
Definition m25 : mat NumQ := ints 2 2 [0;1; 1;1]%Z.
Lemma attained25 : factor_listed "symmetric2" "symmetric1" 2 /\
  succeeds m25 (oQ "symmetric1") "symmetric1" NoWindow (dist_is 1) /\ succeeds m25 (oQ "symmetric2") "symmetric2" NoWindow (dist_is 2).
Proof. split; [eexists; split; reflexivity|]. split; ex_ok NumQ_laws. Qed.
(** ... and need not be. *)
Definition n25 : mat NumQ := ints 3 4 [1;5;2;4; 3;1;6;2; 4;2;1;1]%Z.
Lemma below25 :
  succeeds n25 (oQ "symmetric1") "symmetric1" NoWindow (dist_is 4) /\ succeeds n25 (oQ "symmetric2") "symmetric2" NoWindow (dist_is 6).
Proof. split; ex_ok NumQ_laws. Qed.
(** Open end, asymmetricP1 and typeIc (both normalized by the query). *)
Definition norm_is (a b : Z) (d : DTW NumQ) : bool := eqb (r_normalizedDistance d) (div (ofZ a) (ofZ b)).
Lemma open25 : factor_listed "typeIc" "asymmetricP1" 2 /\
  (exists s s', lookup "asymmetricP1" (@pattern_table NumQ) = Some s /\ lookup "typeIc" (@pattern_table NumQ) = Some s' /\ hint s = hint s') /\
  succeeds n25 (named "asymmetricP1" WTNone [] true false true false) "asymmetricP1" NoWindow (fun d => norm_is 3 3 d) /\
  succeeds n25 (named "typeIc" WTNone [] true false true false) "typeIc" NoWindow (fun d => norm_is 3 3 d).
Proof. split; [eexists; split; reflexivity|]. split; [eexists _, _; repeat split; reflexivity|]. split; ex_ok NumQ_laws. Qed.
