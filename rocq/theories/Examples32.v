(** Examples32.v - concrete cases for C87 (order and number of the productions). *)
From Coq Require Import Permutation.
From Verif Require Import Base Num NumF NumFLaws StepPattern Window Core Backtrack Dtw Spec Api Tables Vocab Terms ApiProof ApiThms Derived PatSpec SameRules Examples.
Import ListNotations.
Open Scope string_scope.
Open Scope list_scope.
Open Scope nat_scope.

(** A predefined pattern with its productions in the opposite order. *)
Definition listed_rules (k : string) : list (rule NumF) := match lookup k predefined with Some l => productions l | None => [] end.
Definition backwards (k h : string) : steppat NumF := StepPat (table (rev (listed_rules k))) h.
Definition oBack (k h : string) : opts NumF := with_pattern (oKeep k) (SPObj (backwards k h)).
Definition z32 : mat NumF := ints 3 3 [0;0;0;0;0;0;0;0;0]%Z.
Definition neg32 : mat NumF := ints 3 3 [1;-2;4; 2;3;-3; 4;3;1]%Z.

Lemma backwards_ok : exists sp, lookup "symmetricP1" (@pattern_table NumF) = Some sp /\ pattern_rules sp (listed_rules "symmetricP1") /\
  pattern_rules (backwards "symmetricP1" (hint sp)) (rev (listed_rules "symmetricP1")) /\
  (forall r, In r (listed_rules "symmetricP1") <-> In r (rev (listed_rules "symmetricP1"))).
Proof.
  exists symmetricP1. split; [reflexivity|].
  assert (H : pattern_rules (@symmetricP1 NumF) (listed_rules "symmetricP1")).
  { destruct (predefined_rules NumF_laws "symmetricP1" (@symmetricP1 NumF) eq_refl) as [l [E R]]. unfold listed_rules. rewrite E. exact R. }
  split; [exact H|]. apply (any_order _ _ _ _ H). apply Permutation_rev.
Qed.
(** The numbers in stepsTaken change; the distance does not. *)
Lemma backwards_runs : checkOk (run mB (oKeep "symmetricP1")) (fun d => dist_is 6 d && align_is [0;1;2;2]%Z [0;1;2;3]%Z [2;1]%Z d) = true /\
  checkOk (run mB (oBack "symmetricP1" "N+M")) (fun d => dist_is 6 d && align_is [0;1;2;2]%Z [0;1;2;3]%Z [2;3]%Z d) = true.
Proof.
  split; vm_compute; reflexivity.
Qed.
(** Among alignments of the same cost the order of the productions decides: only the distance is determined. *)
Lemma backwards_ties : checkOk (run z32 (oKeep "symmetric1")) (fun d => dist_is 0 d && align_is [0;1;2]%Z [0;1;2]%Z [1;1]%Z d) = true /\
  checkOk (run z32 (oBack "symmetric1" "NA")) (fun d => dist_is 0 d && align_is [0;0;0;1;2]%Z [0;1;2;2;2]%Z [2;2;1;1]%Z d) = true.
Proof.
  split; vm_compute; reflexivity.
Qed.
(** More productions, on a cost matrix with negative costs. *)
Lemma more32 : succeeds neg32 (oKeep "rigid") "rigid" NoWindow (dist_is 5) /\ succeeds neg32 (oKeep "symmetric1") "symmetric1" NoWindow (dist_is (-3)) /\
  incl (listed_rules "rigid") (listed_rules "symmetric1").
Proof.
  split; [ex_ok NumF_laws|]. split; [ex_ok NumF_laws|].
  intros r [<-|[]]. left. reflexivity.
Qed.
