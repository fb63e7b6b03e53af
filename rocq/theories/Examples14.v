(** Examples14.v - concrete cases for C64. *)
From Coq Require Import QArith Qcanon.
From Verif Require Import Base Num NumQ NumQLaws StepPattern Window Core Backtrack Dtw Spec Api Tables Vocab Terms Examples Examples7 StableSpec.
Open Scope string_scope.
Open Scope list_scope.
Open Scope nat_scope.

(** Costs known up to one unit: the distance of 3 x 4 series changes by 1, within the bound of 6. *)
Definition pA : mat NumQ := ints 3 4 [2;5;2;4; 3;1;6;2; 4;2;1;1]%Z.
Definition pB : mat NumQ := ints 3 4 [1;4;1;5; 4;2;5;1; 5;3;2;0]%Z.
Definition one : Qc := Q2Qc 1.

Definition near_b (e : Qc) (v v' : NumQ) : bool :=
  match v, v' with
  | XFin a, XFin b => Qle_bool a (b + e)%Qc && Qle_bool b (a + e)%Qc
  | XNan, XNan | XPInf, XPInf => true
  | _, _ => false
  end.
Lemma near_b_ok e v v' : near_b e v v' = true -> near e v v'.
Proof.
  destruct v as [| | |a], v' as [| | |b]; try discriminate; try (intros; exact I). unfold near_b, near.
  intros H. apply andb_prop in H. destruct H as [H1 H2]. split; apply Qle_bool_iff; assumption.
Qed.
Lemma pAB : perturbed one pA pB.
Proof.
  split; [reflexivity|]. split; [reflexivity|]. intros i j Hi Hj. apply near_b_ok.
  assert (G : forallb (fun i => forallb (fun j => near_b one (cell pA i j) (cell pB i j)) (seq 0 4)) (seq 0 3) = true) by (vm_compute; reflexivity).
  cbn in Hi, Hj. rewrite forallb_forall in G. specialize (G i). rewrite forallb_forall in G. apply G; apply in_seq; lia.
Qed.
Lemma stable_case : perturbed one pA pB /\
  succeeds pA (oQ "symmetric2") "symmetric2" NoWindow (fun d => dist_is 7 d) /\
  succeeds pB (oQ "symmetric2") "symmetric2" NoWindow (fun d => dist_is 8 d).
Proof. split; [exact pAB|]. split; ex_ok NumQ_laws. Qed.
Lemma stable_case_open : perturbed one pA pB /\
  succeeds pA (named "asymmetric" WTNone [] true false true true) "asymmetric" NoWindow (fun d => dist_is 4 d) /\
  succeeds pB (named "asymmetric" WTNone [] true false true true) "asymmetric" NoWindow (fun d => dist_is 2 d).
Proof. split; [exact pAB|]. split; ex_ok NumQ_laws. Qed.
