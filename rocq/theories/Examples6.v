(** Examples6.v - a call that meets the hypotheses of the accuracy theorems. *)
From Coq Require Import ZifyBool ZifyNat Reals Lra Lia.
From Flocq Require Import Core BinarySingleNaN.
From Verif Require Import Base Num StepPattern Window Core Backtrack Dtw Spec Api Tables Vocab Terms
  NumF NumFLaws Laws2 ApiThms Derived Thm8 Thm10 Examples Exact Accuracy Accuracy2 Accuracy3.
Open Scope string_scope.
Open Scope list_scope.
Open Scope nat_scope.
Local Arguments bpow : simpl never.

(** Costs in tenths, none of which (except 0) is exactly representable. *)
Definition mTenths : mat (double false) :=
  Mat 3 3 (map (fun z => div (@ofZ NumF z) (ofZ 10)) [1;3;7; 2;2;3; 0;7;3]%Z).

Definition fine_b (fused : bool) (x : double fused) : bool :=
  is_finite (x : f64) && Bleb (f_ofZ 0) (x : f64) &&
  (Beqb (x : f64) (f_ofZ 0) || Bleb (f_div (f_ofZ 1) (f_ofZ 1024)) (x : f64)).
Lemma fine_ok fused (x : double fused) : fine_b fused x = true ->
  is_finite (x : f64) = true /\ (0 <= value x)%R /\ (value x = 0 \/ / 2 ^ 1020 <= value x)%R.
Proof.
  unfold fine_b, value. intros H. apply andb_prop in H as [H H2]. apply andb_prop in H as [F H1].
  split; [exact F|]. apply Bleb_iff in H1 as [_ [_ H1]]. rewrite X_0, X_fin in H1 by exact F. split; [exact H1|].
  apply orb_prop in H2 as [H2|H2].
  - left. apply Beqb_iff in H2 as [_ [_ H2]]. rewrite X_0, X_fin in H2 by exact F. exact H2.
  - right. apply Bleb_iff in H2 as [_ [_ H2]]. rewrite (X_fin x) in H2 by exact F.
    eapply Rle_trans; [|exact H2]. destruct (frac_B2R 1 1024 ltac:(lia) ltac:(lia)) as [F1 E1].
    rewrite X_fin, E1 by exact F1. rewrite <- tiny_val.
    replace (IZR 1 / IZR 1024)%R with (bpow radix2 (-10)) by (change (bpow radix2 (-10)) with (/ 1024)%R; lra).
    rewrite round_generic.
    + apply bpow_le. lia.
    + apply valid_rnd_round_mode.
    + apply generic_format_bpow. vm_compute. discriminate.
Qed.
Lemma cells_fine fused (lm : mat (double fused)) : wf_mat lm -> forallb (fine_b fused) (dat lm) = true ->
  costs_fine lm /\ costs_not_tiny lm.
Proof.
  intros Wf H. rewrite forallb_forall in H.
  assert (G : forall i j, i < nr lm -> j < nc lm -> fine_b fused (cell lm i j) = true).
  { intros i j Hi Hj. apply H. unfold cell. destruct (mget lm i j) as [v|] eqn:E.
    - unfold mget in E. destruct (_ && _) in E; [|discriminate]. eapply nth_error_In. exact E.
    - exfalso. unfold mget in E. unfold wf_mat in Wf.
      replace ((i <? nr lm) && (j <? nc lm)) with true in E by lia.
      apply nth_error_None in E. nia. }
  split; intros i j Hi Hj; destruct (fine_ok _ _ (G i j Hi Hj)) as [A [B C]]; auto.
Qed.

Lemma tenths_fine : costs_fine mTenths /\ costs_not_tiny mTenths.
Proof. apply cells_fine; [reflexivity|vm_compute; reflexivity]. Qed.

(** symmetric1 on these costs: path (0,0),(1,1),(2,2); 0.1 + 0.2 + 0.3 accumulates to a number
    that is not the double nearest to 0.6. *)
Lemma tenths_run : succeeds (mTenths : mat NumF) (oKeep "symmetric1") "symmetric1" NoWindow
  (fun d => isfin (r_distance d) && align_is [0;1;2]%Z [0;1;2]%Z [1;1]%Z d &&
     negb (eqb (r_distance d) (div (ofZ 6) (ofZ 10)))).
Proof. ex_ok NumF_laws. Qed.
Lemma tenths_run_fractions : succeeds (mTenths : mat NumF) (oKeep "asymmetricP05") "asymmetricP05" NoWindow
  (fun d => isfin (r_distance d) && align_is [0;1;2]%Z [0;1;2]%Z [3;3]%Z d).
Proof. ex_ok NumF_laws. Qed.
