(** Mix.v - the distance is concave in the local costs (C88). *)
From Coq Require Import QArith Qcanon Lqa ZifyBool ZifyNat.
From Verif Require Import Base Num NumQ NumQLaws StepPattern Window Core Backtrack Dtw Spec Api Tables Vocab Terms
  CoreProof DPProof DtwProof ApiProof ApiThms Uniq Thm2 Thm5 Thm7 Thm9 Thm11 Derived Derived2 Stable SumSpec Sum Grow.
Import ListNotations.
Open Scope string_scope.
Open Scope list_scope.
Open Scope nat_scope.

Lemma xscale_inv p v : (Q2Qc 0 < p)%Qc -> xscale (/ p) (xscale p v) = v.
Proof.
  intros Hp. destruct v; try reflexivity. cbn. f_equal. rewrite Qcmult_assoc, Qcmult_inv_l; [apply Qcmult_1_l|].
  intros E. rewrite E in Hp. discriminate Hp.
Qed.
Lemma xscale_inv' p v : (Q2Qc 0 < p)%Qc -> xscale p (xscale (/ p) v) = v.
Proof.
  intros Hp. destruct v; try reflexivity. cbn. f_equal. rewrite Qcmult_assoc, Qcmult_inv_r; [apply Qcmult_1_l|].
  intros E. rewrite E in Hp. discriminate Hp.
Qed.
Lemma inv_pos p : (Q2Qc 0 < p)%Qc -> (Q2Qc 0 < / p)%Qc.
Proof.
  intros Hp. unfold Qclt in *. change (this (Q2Qc 0)) with 0%Q in *. unfold Qcinv, Q2Qc. cbn [this]. rewrite Qred_correct. apply Qinv_lt_0_compat. exact Hp.
Qed.
Lemma scaled_map p (g : mat NumQ) : (Q2Qc 0 < p)%Qc -> scaled p g = map_mat (xscale p) g.
Proof. intros Hp. unfold scaled, map_mat. f_equal. apply map_ext. intros v. symmetry. apply xscale_mul. exact Hp. Qed.
Lemma scaled_back p (g : mat NumQ) : (Q2Qc 0 < p)%Qc -> scaled (/ p) (scaled p g) = g.
Proof.
  intros Hp. rewrite (scaled_map p) by exact Hp. rewrite scaled_map by (apply inv_pos; exact Hp).
  destruct g as [n m l]. unfold map_mat. cbn [nr nc dat]. f_equal. rewrite map_map. rewrite <- (map_id l) at 2. apply map_ext. intros v. apply xscale_inv. exact Hp.
Qed.
Lemma mixed_summed p q a b lm : (Q2Qc 0 < p)%Qc -> (Q2Qc 0 < q)%Qc -> mixed p q a b lm -> summed (scaled p a) (scaled q b) lm.
Proof.
  intros Hp Hq [R1 [C1 [R2 [C2 H]]]]. rewrite !scaled_map by assumption. unfold summed. cbn [map_mat nr nc].
  do 4 (split; [assumption|]). intros i j Hi Hj. destruct (H i j Hi Hj) as [A [B E]].
  rewrite !(map_mat_cell _ (xscale_rescaling _ Hp)), !(map_mat_cell _ (xscale_rescaling _ Hq)).
  assert (G : forall r v, number_or_missing v -> number_or_missing (xscale r v)).
  { intros r v [F|F]; destruct v; try discriminate F; [left|right]; reflexivity. }
  split; [apply G; exact A|]. split; [apply G; exact B|]. rewrite !xscale_mul by assumption. exact E.
Qed.

(** The call on the costs times p, and back. *)
Lemma unscaled p cdist x y o (lm a : mat NumQ) sp rules w d cdist1 x1 y1 : (Q2Qc 0 < p)%Qc ->
  well_posed cdist x y o lm sp rules w -> lm = scaled p a -> dtw cdist x y o = Ok d ->
  costs_of cdist1 x1 y1 a -> (o_open_begin o = true \/ native_array x1 y1) ->
  exists d', dtw cdist1 x1 y1 o = Ok d' /\ mul (XFin p : NumQ) (r_distance d') = r_distance d /\
    mul (XFin p : NumQ) (r_normalizedDistance d') = r_normalizedDistance d.
Proof.
  intros Hp WP El H HC HN. pose proof (inv_pos _ Hp) as Hi.
  destruct (scaled_costs (/ p) _ _ _ _ _ _ _ _ cdist1 x1 y1 Hi WP) as [A _].
  { rewrite El, scaled_back by exact Hp. exact HC. }
  { exact HN. }
  destruct (A d H) as [d' [D [E1 [E2 _]]]]. exists d'. split; [exact D|]. rewrite E1, E2.
  rewrite <- !xscale_mul by assumption. split; apply xscale_inv'; exact Hp.
Qed.

Theorem mixed_costs p q cdist x y cdist1 x1 y1 cdist2 x2 y2 o (lm a b : mat NumQ) d rules :
  (Q2Qc 0 < p)%Qc -> (Q2Qc 0 < q)%Qc ->
  costs_of cdist x y lm -> dtw cdist x y o = Ok d -> pattern_rules (r_stepPattern d) rules -> 0 < nr lm -> finite_weights rules ->
  costs_of cdist1 x1 y1 a -> (o_open_begin o = true \/ native_array x1 y1) ->
  costs_of cdist2 x2 y2 b -> (o_open_begin o = true \/ native_array x2 y2) -> mixed p q a b lm ->
  exists d1 d2, dtw cdist1 x1 y1 o = Ok d1 /\ dtw cdist2 x2 y2 o = Ok d2 /\
    (o_open_end o = false ->
     leb (add (mul (XFin p : NumQ) (r_distance d1)) (mul (XFin q : NumQ) (r_distance d2))) (r_distance d) = true) /\
    (hint (r_stepPattern d) <> "NA" ->
     leb (add (mul (XFin p : NumQ) (r_normalizedDistance d1)) (mul (XFin q : NumQ) (r_normalizedDistance d2))) (r_normalizedDistance d) = true).
Proof.
  intros Hp Hq HC H HR Hn Hw HA NA HB NB HM. pose proof (mixed_summed _ _ _ _ _ Hp Hq HM) as HS.
  pose proof (ok_well_posed NumQ_laws _ _ _ _ _ _ _ HC H HR Hn) as WP.
  assert (K : forall r g, wf_mat g -> (Q2Qc 0 < r)%Qc -> costs_of cdist (NdArray (Nd2 (scaled r g)) true true) None (scaled r g)).
  { intros r g Wg Hr. apply costs_one; [reflexivity|]. rewrite scaled_map by exact Hr. apply Thm7.map_mat_wf. exact Wg. }
  pose proof (K p a (costs_of_wf _ _ _ _ HA) Hp) as KA. pose proof (K q b (costs_of_wf _ _ _ _ HB) Hq) as KB.
  assert (NN : forall r (g : mat NumQ), o_open_begin o = true \/ native_array (NdArray (Nd2 (scaled r g)) true true) None) by (intros; right; split; reflexivity).
  destruct (sum_of_costs _ _ _ _ _ _ _ _ _ _ _ _ _ _ _ HC H HR Hn Hw KA (NN p a) KB (NN q b) HS) as [e1 [e2 [E1 [E2 [L1 L2]]]]].
  destruct HS as [S1 [S2 [S3 [S4 _]]]].
  pose proof (wp_other_costs _ _ _ _ _ _ _ _ _ _ _ _ WP KA (NN p a) S1 S2) as WA.
  pose proof (wp_other_costs _ _ _ _ _ _ _ _ _ _ _ _ WP KB (NN q b) S3 S4) as WB.
  destruct (unscaled p _ _ _ _ _ a _ _ _ _ _ _ _ Hp WA eq_refl E1 HA NA) as [d1 [D1 [F1 G1]]].
  destruct (unscaled q _ _ _ _ _ b _ _ _ _ _ _ _ Hq WB eq_refl E2 HB NB) as [d2 [D2 [F2 G2]]].
  exists d1, d2. rewrite F1, F2, G1, G2. auto.
Qed.
