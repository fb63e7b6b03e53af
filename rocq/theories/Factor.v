(** Factor.v - one step pattern's distance as a multiple of another's (C82, exact arithmetic). *)
From Coq Require Import QArith Qcanon Lqa ZifyBool ZifyNat.
From Verif Require Import Base Num NumQ NumQLaws StepPattern Window Core Backtrack Dtw Spec Api ApiProof ApiThms Vocab Thm2 Thm5 SeriesSpec ZeroSum Thm7 Thm9 Thm10 Thm11 Thm31 Thm23 Thm24 Derived Derived2 Tables Terms PatSpec Looser FactorSpec.
Import ListNotations.
Open Scope string_scope.
Open Scope list_scope.
Open Scope nat_scope.

Lemma rule_no_times (k : NumQ) rules i r : rule_no rules i = Some r ->
  rule_no (times k rules) i = Some (Rule (r_di r) (r_dj r) (map (fun a => (fst a, mul k (snd a))) (r_add r))).
Proof.
  destruct i; [discriminate|]. cbn [rule_no]. unfold times. rewrite nth_error_map. intros ->. reflexivity.
Qed.
Lemma inner_times (k : NumQ) (r : rule NumQ) i j :
  inner_points (Rule (r_di r) (r_dj r) (map (fun a => (fst a, mul k (snd a))) (r_add r))) i j = inner_points r i j.
Proof.
  unfold inner_points. cbn [r_add]. induction (r_add r) as [|a l IH]; [reflexivity|].
  cbn [map filter fst snd]. destruct (negb _); cbn [map fst snd]; rewrite IH; reflexivity.
Qed.

Section K.
Variable k : Qc.
Hypothesis Hk : (Q2Qc 1 <= k)%Qc.
Lemma k_pos : (Q2Qc 0 < k)%Qc.
Proof. pose proof Hk as H. clear -H. qc2q. lra. Qed.
Lemma mul_across (w x : xq) : xq_mul w (xscale k x) = xq_mul (xq_mul (XFin k) w) x.
Proof.
  pose proof k_pos as Hc. unfold xscale. destruct x as [| | |x], w as [| | |w]; cbn; try reflexivity;
    try (sgn; try reflexivity; exfalso; subst; qc2q; nra).
  f_equal. ring.
Qed.
Lemma xscale_above (c : NumQ) : leb (ofZ 0) c = true -> leb c (xscale k c) = true.
Proof.
  destruct c as [| | |q]; try discriminate; [reflexivity|]. intros H. apply xq_leb_fin in H. apply xq_leb_fin.
  clear -H Hk. qc2q. change (inject_Z 0) with 0%Q in H. nra.
Qed.

Lemma charge_times rules (cost cost' : nat -> nat -> NumQ) n m (r : rule NumQ) i j (c c' : NumQ) : 
  (forall a b, a < n -> b < m -> cost' a b = xscale k (cost a b)) -> i < n -> j < m -> In r rules ->
  leb c c' = true -> good (charge cost' r i j c') ->
  leb (charge cost (Rule (r_di r) (r_dj r) (map (fun a => (fst a, mul (XFin k : NumQ) (snd a))) (r_add r))) i j c) (charge cost' r i j c') = true.
Proof.
  intros E Hi Hj _. unfold charge. cbn [r_add]. revert c c'. induction (r_add r) as [|a l IH]; intros c c' Hc G; [exact Hc|].
  cbn [map fold_left fst snd] in *. apply IH; [|exact G].
  change (good (pay cost' i j l (macc c' (snd a) (cost' (i - fst (fst a)) (j - snd (fst a)))))) in G.
  apply (pay_good NumQ_laws) in G.
  assert (X : macc c (mul (XFin k : NumQ) (snd a)) (cost (i - fst (fst a)) (j - snd (fst a))) = macc c (snd a) (cost' (i - fst (fst a)) (j - snd (fst a)))).
  { rewrite E by lia. cbn [NumQ macc mul V]. f_equal. symmetry. apply mul_across. }
  rewrite X. apply (law_macc_mono _ NumQ_laws); assumption.
Qed.

Lemma walk_times rules (cost cost' : nat -> nat -> NumQ) n m (src src' : nat -> nat -> option NumQ) al :
  (forall a b, a < n -> b < m -> cost' a b = xscale k (cost a b)) ->
  (forall i j c', i < n -> j < m -> src' i j = Some c' -> isnan c' = false -> exists c, src i j = Some c /\ isnan c = false /\ leb c c' = true) ->
  forall ks vs ts p c', walk rules cost' n m src' al ks vs ts p c' -> usable ks c' ->
  exists c, walk (times (XFin k : NumQ) rules) cost n m src al ks vs ts p c /\ usable ks c /\ leb c c' = true.
Proof.
  intros E Hs ks vs ts p c' W. induction W as [i j c Hsrc Hi Hj|ks vs ts i0 j0 c a r W IH Ha Hi Hj Hal]; intros [U1 U2].
  - destruct (Hs i j c Hi Hj Hsrc U1) as [c0 [S0 [N0 L0]]]. exists c0. split; [apply walk_start; assumption|].
    split; [split; [exact N0|intros C; contradiction]|exact L0].
  - assert (G : good (charge cost' r (i0 + r_di r) (j0 + r_dj r) c)) by (apply U2; destruct ks; discriminate).
    assert (Gc : good c) by (eapply (pay_good NumQ_laws cost' _ _ (r_add r)); exact G).
    destruct IH as [c1 [W1 [V1 L1]]].
    { split; [apply (law_good_not_nan _ NumQ_laws); exact Gc|intros _; exact Gc]. }
    pose proof (charge_times rules cost cost' n m r (i0 + r_di r) (j0 + r_dj r) c1 c E Hi Hj (rule_no_in _ _ _ Ha) L1 G) as L2.
    eexists. split; [|split; [|exact L2]].
    + rewrite <- (inner_times (XFin k) r). exact (walk_step _ _ _ _ _ _ _ _ _ _ _ _ _ _ W1 (rule_no_times (XFin k) _ _ _ Ha) Hi Hj Hal).
    + assert (G2 : good (charge cost (Rule (r_di r) (r_dj r) (map (fun a => (fst a, mul (XFin k : NumQ) (snd a))) (r_add r))) (i0 + r_di r) (j0 + r_dj r) c1))
        by (unfold good in *; eapply (law_le_lt_trans _ NumQ_laws); [exact L2|exact G]).
      split; [apply (law_good_not_nan _ NumQ_laws); exact G2|intros _; exact G2].
Qed.

Lemma times_dominates ob rules rules' (lm : mat NumQ) w kw : wf_mat lm -> nonneg_costs lm ->
  cheaper_steps rules' (times (XFin k : NumQ) rules) \/
    (w = NoWindow /\ finer_steps rules' (times (XFin k : NumQ) rules) /\ (ob = true -> forall r, In r rules' -> 1 <= r_di r)) ->
  dominates ob rules rules' (map_mat (xscale k) lm) lm w w kw kw.
Proof.
  intros Hwf Hnn H. split; [reflexivity|]. split; [reflexivity|]. intros j ks vs ts c W U.
  pose proof (xscale_rescaling k k_pos) as R.
  pose proof (finer_dominates NumQ_laws swaps_Q ob _ _ lm w kw Hwf Hnn H) as [_ [_ D]].
  assert (X : exists c1, admissible ob (times (XFin k : NumQ) rules) lm w kw ks vs ts (end_cell ob lm j) c1 /\ usable ks c1 /\ leb c1 c = true).
  { unfold admissible, open_walk, closed_walk, end_cell in *. destruct ob; cbn [map_mat nr nc] in W.
    - eapply walk_times; [| |exact W|exact U].
      + intros a b Ha Hb. rewrite (padded_cell lm a b Hwf Ha Hb), (padded_cell (map_mat (xscale k) lm) a b (Thm7.map_mat_wf (xscale k) lm Hwf) Ha Hb), (map_mat_cell (xscale k) R).
        destruct (a =? 0); [symmetry; apply (rs_zero _ R)|reflexivity].
      + intros i i' c' _ _ S Hn'. exists c'. split; [exact S|]. split; [exact Hn'|apply (law_le_refl _ NumQ_laws); exact Hn'].
    - eapply walk_times; [| |exact W|exact U].
      + intros a b Ha Hb. apply map_mat_cell. exact R.
      + unfold closed_source. intros a b c' Ha Hb S Hn'. destruct ((a =? 0) && (b =? 0)) eqn:E; [|discriminate].
        injection S as <-. rewrite (map_mat_cell (xscale k) R) in *. rewrite (rs_nan _ R) in Hn'.
        exists (cell lm 0 0). split; [reflexivity|]. split; [exact Hn'|]. apply xscale_above.
        destruct (Hnn 0 0) as [Z|Z]; [lia|lia|exact Z|rewrite Z in Hn'; discriminate]. }
  destruct X as [c1 [W1 [U1 L1]]]. destruct (D j ks vs ts c1 W1 U1) as [ks' [vs' [ts' [c' [A [B C]]]]]].
  exists ks', vs', ts', c'. split; [exact A|]. split; [exact B|]. eapply (law_le_trans _ NumQ_laws); eassumption.
Qed.
End K.

(** The call on the costs times k, passed as a matrix. *)
Lemma scaled_call k cdist x y o (lm : mat NumQ) sp rules w d : (Q2Qc 1 <= k)%Qc -> well_posed cdist x y o lm sp rules w ->
  dtw cdist x y o = Ok d ->
  exists xk dk, costs_of cdist xk None (map_mat (xscale k) lm) /\ dtw cdist xk None o = Ok dk /\
    r_distance dk = mul (XFin k : NumQ) (r_distance d) /\ r_normalizedDistance dk = mul (XFin k : NumQ) (r_normalizedDistance d).
Proof.
  intros Hk WP H. pose proof (k_pos k Hk) as Hp.
  exists (NdArray (Nd2 (map_mat (xscale k) lm)) true true).
  assert (HC : costs_of cdist (NdArray (Nd2 (map_mat (xscale k) lm)) true true) None (map_mat (xscale k) lm)).
  { apply costs_one; [reflexivity|]. apply Thm7.map_mat_wf. eapply costs_of_wf. apply (wp_costs _ _ _ _ _ _ _ _ WP). }
  destruct (rescaled NumQ_laws (xscale k) (xscale_rescaling k Hp) _ _ _ _ _ _ _ _ _ _ _ WP HC) as [A _].
  { right. split; reflexivity. }
  destruct (A d H) as [dk [A1 [A2 [A3 _]]]]. exists dk. rewrite <- !xscale_mul by exact Hp. auto.
Qed.

Lemma finite_one (k : NumQ) : isfin k = true -> leb (ofZ 1) k = true -> exists q, k = XFin q /\ (Q2Qc 1 <= q)%Qc.
Proof.
  destruct k as [| | |q]; try discriminate. intros _ H. exists q. split; [reflexivity|]. apply xq_leb_fin in H. exact H.
Qed.

Section T.
Variable k : NumQ.
Hypothesis Kf : isfin k = true.
Hypothesis K1 : leb (ofZ 1) k = true.

Theorem factor_closed_end cdist x y (o : opts NumQ) lm d rules s' sp' rules' :
  costs_of cdist x y lm -> 0 < nr lm -> nonneg_costs lm ->
  dtw cdist x y o = Ok d -> pattern_rules (r_stepPattern d) rules -> o_open_end o = false ->
  pattern_of s' sp' -> pattern_rules sp' rules' -> (o_open_begin o = true -> hint sp' = "N") ->
  cheaper_steps rules' (times k rules) \/
    (window_of (o_window_type o) NoWindow /\ finer_steps rules' (times k rules) /\ (o_open_begin o = true -> forall r, In r rules' -> 1 <= r_di r)) ->
  exists d', dtw cdist x y (with_pattern o s') = Ok d' /\ r_stepPattern d' = sp' /\ leb (r_distance d') (mul k (r_distance d)) = true.
Proof.
  intros HC Hn Hnn H Hp He Hs Hr Hb Hl. destruct (finite_one k Kf K1) as [q [-> Hq]].
  pose proof (ok_well_posed NumQ_laws _ _ _ _ _ _ _ HC H Hp Hn) as WP.
  pose proof (with_pattern_wp _ _ _ _ _ _ _ _ _ _ _ WP Hs Hr Hb ltac:(intros E; congruence)) as WP'.
  destruct (scaled_call q _ _ _ _ _ _ _ _ _ Hq WP H) as [xk [dk [Ck [Dk [Ek _]]]]]. rewrite <- Ek.
  pose proof (ok_pattern _ _ _ _ _ _ Ck Dk) as Pk. pose proof (ok_pattern _ _ _ _ _ _ HC H) as P0.
  assert (Es : r_stepPattern dk = r_stepPattern d) by (inversion Pk; inversion P0; congruence).
  assert (Hpk : pattern_rules (r_stepPattern dk) rules) by (rewrite Es; exact Hp).
  pose proof (ok_well_posed NumQ_laws _ _ _ _ _ _ _ Ck Dk Hpk Hn) as WPk.
  pose proof (window_of_canon _ _ (wp_window _ _ _ _ _ _ _ _ WP)) as E1.
  pose proof (window_of_canon _ _ (wp_window _ _ _ _ _ _ _ _ WPk)) as E2.
  assert (Ew : r_windowFunction dk = r_windowFunction d) by (rewrite E1 in E2; symmetry; exact E2).
  apply (dominates_closed_end NumQ_laws _ _ _ _ _ _ _ _ _ _ _ _ _ _ Ck Dk Hpk WP' He He eq_refl). rewrite Ew.
  apply times_dominates; [exact Hq|eapply costs_of_wf; exact HC|exact Hnn|].
  destruct Hl as [Hl|[Hw Hl]]; [left; exact Hl|right; split; [|exact Hl]].
  rewrite (window_of_canon _ _ Hw) in E1. symmetry. exact E1.
Qed.

Theorem factor_open_end cdist x y (o : opts NumQ) lm d rules s' sp' rules' :
  costs_of cdist x y lm -> 0 < nr lm -> nonneg_costs lm ->
  dtw cdist x y o = Ok d -> pattern_rules (r_stepPattern d) rules -> o_open_end o = true ->
  pattern_of s' sp' -> pattern_rules sp' rules' -> hint sp' = hint (r_stepPattern d) ->
  cheaper_steps rules' (times k rules) \/
    (window_of (o_window_type o) NoWindow /\ finer_steps rules' (times k rules) /\ (o_open_begin o = true -> forall r, In r rules' -> 1 <= r_di r)) ->
  exists d', dtw cdist x y (with_pattern o s') = Ok d' /\ r_stepPattern d' = sp' /\
    leb (r_normalizedDistance d') (mul k (r_normalizedDistance d)) = true.
Proof.
  intros HC Hn Hnn H Hp He Hs Hr Hh Hl. destruct (finite_one k Kf K1) as [q [-> Hq]].
  pose proof (ok_well_posed NumQ_laws _ _ _ _ _ _ _ HC H Hp Hn) as WP.
  assert (WP' : well_posed cdist x y (with_pattern o s') lm sp' rules' (r_windowFunction d)).
  { eapply with_pattern_wp; [exact WP|exact Hs|exact Hr| |]; rewrite Hh; intros E.
    - apply (wp_begin _ _ _ _ _ _ _ _ WP). exact E.
    - apply (wp_end _ _ _ _ _ _ _ _ WP). exact E. }
  destruct (scaled_call q _ _ _ _ _ _ _ _ _ Hq WP H) as [xk [dk [Ck [Dk [_ Ek]]]]]. rewrite <- Ek.
  pose proof (ok_pattern _ _ _ _ _ _ Ck Dk) as Pk. pose proof (ok_pattern _ _ _ _ _ _ HC H) as P0.
  assert (Es : r_stepPattern dk = r_stepPattern d) by (inversion Pk; inversion P0; congruence).
  assert (Hpk : pattern_rules (r_stepPattern dk) rules) by (rewrite Es; exact Hp).
  pose proof (ok_well_posed NumQ_laws _ _ _ _ _ _ _ Ck Dk Hpk Hn) as WPk.
  pose proof (window_of_canon _ _ (wp_window _ _ _ _ _ _ _ _ WP)) as E1.
  pose proof (window_of_canon _ _ (wp_window _ _ _ _ _ _ _ _ WPk)) as E2.
  assert (Ew : r_windowFunction dk = r_windowFunction d) by (rewrite E1 in E2; symmetry; exact E2).
  apply (dominates_open_end NumQ_laws _ _ _ _ _ _ _ _ _ _ _ _ _ _ Ck Dk Hpk WP' He eq_refl ltac:(rewrite Es; symmetry; exact Hh)). rewrite Ew.
  apply times_dominates; [exact Hq|eapply costs_of_wf; exact HC|exact Hnn|].
  destruct Hl as [Hl|[Hw Hl]]; [left; exact Hl|right; split; [|exact Hl]].
  rewrite (window_of_canon _ _ Hw) in E1. symmetry. exact E1.
Qed.
End T.

(** The predefined patterns *)
Definition factor_check : bool :=
  forallb (fun e => match lookup (fst e) predefined with
                    | None => false
                    | Some l' => forallb (fun kz => match lookup (fst kz) predefined with
                                                    | None => false
                                                    | Some l => Z.leb 1 (snd kz) && cheaper_stepsb (N := NumQ) (productions l') (times (@ofZ NumQ (snd kz)) (productions l))
                                                    end) (snd e)
                    end) factor_table.
Lemma factor_checked : factor_check = true.
Proof. vm_compute. reflexivity. Qed.
Lemma factor_cheaper k' k z l' l : factor_listed k' k z -> lookup k' predefined = Some l' -> lookup k predefined = Some l ->
  (1 <= z)%Z /\ cheaper_steps (N := NumQ) (productions l') (times (@ofZ NumQ z) (productions l)).
Proof.
  intros [t [Ht Hz]] E' E. pose proof factor_checked as H. unfold factor_check in H. rewrite forallb_forall in H.
  specialize (H _ (lookup_In _ _ _ Ht)). cbn [fst snd] in H. rewrite E' in H. rewrite forallb_forall in H.
  specialize (H _ (lookup_In _ _ _ Hz)). cbn [fst snd] in H. rewrite E in H. apply andb_true_iff in H. destruct H as [H1 H2].
  split; [apply Z.leb_le; exact H1|]. apply cheaper_stepsb_ok. exact H2.
Qed.
Lemma one_le_ofZ z : (1 <= z)%Z -> leb (@ofZ NumQ 1) (ofZ z) = true.
Proof. intros H. cbn. apply xq_leb_fin. apply ofZ_le. exact H. Qed.

Theorem factor_named cdist x y (o : opts NumQ) lm d k' k z sp' :
  costs_of cdist x y lm -> 0 < nr lm -> nonneg_costs lm ->
  o_step_pattern o = SPName k -> dtw cdist x y o = Ok d -> o_open_end o = false ->
  factor_listed k' k z -> lookup k' (@pattern_table NumQ) = Some sp' -> (o_open_begin o = true -> hint sp' = "N") ->
  exists d', dtw cdist x y (with_pattern o (SPName k')) = Ok d' /\ leb (r_distance d') (mul (ofZ z) (r_distance d)) = true.
Proof.
  intros HC Hn Hnn Hk H He Hl Hk' Hb.
  assert (Hsp : lookup k (@pattern_table NumQ) = Some (r_stepPattern d)).
  { pose proof (ok_pattern _ _ _ _ _ _ HC H) as P. rewrite Hk in P. inversion P; subst. assumption. }
  destruct (predefined_rules NumQ_laws _ _ Hk') as [l' [E' R']]. destruct (predefined_rules NumQ_laws _ _ Hsp) as [l [E R]].
  destruct (factor_cheaper _ _ _ _ _ Hl E' E) as [Hz C].
  destruct (factor_closed_end (ofZ z) eq_refl (one_le_ofZ z Hz) cdist x y o lm d _ (SPName k') sp' _ HC Hn Hnn H R He (pattern_name _ _ Hk') R' Hb (or_introl C))
    as [d' [A [_ B]]].
  exists d'. auto.
Qed.
Theorem factor_named_open cdist x y (o : opts NumQ) lm d k' k z sp' :
  costs_of cdist x y lm -> 0 < nr lm -> nonneg_costs lm ->
  o_step_pattern o = SPName k -> dtw cdist x y o = Ok d -> o_open_end o = true ->
  factor_listed k' k z -> lookup k' (@pattern_table NumQ) = Some sp' -> hint sp' = hint (r_stepPattern d) ->
  exists d', dtw cdist x y (with_pattern o (SPName k')) = Ok d' /\ leb (r_normalizedDistance d') (mul (ofZ z) (r_normalizedDistance d)) = true.
Proof.
  intros HC Hn Hnn Hk H He Hl Hk' Hh.
  assert (Hsp : lookup k (@pattern_table NumQ) = Some (r_stepPattern d)).
  { pose proof (ok_pattern _ _ _ _ _ _ HC H) as P. rewrite Hk in P. inversion P; subst. assumption. }
  destruct (predefined_rules NumQ_laws _ _ Hk') as [l' [E' R']]. destruct (predefined_rules NumQ_laws _ _ Hsp) as [l [E R]].
  destruct (factor_cheaper _ _ _ _ _ Hl E' E) as [Hz C].
  destruct (factor_open_end (ofZ z) eq_refl (one_le_ofZ z Hz) cdist x y o lm d _ (SPName k') sp' _ HC Hn Hnn H R He (pattern_name _ _ Hk') R' Hh (or_introl C))
    as [d' [A [_ B]]].
  exists d'. auto.
Qed.
