(** Thm33.v - binary64 results change exactly with the unit, for powers of two (proofs for C63). *)
From Coq Require Import Reals Lra ZifyBool ZifyNat.
From Verif Require Import Base Num NumF NumFLaws StepPattern Window Core Backtrack Dtw Spec Api Tables Vocab Terms
  CoreProof DPProof DtwProof ApiProof ApiThms Uniq Thm2 Thm5 Thm7 Thm9 Thm27 Derived Sim IntSpec Thm31 SimCalls Accuracy Exact FloatSpec Thm32 Scale ScaleSpec.
From Flocq Require Import Core BinarySingleNaN.
Open Scope string_scope.
Open Scope list_scope.

(** ** Arithmetic *)
Section Arith.
Open Scope R_scope.

Lemma pow2_bp e : powerRZ 2 e = bp e.
Proof. rewrite bpow_powerRZ. reflexivity. Qed.

Lemma div_scl e n k (v v' : f64) : (1 <= k <= 2 ^ 53)%Z -> (0 <= n <= 2 ^ 53)%Z -> scl e (lim n) v v' ->
  let q := f_div v (f_ofZ k) in let q' := f_div v' (f_ofZ k) in
  (is_nan q = true /\ is_nan q' = true) \/
  (is_finite q = true /\ is_finite q' = true /\ B2R q' = bp e * B2R q).
Proof.
  intros Hk Hn H. cbv zeta. assert (K0 : 1 <= IZR k) by (apply IZR_le; lia). assert (K1 : IZR k <= bp 53) by (change (bp 53) with (IZR (2 ^ 53)); apply IZR_le; lia).
  destruct H as [[N1 N2]|[F1 [F2 [E [G1 [G2 [B1 B2]]]]]]].
  - left. destruct v; try discriminate. destruct v'; try discriminate. destruct (f_ofZ k); split; reflexivity.
  - right.
    assert (DB : forall r, Rabs r <= lim n -> Rabs (r / IZR k) <= lim n).
    { intros r Hr. unfold Rdiv. rewrite Rabs_mult. rewrite (Rabs_pos_eq (/ IZR k)) by (apply Rlt_le, Rinv_0_lt_compat; lra).
      apply Rle_trans with (Rabs r * 1); [|lra]. apply Rmult_le_compat_l; [apply Rabs_pos|]. rewrite <- Rinv_1. apply Rinv_le_contravar; lra. }
    assert (DN : forall r, grid r -> normal (r / IZR k)).
    { intros r Hr. destruct (grid_low r Hr) as [->|Q]; [left; unfold Rdiv; ring|right].
      unfold Rdiv. rewrite Rabs_mult. rewrite (Rabs_pos_eq (/ IZR k)) by (apply Rlt_le, Rinv_0_lt_compat; lra).
      apply Rle_trans with (bp (-950) * bp (-53)); [rewrite <- bpow_plus; apply bpow_le; lia|].
      apply Rmult_le_compat; try apply bpow_ge_0; [exact Q|]. change (-53)%Z with (- (53))%Z. rewrite bpow_opp. apply Rinv_le_contravar; lra. }
    destruct (rounded_lim _ _ n Hn (DB _ B1) (div_int_rounded v k Hk F1)) as [Q1 Q2].
    destruct (rounded_lim _ _ n Hn (DB _ B2) (div_int_rounded v' k Hk F2)) as [Q1' Q2'].
    split; [exact Q1|]. split; [exact Q1'|]. rewrite Q2, Q2'.
    assert (ED : B2R v' / IZR k = bp e * (B2R v / IZR k)) by (rewrite E; unfold Rdiv; ring).
    rewrite ED. apply rnd_scale; [apply DN; exact G1|]. rewrite <- ED. apply DN. exact G2.
Qed.

Lemma weight_scl q : wweight_ok q = true -> is_finite (@weight NumF q : f64) = true /\ wt_ok (B2R (@weight NumF q : f64)).
Proof.
  destruct q as [a b]. unfold wweight_ok, weight. cbn [fst snd]. intros H.
  assert (Hb : (1 <= b <= 2 ^ 10)%Z) by lia. assert (Ha : (Z.abs a <= 2 ^ 31)%Z) by lia. clear H.
  assert (X : forall r : R, (a = 0%Z -> r = 0) -> (a <> 0%Z -> bp (-10) <= Rabs r <= bp 31) -> wt_ok r).
  { intros r H1 H2. destruct (Z.eq_dec a 0) as [Z|Z]; [left; auto|right]. destruct (H2 Z) as [A B].
    split; [eapply Rle_trans; [|exact A]; apply bpow_le; lia|eapply Rle_trans; [exact B|]; apply bpow_le; lia]. }
  assert (Ia : a <> 0%Z -> 1 <= Rabs (IZR a) <= bp 31).
  { intros Z. rewrite <- abs_IZR. split; [apply IZR_le; lia|]. change (bp 31) with (IZR (2 ^ 31)). apply IZR_le. lia. }
  destruct (Z.eqb_spec b 1) as [->|Hb1].
  - split; [apply ofZ_fin; lia|]. change (@ofZ NumF a) with (f_ofZ a). rewrite ofZ_B2R by lia. apply X.
    + intros ->. reflexivity.
    + intros Z. destruct (Ia Z). split; [|assumption]. eapply Rle_trans; [|eassumption]. change 1 with (bp 0). apply bpow_le. lia.
  - change (@div NumF (ofZ a) (ofZ b)) with (f_div (f_ofZ a) (f_ofZ b)). destruct (frac_B2R a b ltac:(lia) ltac:(lia)) as [F E].
    split; [exact F|]. rewrite E. apply X.
    + intros ->. unfold Rdiv. rewrite Rmult_0_l. apply rnd_0.
    + intros Z. destruct (Ia Z) as [I1 I2].
      assert (B1 : 1 <= IZR b) by (apply IZR_le; lia). assert (B2 : IZR b <= bp 10) by (change (bp 10) with (IZR (2 ^ 10)); apply IZR_le; lia).
      assert (RB : forall k, (-1000 <= k <= 1000)%Z -> fmt (bp k)) by (intros k Hk; apply generic_format_bpow; unfold SpecFloat.fexp, SpecFloat.emin; lia).
      assert (Q1 : bp (-10) <= Rabs (IZR a / IZR b)).
      { unfold Rdiv. rewrite Rabs_mult, (Rabs_pos_eq (/ IZR b)) by (apply Rlt_le, Rinv_0_lt_compat; lra).
        rewrite <- (Rmult_1_l (bp (-10))). apply Rmult_le_compat; [lra|apply bpow_ge_0|exact I1|].
        change (-10)%Z with (- (10))%Z. rewrite bpow_opp. apply Rinv_le_contravar; lra. }
      assert (Q2 : Rabs (IZR a / IZR b) <= bp 31).
      { unfold Rdiv. rewrite Rabs_mult, (Rabs_pos_eq (/ IZR b)) by (apply Rlt_le, Rinv_0_lt_compat; lra).
        rewrite <- (Rmult_1_r (bp 31)). apply Rmult_le_compat; [apply Rabs_pos|apply Rlt_le, Rinv_0_lt_compat; lra|exact I2|].
        rewrite <- Rinv_1. apply Rinv_le_contravar; lra. }
      split.
      * apply abs_round_ge_generic; [apply vexp|apply valid_rnd_round_mode|apply RB; lia|exact Q1].
      * apply abs_round_le_generic; [apply vexp|apply valid_rnd_round_mode|apply RB; lia|exact Q2].
Qed.

(** ** Costs *)
Lemma cost_scl_of e x x' : times_pow2 e x x' -> moderate x -> moderate x' -> cost_scl e x x'.
Proof.
  intros [H|[H1 [H2 H3]]] M M'; [left; exact H|right]. specialize (M H1). specialize (M' H2). rewrite !pow2_bp in *.
  repeat split; assumption.
Qed.
Lemma cost_value_scl e x x' : cost_scl e x x' -> scl e (lim 1) x x'.
Proof.
  intros [H|[H1 [H2 [H3 [C C']]]]]; [left; exact H|right].
  assert (Q : forall y : f64, is_finite y = true -> cost_ok (B2R y) -> grid (B2R y) /\ Rabs (B2R y) <= lim 1).
  { intros y Fy Cy. assert (F1 : fmt 1) by (change 1 with (bp 0); apply generic_format_bpow; unfold SpecFloat.fexp, SpecFloat.emin; lia).
    destruct (grid_prod 1 (B2R y) F1 (generic_format_B2R _ _ y)) as [G B].
    - right. rewrite Rabs_R1. split; change 1 with (bp 0); apply bpow_le; lia.
    - exact Cy.
    - rewrite Rmult_1_l in G, B. split; [exact G|]. eapply Rle_trans; [exact B|]. unfold lim. rewrite Rmult_1_r. apply bpow_le. lia. }
  destruct (Q x H1 C), (Q x' H2 C'). repeat split; assumption.
Qed.
Lemma scl_times e A v v' : scl e A v v' -> times_pow2 e v v'.
Proof. intros [H|[H1 [H2 [H3 _]]]]; [left; exact H|right]. rewrite pow2_bp. auto. Qed.

Lemma fold_scl fused e (cost cost' : nat -> nat -> f64) (l : list (nat * nat * (Z * Z))) i j n v v' :
  (0 <= n)%Z -> (n + Z.of_nat (List.length l) <= 2 ^ 53)%Z ->
  (forall x, In x l -> wweight_ok (snd x) = true) ->
  (forall x, In x l -> cost_scl e (cost (i - fst (fst x))%nat (j - snd (fst x))%nat) (cost' (i - fst (fst x))%nat (j - snd (fst x))%nat)) ->
  scl e (lim n) v v' ->
  scl e (lim (n + Z.of_nat (List.length l)))
    (fold_left (fun c y => @macc (Exact.double fused) c (snd y) (cost (i - fst (fst y))%nat (j - snd (fst y))%nat)) (map (fun y => (fst y, weight (snd y))) l) v)
    (fold_left (fun c y => @macc (Exact.double fused) c (snd y) (cost' (i - fst (fst y))%nat (j - snd (fst y))%nat)) (map (fun y => (fst y, weight (snd y))) l) v').
Proof.
  revert n v v'. induction l as [|x l IH]; intros n v v' Hn Hb Hw Hc Hv; cbn [map fold_left List.length].
  - rewrite Z.add_0_r. exact Hv.
  - cbn [fst snd]. cbn [List.length] in Hb. replace (n + Z.of_nat (S (List.length l)))%Z with (n + 1 + Z.of_nat (List.length l))%Z by lia.
    apply IH; [lia|lia| | |].
    + intros y Hy. apply Hw. right. exact Hy.
    + intros y Hy. apply Hc. right. exact Hy.
    + destruct (weight_scl (snd x) (Hw x (or_introl eq_refl))) as [Fw Ww].
      apply mac_scl; auto; [lia|]. apply Hc. left. reflexivity.
Qed.
End Arith.
Open Scope nat_scope.

Lemma scl_normalized e h n m j k (v v' : f64) fused : 0 < n -> j < m -> (Z.of_nat n + Z.of_nat m <= 2 ^ 53)%Z -> (0 <= k <= 2 ^ 53)%Z ->
  scl e (lim k) v v' ->
  times_pow2 e (@normalized (Exact.double fused) h n j v) (@normalized (Exact.double fused) h n j v').
Proof.
  intros Hn Hj Hb Hk H. unfold normalized.
  assert (D : forall z, (1 <= z <= 2 ^ 53)%Z -> times_pow2 e (f_div v (f_ofZ z)) (f_div v' (f_ofZ z))).
  { intros z Hz. pose proof (div_scl e k z v v' Hz Hk H) as Q. cbv zeta in Q. unfold times_pow2. rewrite pow2_bp. exact Q. }
  destruct (String.eqb h "N+M"); [apply D; lia|]. destruct (String.eqb h "N"); [apply D; lia|].
  destruct (String.eqb h "M"); [apply D; lia|]. eapply scl_times. exact H.
Qed.

Lemma times_cmp e (v v' u u' : f64) : times_pow2 e v v' -> times_pow2 e u u' -> is_nan v = false -> is_nan u = false ->
  Bltb v u = Bltb v' u'.
Proof.
  intros [[C _]|[V1 [V2 V3]]] [[C' _]|[U1 [U2 U3]]] Nv Nu; try congruence.
  rewrite !Bltb_correct by assumption. rewrite V3, U3, pow2_bp. pose proof (bpow_gt_0 radix2 e) as P.
  destruct (Rlt_bool_spec (B2R v) (B2R u)) as [H|H]; symmetry.
  - apply Rlt_bool_true. apply Rmult_lt_compat_l; assumption.
  - apply Rlt_bool_false. apply Rmult_le_compat_l; lra.
Qed.
Lemma times_nan e v v' : times_pow2 e v v' -> is_nan v = is_nan v'.
Proof.
  intros [[-> ->]|[H1 [H2 _]]]; [reflexivity|]. destruct v; try discriminate; destruct v'; try discriminate; reflexivity.
Qed.
Lemma times_good e v v' : times_pow2 e v v' -> is_nan v = false -> goodf v /\ goodf v'.
Proof.
  intros [[H1 H2]|[H1 [H2 _]]] Hn; [congruence|]. unfold goodf.
  destruct v as [s|s| |s m x Hx]; try discriminate; destruct v' as [s'|s'| |s' m' x' Hx']; try discriminate; split; reflexivity.
Qed.

(** ** Calls *)
Lemma wsize_in (l : list wrule) r : In r l -> List.length (w_add r) <= wsize l.
Proof.
  unfold wsize. induction l as [|x l IH]; intros H; [destruct H|]. cbn [map list_sum fold_right]. destruct H as [->|H]; [lia|].
  specialize (IH H). unfold list_sum in IH. lia.
Qed.
Lemma step_lim S a n m di dj : 0 < di + dj -> di <= n -> dj <= m -> a <= S ->
  S * (1 + (n - di) + (m - dj)) + a <= S * (1 + n + m).
Proof.
  intros H1 H2 H3 H4. replace (1 + n + m) with (1 + (n - di) + (m - dj) + (di + dj)) by lia.
  rewrite (Nat.mul_add_distr_l S (1 + (n - di) + (m - dj)) (di + dj)).
  assert (S <= S * (di + dj)) by (rewrite <- (Nat.mul_1_r S) at 1; apply Nat.mul_le_mono_l; lia). lia.
Qed.
Lemma size_sum R M : size_ok R M -> (Z.of_nat R + Z.of_nat M <= 2 ^ 31)%Z.
Proof.
  unfold size_ok. intros [H1 [H2 H3]].
  assert (Z.of_nat R + Z.of_nat M <= Z.of_nat R * Z.of_nat M + 1)%Z by nia. change INT_MAX with (2 ^ 31 - 1)%Z in H3. lia.
Qed.

Lemma forall2_of_nth {A B} (P : A -> B -> Prop) l l' : List.length l = List.length l' ->
  (forall k a b, nth_error l k = Some a -> nth_error l' k = Some b -> P a b) -> Forall2 P l l'.
Proof.
  revert l'. induction l as [|x l IH]; intros [|y l'] El H; try discriminate; constructor.
  - exact (H 0 x y eq_refl eq_refl).
  - apply IH; [cbn in El; lia|]. intros k a b Ha Hb. exact (H (S k) a b Ha Hb).
Qed.
Lemma cell_units fused e (g g' : mat f64) i j : unit_changed e g g' ->
  cost_scl e (@cell (Exact.double fused) g i j) (@cell (Exact.double fused) g' i j).
Proof.
  intros [E1 [E2 F]].
  change (@cell (Exact.double fused) g i j) with (match @mget f64 g i j with Some v => v | None => B754_nan : f64 end).
  change (@cell (Exact.double fused) g' i j) with (match @mget f64 g' i j with Some v => v | None => B754_nan : f64 end).
  unfold mget. rewrite E1, E2. destruct (_ && _); [|left; split; reflexivity].
  destruct (nth_error (dat g) _) as [v|] eqn:Ev, (nth_error (dat g') _) as [v'|] eqn:Ev'.
  - destruct (forall2_nth _ _ _ _ _ _ F Ev Ev') as [T [M M']]. apply cost_scl_of; assumption.
  - exfalso. apply nth_error_None in Ev'. assert (nth_error (dat g) (i * nc g + j) <> None) as C by congruence. apply nth_error_Some in C.
    pose proof (forall2_len _ _ _ F). lia.
  - exfalso. apply nth_error_None in Ev. assert (nth_error (dat g') (i * nc g + j) <> None) as C by congruence. apply nth_error_Some in C.
    pose proof (forall2_len _ _ _ F). lia.
  - left. split; reflexivity.
Qed.
Lemma reps_forall2 {A B} n m (l : list A) (l' : list B) f f' (P : A -> B -> Prop) : reps n m l f -> reps n m l' f' ->
  (forall i j, i < n -> j < m -> P (f i j) (f' i j)) -> Forall2 P l l'.
Proof.
  intros [Hl H] [Hl' H'] E. apply forall2_of_nth; [congruence|]. intros k a b Ha Hb.
  assert (Hk : k < n * m) by (rewrite <- Hl; apply nth_error_Some; congruence).
  assert (0 < m) by nia.
  pose proof (Nat.div_mod k m ltac:(lia)) as D. pose proof (Nat.mod_upper_bound k m ltac:(lia)) as Bq.
  set (i := k / m) in *. set (j := k mod m) in *.
  assert (i < n) by nia. replace k with (i * m + j) in * by lia.
  rewrite H in Ha by assumption. rewrite H' in Hb by assumption. injection Ha as <-. injection Hb as <-. apply E; assumption.
Qed.

Lemma wp_costs_change {N : Num} cdist cdist' x y x' y' (o : opts N) (lm lm' : mat N) sp rules w :
  well_posed cdist x y o lm sp rules w -> costs_of cdist' x' y' lm' -> (o_open_begin o = true \/ native_array x' y') ->
  nr lm' = nr lm -> nc lm' = nc lm -> well_posed cdist' x' y' o lm' sp rules w.
Proof.
  intros [C1 C2 C3 C4 C5 C6 C7 C8 C9 C10] Hc Hn E1 E2. unfold rows_used in *.
  constructor; auto; unfold rows_used; rewrite ?E1, ?E2; assumption.
Qed.

Lemma wvalid_weights r : wvalid r = true -> 0 < w_di r + w_dj r /\ forall x, In x (w_add r) -> wweight_ok (snd x) = true.
Proof.
  unfold wvalid. intros H. repeat (apply andb_prop in H; destruct H as [H ?]).
  split; [lia|]. match goal with K : forallb _ _ = true |- _ => rewrite forallb_forall in K; exact K end.
Qed.
Lemma good_notnan (v : f64) : Bltb v (B754_infinity false : f64) = true -> is_nan v = false.
Proof. destruct v; [reflexivity|reflexivity|discriminate|reflexivity]. Qed.
Lemma forall2_skipn {A B} (P : A -> B -> Prop) k l l' : Forall2 P l l' -> Forall2 P (List.skipn k l) (List.skipn k l').
Proof. revert l l'. induction k as [|k IH]; intros l l' H; [exact H|]. destruct H; [constructor|]. cbn. apply IH. assumption. Qed.
Lemma padded_cell2 {N : Num} (lm lm' : mat N) i j : wf_mat lm' -> nr lm' = nr lm -> nc lm' = nc lm -> i < nr lm + 1 -> j < nc lm ->
  cell (padded lm') i j = if i =? 0 then ofZ 0 else cell lm' (i - 1) j.
Proof. intros H E1 E2 H1 H2. apply padded_cell; [exact H|rewrite E1; exact H1|rewrite E2; exact H2]. Qed.

Theorem unit_any fused e cdist cdist' x y x' y' (g g' : mat f64) (o : opts (Exact.double fused)) (l : list wrule) (d : DTW (Exact.double fused)) :
  @costs_of (Exact.double fused) cdist x y g -> @costs_of (Exact.double fused) cdist' x' y' g' ->
  (o_open_begin o = true \/ native_array x' y') ->
  pattern_rules (r_stepPattern d) (productions l) -> wgood l -> (Z.of_nat (wsize l) <= 2 ^ 20)%Z -> 0 < nr g ->
  unit_changed e g g' ->
  dtw cdist x y o = Ok d ->
  exists d' : DTW (Exact.double fused), dtw cdist' x' y' o = Ok d' /\ unit_changed_result e d d'.
Proof.
  intros Hco Hco' Hna Hp HG HS0 Hr HU Hd.
  pose proof (double_laws fused) as L.
  pose proof (ok_well_posed L _ _ _ _ _ _ _ Hco Hd Hp Hr) as WP.
  pose proof HU as [Enr [Enc HF]].
  assert (WP' : @well_posed (Exact.double fused) cdist' x' y' o g' (r_stepPattern d) (productions l) (r_windowFunction d)).
  { exact (wp_costs_change _ _ _ _ _ _ _ _ _ _ _ _ WP Hco' Hna Enr Enc). }
  assert (Eru : rows_used (o_open_begin o) (g : mat (Exact.double fused)) = nr (p_lm o (g : mat (Exact.double fused)))) by (rewrite p_lm_nr; reflexivity).
  pose proof (size_sum _ _ (wp_size _ _ _ _ _ _ _ _ WP)) as Hsz. rewrite Eru in Hsz.
  pose proof (costs_of_wf _ _ _ _ Hco) as Hwf. pose proof (costs_of_wf _ _ _ _ Hco') as Hwf'.
  assert (CC : forall i j, i < nr (p_lm o (g : mat (Exact.double fused))) -> j < nc g ->
     cost_scl e (cell (p_lm o (g : mat (Exact.double fused))) i j) (cell (p_lm o (g' : mat (Exact.double fused))) i j)).
  { intros i j Hi Hj. rewrite p_lm_nr in Hi. unfold p_lm. destruct (o_open_begin o); [|apply cell_units; exact HU].
    rewrite (padded_cell2 (g : mat (Exact.double fused)) (g : mat (Exact.double fused)) i j Hwf eq_refl eq_refl Hi Hj).
    rewrite (padded_cell2 (g : mat (Exact.double fused)) (g' : mat (Exact.double fused)) i j Hwf' Enr Enc Hi Hj).
    destruct (i =? 0); [|apply cell_units; exact HU]. right. change (@ofZ (Exact.double fused) 0) with (f_ofZ 0).
    replace (B2R (f_ofZ 0)) with 0%R by reflexivity. repeat split; try reflexivity; try (left; reflexivity). rewrite Rmult_0_r. reflexivity. }
  assert (Hsz2 : (Z.of_nat (nr (p_lm o (g : mat (Exact.double fused)))) + Z.of_nat (nc g) <= 2 ^ 31)%Z) by exact Hsz.
  set (W := wsize l) in *. set (R := nr (p_lm o (g : mat (Exact.double fused)))) in *.
  assert (HW : 1 <= W) by (clear -HG; destruct HG as [G _]; unfold W, wsize; destruct l as [|? ?]; [congruence|cbn; lia]).
  assert (R0 : 0 < R) by (rewrite <- Eru; exact (proj1 (wp_size _ _ _ _ _ _ _ _ WP))).
  assert (R1 : R - 1 < R) by (clear -R0; lia).
  assert (HnR : nr g <= R) by (unfold R; rewrite p_lm_nr; destruct (o_open_begin o); [apply Nat.le_add_r|apply le_n]).
  assert (Hnm : (Z.of_nat (nr g) + Z.of_nat (nc g) <= 2 ^ 53)%Z) by (clear -HnR Hsz2; lia).
  set (C := fun (i j : nat) (v v' : f64) => scl e (lim (Z.of_nat (W * (1 + i + j)))) v v').
  assert (HS : forall i j, i < R -> j < nc g -> (0 <= Z.of_nat (W * (1 + i + j)) <= 2 ^ 53)%Z).
  { intros i j Hi Hj. clear -HS0 Hsz2 Hi Hj. split; [lia|]. rewrite Nat2Z.inj_mul.
    apply Z.le_trans with (2 ^ 20 * 2 ^ 31)%Z; [|discriminate]. apply Z.mul_le_mono_nonneg; lia. }
  destruct (sim_calls L L cdist cdist' x y x' y' (g : mat (Exact.double fused)) (g' : mat (Exact.double fused)) o o _ _ (productions l) (productions l) _ _ C C
     WP WP' Enr Enc (shapes l) eq_refl eq_refl eq_refl) as [[er [E _]]|Q].
  - intros i j Hi Hj. reflexivity.
  - intros i j Hi Hj. unfold p_seed, C. destruct (o_open_begin o).
    + unfold pseed. destruct (i =? 0); (split; [reflexivity|]).
      * right. change (@ofZ (Exact.double fused) 0) with (f_ofZ 0). replace (B2R (f_ofZ 0)) with 0%R by reflexivity.
        pose proof (lim_nonneg _ (proj1 (HS i j Hi Hj))). repeat split; try reflexivity; try apply grid_0; rewrite ?Rabs_R0, ?Rmult_0_r; auto.
      * left. split; reflexivity.
    + unfold seed0. destruct ((i =? 0) && (j =? 0)).
      * assert (A : scl e (lim 1) (@cell (Exact.double fused) g 0 0) (@cell (Exact.double fused) g' 0 0)) by (apply cost_value_scl, cell_units; exact HU).
        split; [exact (scl_nan _ _ _ _ A)|]. eapply scl_weaken; [exact A|]. apply lim_mono. clear -HW. nia.
      * split; [reflexivity|]. left. split; reflexivity.
  - intros q r r' i j u u' Hr1 Hr2 Hi Hj Hdi Hdj Hu. rewrite Hr2 in Hr1. injection Hr1 as <-.
    unfold productions in Hr2. rewrite nth_error_map in Hr2. destruct (nth_error l q) as [wr|] eqn:Ewr; [|discriminate].
    injection Hr2 as <-. pose proof (nth_error_In _ _ Ewr) as Hin.
    assert (Wv : wvalid wr = true) by (destruct HG as [_ [G _]]; rewrite forallb_forall in G; apply G; exact Hin).
    destruct (wvalid_weights wr Wv) as [Wp Ww]. pose proof (wsize_in l wr Hin) as Wl. fold W in Wl.
    unfold charge, production, C in *. cbn [r_add r_di r_dj] in *.
    assert (St : W * (1 + (i - w_di wr) + (j - w_dj wr)) + List.length (w_add wr) <= W * (1 + i + j)) by (apply step_lim; assumption).
    pose proof (HS i j Hi Hj) as Hb.
    pose proof (fold_scl fused e (cell (p_lm o (g : mat (Exact.double fused)))) (cell (p_lm o (g' : mat (Exact.double fused)))) (w_add wr) i j
       (Z.of_nat (W * (1 + (i - w_di wr) + (j - w_dj wr)))) u u') as FS.
    eapply scl_weaken; [apply FS|].
    + apply Zle_0_nat.
    + clear -St Hb. rewrite <- Nat2Z.inj_add. lia.
    + exact Ww.
    + intros z Hz. apply CC; [exact (Nat.le_lt_trans _ _ _ (Nat.le_sub_l _ _) Hi)|exact (Nat.le_lt_trans _ _ _ (Nat.le_sub_l _ _) Hj)].
    + exact Hu.
    + apply lim_mono. rewrite <- Nat2Z.inj_add. apply inj_le. exact St.
  - intros i j v v' H. exact (scl_good _ _ _ _ H).
  - intros i j v v' u u' _ _ H1 H2 G1 G2. apply (scl_cmp _ _ _ _ _ _ H1 H2).
    + exact (good_notnan _ G1).
    + exact (good_notnan _ G2).
  - intros i j v v' H _. exact H.
  - intros i j v v' _ _ H. exact (scl_nan _ _ _ _ H).
  - intros last last' H. unfold choose. destruct (o_open_end o); [|reflexivity]. destruct (String.eqb (hint (r_stepPattern d)) "NA") eqn:Ena; [reflexivity|].
    assert (T : forall j, j < nc g -> times_pow2 e (@nrm (Exact.double fused) (hint (r_stepPattern d)) (nr g) j (last j)) (@nrm (Exact.double fused) (hint (r_stepPattern d)) (nr g) j (last' j))).
    { intros j Hj. unfold nrm. rewrite Ena. apply (scl_normalized e _ (nr g) (nc g) j (Z.of_nat (W * (1 + (R - 1) + j)))); [exact Hr|exact Hj| | |exact (H j Hj)].
      - exact Hnm.
      - apply HS; [exact R1|exact Hj]. }
    apply (nanargmin_sim L L).
    + intros j Hj. apply in_seq in Hj. apply (times_nan e). apply T. apply Hj.
    + intros j k Hj Hk. apply in_seq in Hj. apply in_seq in Hk. intros Nj Nk. apply (times_cmp e); [apply T; apply Hj|apply T; apply Hk|exact Nj|exact Nk].
    + intros j Hj. apply in_seq in Hj. intros Nj. apply (times_good e); [apply T; apply Hj|exact Nj].
  - rewrite E in Hd. discriminate.
  - destruct Q as [jm [mp [cm [cm' [dm [cmf [cmf' [Hj [E1 [E2 [Hn [R2' [R2 HQ]]]]]]]]]]]]].
    rewrite Hd in E1. injection E1 as E1. rewrite E2. eexists. split; [reflexivity|].
    pose proof (HQ _ jm R1 Hj) as Hv. pose proof (HS _ jm R1 Hj) as Hl.
    rewrite E1. unfold unit_changed_result, result. cbn [r_N r_M r_jmin r_map r_directionMatrix r_distance r_costMatrix r_normalizedDistance].
    split; [symmetry; exact Enr|]. split; [symmetry; exact Enc|]. do 3 (split; [reflexivity|]).
    split; [|split; [exact (scl_times _ _ _ _ Hv)|split]].
    + destruct Hv as [[Hv _]|[Hv _]]; [|exact Hv]. exfalso. pose proof (eq_trans (eq_sym Hv) Hn) as X. discriminate.
    + destruct (String.eqb _ "NA"); [left; split; reflexivity|].
      refine (eq_ind (nr g) (fun k => times_pow2 e _ (@normalized (Exact.double fused) _ k _ _)) _ (nr g') (eq_sym Enr)).
      apply (scl_normalized e _ (nr g) (nc g) jm (Z.of_nat (W * (1 + (R - 1) + jm)))); [exact Hr|exact Hj|exact Hnm|exact Hl|exact Hv].
    + destruct (o_keep_internals o); [|exact I].
      assert (A : Forall2 (times_pow2 e) cm cm').
      { eapply reps_forall2; [exact R2'|exact R2|]. intros i j Hi Hj'. eapply scl_times. apply HQ; assumption. }
      destruct (o_open_begin o); cbn [drop_first_row nr nc dat]; (do 2 (split; [reflexivity|])); [|exact A].
      apply forall2_skipn. exact A.
Qed.

Lemma predefined_size kn l : lookup kn predefined = Some l -> (Z.of_nat (wsize l) <= 2 ^ 20)%Z.
Proof.
  intros H. assert (G : forallb (fun kl => (Z.of_nat (wsize (snd kl)) <=? 2 ^ 20)%Z) predefined = true) by (vm_compute; reflexivity).
  rewrite forallb_forall in G. specialize (G _ (lookup_In _ _ _ H)). cbn [snd] in G. apply Z.leb_le. exact G.
Qed.
(** A call with a matrix of costs and the name of a predefined step pattern. *)
Theorem unit_named fused e cdist cdist' (g g' : mat f64) (o : opts (Exact.double fused)) kn d :
  o_step_pattern o = SPName kn -> List.length (dat g) = nr g * nc g -> 0 < nr g -> unit_changed e g g' ->
  dtw cdist (NdArray (Nd2 (g : mat (Exact.double fused))) true true) None o = Ok d ->
  exists d', dtw cdist' (NdArray (Nd2 (g' : mat (Exact.double fused))) true true) None o = Ok d' /\ unit_changed_result e d d'.
Proof.
  intros Hp Hlen Hr HU Hd.
  assert (Hco : @costs_of (Exact.double fused) cdist (NdArray (Nd2 (g : mat (Exact.double fused))) true true) None g) by (apply costs_one; [reflexivity|exact Hlen]).
  pose proof (ok_pattern _ _ _ _ _ _ Hco Hd) as Hpo. rewrite Hp in Hpo. inversion Hpo as [|k s Hk Ek Es]; subst.
  destruct (predefined_rules (double_laws fused) kn _ Hk) as [l [Hl Hr']].
  destruct HU as [U1 [U2 U3]].
  apply (unit_any fused e cdist cdist' (NdArray (Nd2 (g : mat (Exact.double fused))) true true) None
    (NdArray (Nd2 (g' : mat (Exact.double fused))) true true) None g g' o l); auto.
  - apply costs_one; [reflexivity|]. unfold wf_mat. cbn. rewrite U1, U2, <- (forall2_len _ _ _ U3). exact Hlen.
  - right. split; reflexivity.
  - eapply predefined_good; exact Hl.
  - eapply predefined_size; exact Hl.
  - repeat split; assumption.
Qed.
