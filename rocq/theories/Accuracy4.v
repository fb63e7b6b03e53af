(** Accuracy4.v - accuracy of the normalized distance and of the choice of the end column in
    binary64 (proofs for C67). *)
From Coq Require Import ZifyBool ZifyNat Reals Lra Psatz Lia Classical.
From Flocq Require Import Core BinarySingleNaN.
From Verif Require Import Base Num NumF NumFLaws StepPattern Window Core Backtrack Dtw Spec Api Tables Vocab Terms
  DPProof DtwProof ApiProof ApiThms Thm2 Thm5 Thm9 Thm23 Derived Laws2 Exact Accuracy Accuracy2 Accuracy3 LengthSpec.
Open Scope string_scope.
Open Scope list_scope.
Open Scope nat_scope.
Local Arguments bpow : simpl never.

Lemma half_val : (/ 2 * bpow radix2 (-1074))%R = (/ 2 ^ 1075)%R.
Proof.
  change (/ 2)%R with (bpow radix2 (-1)). rewrite <- bpow_plus. change (-1 + -1074)%Z with (-1075)%Z.
  unfold bpow. f_equal. rewrite pow_IZR. f_equal.
Qed.
Definition eta : R := (/ 2 ^ 1075)%R.
Lemma eta_pos : (0 < eta)%R.
Proof. unfold eta. rewrite <- half_val. pose proof (bpow_gt_0 radix2 (-1074)). lra. Qed.

(** One rounding of a non-negative number, underflow included. *)
Lemma rnd_abs s : (0 <= s)%R -> (s - u53 * s - eta <= rnd s <= s + u53 * s + eta)%R.
Proof.
  intros H. pose proof eta_pos. destruct (Rle_or_lt (bpow radix2 (-1022)) s) as [L|L].
  - pose proof (rel_err_pos s L). lra.
  - assert (G : (Rabs (rnd s - s) <= / 2 * ulp radix2 (SpecFloat.fexp 53 1024) s)%R).
    { apply error_le_half_ulp. apply (fexp_correct 53 1024). exact prec53. }
    assert (U : (ulp radix2 (SpecFloat.fexp 53 1024) s <= bpow radix2 (-1074))%R).
    { change (SpecFloat.fexp 53 1024) with (FLT_exp (-1074) 53). rewrite ulp_FLT_small; [apply Rle_refl|reflexivity|].
      rewrite Rabs_pos_eq by exact H. eapply Rlt_le_trans; [exact L|]. apply bpow_le. lia. }
    assert (Rabs (rnd s - s) <= eta)%R by (unfold eta; rewrite <- half_val; lra).
    apply Rabs_le_inv in H1. pose proof u_pos. nra.
Qed.

(** Dividing a computed cost by an integer. *)
Lemma div_up (c : f64) k K E : (1 <= k <= 2 ^ 53)%Z -> is_finite c = true -> (0 <= E)%R -> (0 <= B2R c <= (1 + u53) ^ K * E)%R ->
  is_finite (f_div c (f_ofZ k)) = true /\
  (B2R (f_div c (f_ofZ k)) <= (1 + u53) ^ (K + 1) * (E / IZR k) + eta)%R.
Proof.
  intros Hk F HE [P B]. pose proof (div_int_fin c k Hk F) as G. split; [exact G|].
  destruct (div_int_rounded c k Hk F) as [_ [EX FX]]. rewrite X_fin in EX by exact G.
  rewrite clamp_id in EX by (apply FX; exact G). rewrite EX.
  assert (K1 : (1 <= IZR k)%R) by (apply IZR_le; lia).
  assert (S0 : (0 <= B2R c / IZR k)%R) by (apply Rmult_le_pos; [lra|]; apply Rlt_le, Rinv_0_lt_compat; lra).
  destruct (rnd_abs _ S0) as [_ U].
  assert (S1 : (B2R c / IZR k <= (1 + u53) ^ K * (E / IZR k))%R).
  { unfold Rdiv. rewrite <- Rmult_assoc. apply Rmult_le_compat_r; [|exact B]. apply Rlt_le, Rinv_0_lt_compat. lra. }
  rewrite pow_add, pow_1. pose proof u_pos.
  assert ((1 + u53) * (B2R c / IZR k) <= (1 + u53) * ((1 + u53) ^ K * (E / IZR k)))%R by (apply Rmult_le_compat_l; lra). lra.
Qed.
Lemma div_down (c : f64) k K E : (1 <= k <= 2 ^ 53)%Z -> is_finite c = true -> (0 <= E)%R -> ((1 - u53) ^ K * E <= B2R c)%R ->
  ((1 - u53) ^ (K + 1) * (E / IZR k) - eta <= B2R (f_div c (f_ofZ k)))%R.
Proof.
  intros Hk F HE B. pose proof (div_int_fin c k Hk F) as G.
  destruct (div_int_rounded c k Hk F) as [_ [EX FX]]. rewrite X_fin in EX by exact G.
  rewrite clamp_id in EX by (apply FX; exact G). rewrite EX.
  assert (K1 : (1 <= IZR k)%R) by (apply IZR_le; lia).
  assert (P : (0 <= B2R c)%R). { pose proof (pow_lo K) as [PL _]. assert (0 <= (1 - u53) ^ K * E)%R by (apply Rmult_le_pos; lra). lra. }
  assert (S0 : (0 <= B2R c / IZR k)%R) by (apply Rmult_le_pos; [lra|]; apply Rlt_le, Rinv_0_lt_compat; lra).
  destruct (rnd_abs _ S0) as [U _].
  assert (S1 : ((1 - u53) ^ K * (E / IZR k) <= B2R c / IZR k)%R).
  { unfold Rdiv. rewrite <- Rmult_assoc. apply Rmult_le_compat_r; [|exact B]. apply Rlt_le, Rinv_0_lt_compat. lra. }
  rewrite pow_add, pow_1. pose proof u_pos. pose proof u_small.
  assert ((1 - u53) * ((1 - u53) ^ K * (E / IZR k)) <= (1 - u53) * (B2R c / IZR k))%R by (apply Rmult_le_compat_l; lra). lra.
Qed.

Section Thm.
Variable fused : bool.
Notation N := (double fused).

Lemma normalized_is h n j (v : N) : In h ["N"; "N+M"; "M"] ->
  normalized h n j v = f_div (v : f64) (f_ofZ (Z.of_nat (path_length h n j))).
Proof.
  intros [<-|[<-|[<-|[]]]]; unfold normalized, path_length; cbn [String.eqb Ascii.eqb Bool.eqb];
  change (@div N) with f_div; change (@ofZ N) with f_ofZ; do 2 f_equal; lia.
Qed.
Lemma length_range h n j : In h ["N"; "N+M"; "M"] -> 0 < n -> (Z.of_nat n <= 2 ^ 40)%Z -> (Z.of_nat j <= 2 ^ 40)%Z ->
  (1 <= Z.of_nat (path_length h n j) <= 2 ^ 53)%Z.
Proof. intros [<-|[<-|[<-|[]]]]; unfold path_length; cbn [String.eqb Ascii.eqb Bool.eqb]; lia. Qed.
Lemma hints_of k (sp : steppat N) : lookup k pattern_table = Some sp -> hint sp <> "NA" -> In (hint sp) ["N"; "N+M"; "M"].
Proof.
  intros Hk Hn.
  assert (G : forallb (fun kl => existsb (String.eqb (hint (snd kl))) ["NA"; "N"; "N+M"; "M"]) (@pattern_table N) = true)
    by (destruct fused; reflexivity).
  rewrite forallb_forall in G. specialize (G _ (lookup_In _ _ _ Hk)). cbn [snd] in G.
  apply existsb_exists in G as [h [Hin Eh]]. apply String.eqb_eq in Eh. rewrite Eh in *. destruct Hin as [<-|Hin]; [contradiction|exact Hin].
Qed.

Lemma closed_form k l cdist x y o (lm : mat N) d : costs_of cdist x y lm -> dtw cdist x y o = Ok d ->
  lookup k pattern_table = Some (r_stepPattern d) -> lookup k predefined = Some l -> k <> "_symmetricVelichkoZagoruyko" ->
  costs_fine lm -> (In k integer_weights \/ costs_not_tiny lm) ->
  exists e, e <= 2 /\ cond fused e lm /\ forallb wshort l = true /\ weights_ok e l /\ forallb wvalid l = true.
Proof.
  intros HC H Hk Hl Hin Hf [Ht|Ht].
  - exists 0. split; [lia|]. split; [split; [exact Hf|discriminate]|]. exact (integer_ok k l Ht Hl).
  - exists 2. split; [lia|]. split; [split; [exact Hf|intros _; exact Ht]|]. exact (fraction_ok k l Hin Hl).
Qed.

Lemma query_nonempty e l ob (lm : mat N) w kw ks q r : forallb wvalid l = true -> cond fused e lm ->
  exact_walk value ob l lm w kw ks q r -> ob = false -> 0 < nr lm.
Proof.
  intros Hv _ W ->. unfold exact_walk in W. apply real_walk_bound in W; [lia|exact Hv].
Qed.

(** The normalized distance against the least exact cost to the same column, divided exactly. *)
Theorem accuracy_normalized k l cdist x y o (lm : mat N) d : costs_of cdist x y lm -> dtw cdist x y o = Ok d ->
  lookup k pattern_table = Some (r_stepPattern d) -> lookup k predefined = Some l -> k <> "_symmetricVelichkoZagoruyko" ->
  hint (r_stepPattern d) <> "NA" -> 0 < nr lm ->
  costs_fine lm -> (In k integer_weights \/ costs_not_tiny lm) -> is_finite (r_distance d : f64) = true ->
  exists E, least_exact value (o_open_begin o) l lm (r_windowFunction d) (r_windowArgs d) (r_jmin d) E /\
    let e := (E / INR (path_length (hint (r_stepPattern d)) (nr lm) (r_jmin d)))%R in
    (Rabs (value (r_normalizedDistance d) - e) <= ((1 + / 2 ^ 53) ^ (nr lm + r_jmin d + 3) - 1) * e + / 2 ^ 1075)%R.
Proof.
  intros HC H Hk Hl Hin Hh Hq Hf Ht Fin. pose proof (named_rules (double_laws fused) _ _ _ Hk Hl) as Hp.
  destruct (closed_form _ _ _ _ _ _ _ _ HC H Hk Hl Hin Hf Ht) as [e [He [Hcond [G1 [G2 G3]]]]].
  destruct (acc_main fused e l _ _ _ _ _ _ HC H Hp G1 G2 G3 Hcond Fin) as [E [HE [P [B _]]]].
  exists E. split; [exact HE|]. cbv zeta.
  pose proof (dtw_fields (double_laws fused) _ _ _ _ _ _ _ HC H Hp) as F.
  destruct F as [EN [_ [_ [_ [_ [_ [_ [J [_ [En _]]]]]]]]]].
  pose proof (ok_well_posed (double_laws fused) _ _ _ _ _ _ _ HC H Hp Hq) as WP.
  destruct (wp_small _ _ _ _ _ _ _ _ WP) as [S1 S2].
  destruct (String.eqb_spec (hint (r_stepPattern d)) "NA") as [C|_]; [contradiction|].
  pose proof (hints_of _ _ Hk Hh) as Hi. rewrite EN, (normalized_is _ _ _ _ Hi) in En.
  assert (LR := length_range _ (nr lm) (r_jmin d) Hi Hq ltac:(lia) ltac:(lia)).
  set (L := path_length (hint (r_stepPattern d)) (nr lm) (r_jmin d)) in *.
  set (q := exact_end (o_open_begin o) lm (r_jmin d)) in *.
  assert (KK : fst q + snd q + e + 1 <= nr lm + r_jmin d + 3) by (unfold q, exact_end; destruct (o_open_begin o); cbn [fst snd]; lia).
  unfold value in *. rewrite En.
  assert (P0 : (0 <= (1 - u53) ^ (fst q + snd q + e) * E)%R) by (apply Rmult_le_pos; [destruct (pow_lo (fst q + snd q + e)); lra|exact P]).
  destruct (div_up (r_distance d : f64) _ (fst q + snd q + e) E LR Fin P) as [_ U]; [lra|].
  pose proof (div_down (r_distance d : f64) _ (fst q + snd q + e) E LR Fin P (proj1 B)) as D.
  rewrite <- INR_IZR_INZ in U, D. rewrite <- u_val. fold eta.
  assert (E0 : (0 <= E / INR L)%R).
  { apply Rmult_le_pos; [exact P|]. apply Rlt_le, Rinv_0_lt_compat. apply (lt_INR 0). lia. }
  set (ee := (E / INR L)%R) in *.
  pose proof (pow_up_mono _ _ KK) as M1. pose proof (pow_lo_mono _ _ KK) as M2. pose proof (pow_both (nr lm + r_jmin d + 3)) as PB.
  assert ((1 + u53) ^ (fst q + snd q + e + 1) * ee <= (1 + u53) ^ (nr lm + r_jmin d + 3) * ee)%R by (apply Rmult_le_compat_r; lra).
  assert ((1 - u53) ^ (nr lm + r_jmin d + 3) * ee <= (1 - u53) ^ (fst q + snd q + e + 1) * ee)%R by (apply Rmult_le_compat_r; lra).
  assert ((1 - (1 - u53) ^ (nr lm + r_jmin d + 3)) * ee <= ((1 + u53) ^ (nr lm + r_jmin d + 3) - 1) * ee)%R by (apply Rmult_le_compat_r; lra).
  apply Rabs_le. lra.
Qed.

(** Open end: no other end column has a noticeably smaller exact normalized cost. *)
Theorem accuracy_end_column k l cdist x y o (lm : mat N) d j E : costs_of cdist x y lm -> dtw cdist x y o = Ok d ->
  lookup k pattern_table = Some (r_stepPattern d) -> lookup k predefined = Some l -> k <> "_symmetricVelichkoZagoruyko" ->
  o_open_end o = true -> 0 < nr lm ->
  costs_fine lm -> (In k integer_weights \/ costs_not_tiny lm) -> is_finite (r_distance d : f64) = true ->
  j < nc lm -> least_exact value (o_open_begin o) l lm (r_windowFunction d) (r_windowArgs d) j E ->
  ((1 + / 2 ^ 53) ^ (nr lm + j + 2) * E < 2 ^ 1024)%R ->
  (value (r_normalizedDistance d) <=
     (1 + / 2 ^ 53) ^ (nr lm + j + 3) * (E / INR (path_length (hint (r_stepPattern d)) (nr lm) j)) + / 2 ^ 1075)%R.
Proof.
  intros HC H Hk Hl Hin Ho Hq Hf Ht Fin Hj [[ks W] _] Small. pose proof (named_rules (double_laws fused) _ _ _ Hk Hl) as Hp.
  destruct (closed_form _ _ _ _ _ _ _ _ HC H Hk Hl Hin Hf Ht) as [e [He [Hcond [G1 [G2 G3]]]]].
  pose proof (dtw_fields (double_laws fused) _ _ _ _ _ _ _ HC H Hp) as F.
  destruct F as [EN [_ [_ [_ [_ [Ea [_ [J [_ [En [_ [Hh _]]]]]]]]]]]]. specialize (Hh Ho).
  pose proof (ok_well_posed (double_laws fused) _ _ _ _ _ _ _ HC H Hp Hq) as WP.
  destruct (wp_small _ _ _ _ _ _ _ _ WP) as [S1 S2].
  assert (SN : (Z.of_nat (nr lm) <= 2 ^ 40)%Z) by (clear -S1; lia).
  assert (Sj : (Z.of_nat j <= 2 ^ 40)%Z) by (clear -S2 Hj; lia).
  assert (Sm : (Z.of_nat (r_jmin d) <= 2 ^ 40)%Z) by (clear -S2 J; lia).
  pose proof (hints_of _ _ Hk Hh) as Hi.
  assert (Wf : wf_mat lm) by (destruct HC; assumption).
  set (q := exact_end (o_open_begin o) lm j) in *.
  destruct (walks_agree fused e l lm (r_windowFunction d) (r_windowArgs d) (o_open_begin o) q G1 G2 Wf Hcond) as [_ A2].
  destruct (A2 _ _ W) as [vs [ts [c [Wc [Nc [PE [Pc [Uc _]]]]]]]].
  assert (KK : fst q + snd q + e <= nr lm + j + 2) by (unfold q, exact_end; clear -He J Hj; destruct (o_open_begin o); cbn [fst snd]; lia).
  assert (Uc' : (X c <= (1 + u53) ^ (nr lm + j + 2) * E)%R).
  { eapply Rle_trans; [exact Uc|]. apply Rmult_le_compat_r; [exact PE|]. apply pow_up_mono. exact KK. }
  rewrite <- u_val in Small |- *.
  assert (Fc : is_finite c = true).
  { destruct (nonneg_cases c Nc Pc) as [Fc|Ec]; [exact Fc|]. exfalso. rewrite Ec in Uc'. cbn [X] in Uc'.
    assert (EB : BB = (2 ^ 1024)%R) by (unfold BB, bpow; rewrite pow_IZR; f_equal). lra. }
  assert (Us : usable ks (c : N)).
  { split; [exact Nc|]. intros _. apply goodf_cases. left. exact Fc. }
  destruct (column_best (double_laws fused) _ _ _ _ _ _ _ _ j ks vs ts c WP Hj) as [c0 [B0 L0]].
  { rewrite <- Ea. exact Wc. }
  { exact Us. }
  rewrite <- Ea in B0.
  destruct (open_end_choice (double_laws fused) _ _ _ _ _ _ _ HC H Hp Ho Hq) as [_ [_ [_ Ch]]].
  destruct (Ch j c0 Hj B0) as [Le _].
  pose proof (Thm2.normalized_mono (double_laws fused) (hint (r_stepPattern d)) (nr lm) j _ _ S1 Sj L0) as Le2.
  pose proof (law_le_trans _ (double_laws fused) _ _ _ Le Le2) as Le3.
  apply Bleb_iff in Le3 as [_ [_ Le3]]. rewrite (normalized_is _ _ _ _ Hi) in Le3.
  assert (LR := length_range _ (nr lm) j Hi Hq SN Sj).
  rewrite (X_fin c Fc) in Uc', Pc.
  destruct (div_up c _ (nr lm + j + 2) E LR Fc PE (conj Pc Uc')) as [Fd U].
  rewrite (X_fin _ Fd) in Le3. rewrite <- INR_IZR_INZ in U.
  assert (Fn : is_finite (r_normalizedDistance d : f64) = true).
  { destruct (String.eqb_spec (hint (r_stepPattern d)) "NA") as [C|_]; [contradiction|]. rewrite En, EN, (normalized_is _ _ _ _ Hi).
    apply div_int_fin; [|exact Fin]. apply length_range; [exact Hi|exact Hq|exact SN|exact Sm]. }
  rewrite (X_fin _ Fn) in Le3. unfold value. fold eta. replace (nr lm + j + 3) with (nr lm + j + 2 + 1) by (clear; lia). clear -Le3 U. lra.
Qed.

(** Open end: the normalized distance against the least exact normalized cost over all end columns. *)
Theorem accuracy_open_end k l cdist x y o (lm : mat N) d j E : costs_of cdist x y lm -> dtw cdist x y o = Ok d ->
  lookup k pattern_table = Some (r_stepPattern d) -> lookup k predefined = Some l -> k <> "_symmetricVelichkoZagoruyko" ->
  o_open_end o = true -> 0 < nr lm ->
  costs_fine lm -> (In k integer_weights \/ costs_not_tiny lm) -> is_finite (r_distance d : f64) = true ->
  let least i v := least_exact value (o_open_begin o) l lm (r_windowFunction d) (r_windowArgs d) i v in
  let norm i v := (v / INR (path_length (hint (r_stepPattern d)) (nr lm) i))%R in
  j < nc lm -> least j E -> (forall i v, i < nc lm -> least i v -> (norm j E <= norm i v)%R) ->
  ((1 + / 2 ^ 53) ^ (nr lm + nc lm + 1) * E < 2 ^ 1024)%R ->
  (Rabs (value (r_normalizedDistance d) - norm j E) <= ((1 + / 2 ^ 53) ^ (nr lm + nc lm + 2) - 1) * norm j E + / 2 ^ 1075)%R.
Proof.
  cbv zeta. intros HC H Hk Hl Hin Ho Hq Hf Ht Fin Hj HE ME Small. pose proof (named_rules (double_laws fused) _ _ _ Hk Hl) as Hp.
  pose proof (dtw_fields (double_laws fused) _ _ _ _ _ _ _ HC H Hp) as F.
  destruct F as [EN [_ [_ [_ [_ [Ea [_ [J [_ [En [_ [Hh _]]]]]]]]]]]]. specialize (Hh Ho).
  pose proof (ok_well_posed (double_laws fused) _ _ _ _ _ _ _ HC H Hp Hq) as WP.
  destruct (wp_small _ _ _ _ _ _ _ _ WP) as [S1 S2].
  assert (SN : (Z.of_nat (nr lm) <= 2 ^ 40)%Z) by (clear -S1; lia).
  assert (Sj : (Z.of_nat j <= 2 ^ 40)%Z) by (clear -S2 Hj; lia).
  assert (Sm : (Z.of_nat (r_jmin d) <= 2 ^ 40)%Z) by (clear -S2 J; lia).
  pose proof (hints_of _ _ Hk Hh) as Hi.
  destruct (closed_form _ _ _ _ _ _ _ _ HC H Hk Hl Hin Hf Ht) as [e [He [Hcond [G1 [G2 G3]]]]].
  assert (P : (0 <= E)%R).
  { destruct HE as [[ks W] _]. assert (Wf : wf_mat lm) by (destruct HC; assumption).
    destruct (walks_agree fused e l lm (r_windowFunction d) (r_windowArgs d) (o_open_begin o) (exact_end (o_open_begin o) lm j) G1 G2 Wf Hcond) as [_ A2].
    destruct (A2 _ _ W) as [vs [ts [c [_ [_ [PE _]]]]]]. exact PE. }
  rewrite <- u_val in Small |- *.
  assert (Up : (value (r_normalizedDistance d) <=
     (1 + u53) ^ (nr lm + j + 3) * (E / INR (path_length (hint (r_stepPattern d)) (nr lm) j)) + / 2 ^ 1075)%R).
  { rewrite u_val. eapply accuracy_end_column; try eassumption. rewrite <- u_val.
    eapply Rle_lt_trans; [|exact Small]. apply Rmult_le_compat_r; [exact P|]. apply pow_up_mono. clear -Hj; lia. }
  destruct (acc_main fused e l _ _ _ _ _ _ HC H Hp G1 G2 G3 Hcond Fin) as [E1 [HE1 [P1 [B _]]]].
  specialize (ME _ _ J HE1).
  destruct (String.eqb_spec (hint (r_stepPattern d)) "NA") as [C|_]; [contradiction|].
  rewrite EN, (normalized_is _ _ _ _ Hi) in En.
  assert (LR := length_range _ (nr lm) (r_jmin d) Hi Hq SN Sm).
  set (q := exact_end (o_open_begin o) lm (r_jmin d)) in *.
  pose proof (div_down (r_distance d : f64) _ (fst q + snd q + e) E1 LR Fin P1 (proj1 B)) as D.
  rewrite <- INR_IZR_INZ in D. unfold value in *. rewrite En in *.
  assert (LJ := length_range _ (nr lm) j Hi Hq SN Sj).
  assert (E0 : (0 <= E / INR (path_length (hint (r_stepPattern d)) (nr lm) j))%R).
  { apply Rmult_le_pos; [exact P|]. apply Rlt_le, Rinv_0_lt_compat. apply (lt_INR 0). clear -LJ. lia. }
  set (ee := (E / INR (path_length (hint (r_stepPattern d)) (nr lm) j))%R) in *.
  set (e1 := (E1 / INR (path_length (hint (r_stepPattern d)) (nr lm) (r_jmin d)))%R) in *.
  assert (KK : fst q + snd q + e + 1 <= nr lm + nc lm + 2) by (unfold q, exact_end; clear -He J Hj; destruct (o_open_begin o); cbn [fst snd]; lia).
  assert (KJ : nr lm + j + 3 <= nr lm + nc lm + 2) by (clear -Hj; lia). clear Small.
  pose proof (pow_up_mono _ _ KJ) as M1. pose proof (pow_lo_mono _ _ KK) as M2. pose proof (pow_both (nr lm + nc lm + 2)) as PB.
  pose proof (pow_lo (nr lm + nc lm + 2)) as PL.
  assert ((1 + u53) ^ (nr lm + j + 3) * ee <= (1 + u53) ^ (nr lm + nc lm + 2) * ee)%R by (apply Rmult_le_compat_r; lra).
  assert ((1 - u53) ^ (nr lm + nc lm + 2) * ee <= (1 - u53) ^ (fst q + snd q + e + 1) * e1)%R.
  { eapply Rle_trans; [apply Rmult_le_compat_l; [lra|exact ME]|]. apply Rmult_le_compat_r; lra. }
  assert ((1 - (1 - u53) ^ (nr lm + nc lm + 2)) * ee <= ((1 + u53) ^ (nr lm + nc lm + 2) - 1) * ee)%R by (apply Rmult_le_compat_r; lra).
  fold eta in Up |- *. apply Rabs_le. lra.
Qed.

(** Such a column exists. *)
Lemma least_unique ob l (lm : mat N) w kw j a b : least_exact value ob l lm w kw j a -> least_exact value ob l lm w kw j b -> a = b.
Proof. intros [[k1 W1] M1] [[k2 W2] M2]. apply Rle_antisym; [exact (M1 _ _ W2)|exact (M2 _ _ W1)]. Qed.
Lemma least_column ob l (lm : mat N) w kw (norm : nat -> R -> R) m :
  (exists j E, j < m /\ least_exact value ob l lm w kw j E) ->
  exists j E, j < m /\ least_exact value ob l lm w kw j E /\
    forall i v, i < m -> least_exact value ob l lm w kw i v -> (norm j E <= norm i v)%R.
Proof.
  induction m as [|m IH]; intros [j [E [Hj HE]]]; [lia|].
  destruct (classic (exists j E, j < m /\ least_exact value ob l lm w kw j E)) as [Q|Q].
  - destruct (IH Q) as [j1 [E1 [Hj1 [HE1 M1]]]].
    destruct (classic (exists E2, least_exact value ob l lm w kw m E2 /\ (norm m E2 < norm j1 E1)%R)) as [[E2 [HE2 L2]]|Q2].
    + exists m, E2. split; [lia|]. split; [exact HE2|]. intros i v Hi Hv. destruct (Nat.eq_dec i m) as [->|D].
      * rewrite (least_unique _ _ _ _ _ _ _ _ Hv HE2). apply Rle_refl.
      * specialize (M1 i v ltac:(lia) Hv). lra.
    + exists j1, E1. split; [lia|]. split; [exact HE1|]. intros i v Hi Hv. destruct (Nat.eq_dec i m) as [->|D].
      * destruct (Rle_or_lt (norm j1 E1) (norm m v)) as [L|L]; [exact L|]. exfalso. apply Q2. eauto.
      * apply M1; [lia|exact Hv].
  - exists j, E. split; [exact Hj|]. split; [exact HE|]. intros i v Hi Hv.
    assert (i = m) as -> by (destruct (Nat.eq_dec i m) as [D|D]; [exact D|]; exfalso; apply Q; exists i, v; split; [lia|exact Hv]).
    assert (j = m) as -> by (destruct (Nat.eq_dec j m) as [D|D]; [exact D|]; exfalso; apply Q; exists j, E; split; [lia|exact HE]).
    rewrite (least_unique _ _ _ _ _ _ _ _ Hv HE). apply Rle_refl.
Qed.
Theorem best_column_exists k l cdist x y o (lm : mat N) d : costs_of cdist x y lm -> dtw cdist x y o = Ok d ->
  lookup k pattern_table = Some (r_stepPattern d) -> lookup k predefined = Some l -> k <> "_symmetricVelichkoZagoruyko" ->
  costs_fine lm -> (In k integer_weights \/ costs_not_tiny lm) -> is_finite (r_distance d : f64) = true ->
  let least i v := least_exact value (o_open_begin o) l lm (r_windowFunction d) (r_windowArgs d) i v in
  let norm i v := (v / INR (path_length (hint (r_stepPattern d)) (nr lm) i))%R in
  exists j E, j < nc lm /\ least j E /\ forall i v, i < nc lm -> least i v -> (norm j E <= norm i v)%R.
Proof.
  cbv zeta. intros HC H Hk Hl Hin Hf Ht Fin. pose proof (named_rules (double_laws fused) _ _ _ Hk Hl) as Hp.
  pose proof (dtw_fields (double_laws fused) _ _ _ _ _ _ _ HC H Hp) as F.
  destruct F as [EN [_ [_ [_ [_ [Ea [_ [J _]]]]]]]].
  destruct (closed_form _ _ _ _ _ _ _ _ HC H Hk Hl Hin Hf Ht) as [e [He [Hcond [G1 [G2 G3]]]]].
  destruct (acc_main fused e l _ _ _ _ _ _ HC H Hp G1 G2 G3 Hcond Fin) as [E1 [HE1 _]].
  apply (least_column _ _ _ _ _ (fun i v => (v / INR (path_length (hint (r_stepPattern d)) (nr lm) i))%R)). eauto.
Qed.
End Thm.
