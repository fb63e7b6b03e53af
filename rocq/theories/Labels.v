(** Labels.v - where StepPattern.plot() puts its labels (proofs for C50). *)
From Coq Require Import QArith Qcanon Reals Lra.
From Flocq Require Import Core BinarySingleNaN.
From Verif Require Import Base Num NumQ NumQLaws NumF NumFLaws StepPattern Spec SeriesSpec Print PrintSpec DPProof Thm21 Thm24 LabelSpec.
Import ListNotations.
Open Scope list_scope.
Open Scope nat_scope.

Section A.
Context {N : Num}.
Definition label_coord (a b : nat) : N := sub (neg (midpoint (ofN a) (ofN b))) (ofZ 0).
Definition label_pos (pq : (nat * nat) * (nat * nat)) : N * N := (label_coord (fst (fst pq)) (fst (snd pq)), label_coord (snd (fst pq)) (snd (snd pq))).
Variable L : NumLaws N.

Lemma draw_labels fmt2 (s : steppat N) rules q r : pattern_rules s rules -> nth_error rules q = Some r ->
  map snd (dr_labels (draw_rule fmt2 s (Z.of_nat (S q)))) = map label_pos (segments (shape r)).
Proof.
  intros Hp Hq. unfold draw_rule. change (@ofZ N (Z.of_nat (S q))) with (@ofN N (S q)).
  rewrite (extract_rule L _ _ _ _ Hp Hq). unfold rule_rows, shape. cbn [dr_labels tl].
  destruct (r_add r) as [|a l] eqn:E; [reflexivity|]. cbn [List.length map Nat.eqb]. clear.
  change (Row (ofN (S q)) (ofN (fst (fst a))) (ofN (snd (fst a))) (snd a)
         :: map (fun a0 => Row (ofN (S q)) (ofN (fst (fst a0))) (ofN (snd (fst a0))) (snd a0)) l) with
      (map (fun a : nat * nat * N => Row (ofN (S q)) (ofN (fst (fst a))) (ofN (snd (fst a))) (snd a)) (a :: l)).
  change (fst a :: map fst l) with (map fst (a :: l)). generalize (a :: l) as rs. clear.
  generalize (ofZ (-1) : N) as w. generalize (r_di r) as di, (r_dj r) as dj. 
  intros di dj w rs. revert di dj w. induction rs as [|b rs IH]; intros di dj w; [reflexivity|].
  cbn [map zip_with segments fst snd c1 c2 c3]. f_equal.
  destruct b as [[bi bj] bw]. cbn [fst snd]. exact (IH bi bj bw).
Qed.
End A.

(** Exactness *)
Open Scope R_scope.
Definition hval (x : f64) (z : Z) : Prop := is_finite x = true /\ B2R x = IZR z / 2.
Lemma rnd_half z : (Z.abs z < 2 ^ 53)%Z -> rnd (IZR z / 2) = IZR z / 2.
Proof.
  intros H. apply round_generic; [apply valid_rnd_round_mode|]. apply (generic_format_FLT radix2 (-1074) 53).
  exists (Float radix2 z (-1)); [|exact H|cbn; lia]. unfold F2R. cbn [Fnum Fexp]. change (bpow radix2 (-1)) with (/ 2). reflexivity.
Qed.
Lemma half_lt_BB z : (Z.abs z < 2 ^ 53)%Z -> Rabs (IZR z / 2) < BB.
Proof.
  intros H. apply Rle_lt_trans with (Rabs (IZR z)); [|apply IZR_lt_BB; lia].
  unfold Rdiv. rewrite Rabs_mult, (Rabs_pos_eq (/ 2)) by lra. pose proof (Rabs_pos (IZR z)). lra.
Qed.
Lemma rounded_hval x v z : is_rounded x v -> v = IZR z / 2 -> (Z.abs z < 2 ^ 53)%Z -> hval x z.
Proof.
  intros [R1 [R2 R3]] -> Hz. rewrite rnd_half in * by exact Hz. assert (F : is_finite x = true) by (apply R3, half_lt_BB, Hz).
  split; [exact F|]. rewrite X_fin in R2 by exact F. rewrite R2. apply clamp_id. apply half_lt_BB, Hz.
Qed.
Lemma sub_rounded (x y : f64) : is_finite x = true -> is_finite y = true -> is_rounded (f_sub x y) (B2R x - B2R y).
Proof.
  intros Hx Hy. replace (f_sub x y) with (f_add x (Bopp y)).
  - replace (B2R x - B2R y) with (B2R x + B2R (Bopp y)) by (rewrite B2R_Bopp; lra). apply add_rounded; [exact Hx|]. rewrite is_finite_Bopp. exact Hy.
  - unfold f_sub, f_add. destruct x as [|[]| |]; destruct y as [|[]| |]; reflexivity.
Qed.
Lemma hval_ofZ z : (Z.abs z <= 2 ^ 53)%Z -> hval (f_ofZ z) (2 * z).
Proof. intros H. split; [apply ofZ_fin, H|]. rewrite ofZ_B2R by exact H. rewrite mult_IZR. lra. Qed.
Lemma hval_add x y a b : hval x a -> hval y b -> (Z.abs (a + b) < 2 ^ 53)%Z -> hval (f_add x y) (a + b).
Proof.
  intros [F1 V1] [F2 V2] H. eapply rounded_hval; [apply add_rounded; assumption| |exact H]. rewrite V1, V2, plus_IZR. lra.
Qed.
Lemma hval_sub x y a b : hval x a -> hval y b -> (Z.abs (a - b) < 2 ^ 53)%Z -> hval (f_sub x y) (a - b).
Proof.
  intros [F1 V1] [F2 V2] H. eapply rounded_hval; [apply sub_rounded; assumption| |exact H]. rewrite V1, V2, minus_IZR. lra.
Qed.
Lemma hval_mul x y a b : hval x a -> hval y (2 * b) -> (Z.abs (a * b) < 2 ^ 53)%Z -> hval (f_mul x y) (a * b).
Proof.
  intros [F1 V1] [F2 V2] H. eapply rounded_hval; [apply mul_rounded; assumption| |exact H]. rewrite V1, V2, !mult_IZR. lra.
Qed.
Lemma hval_opp y b : hval y b -> (Z.abs b < 2 ^ 53)%Z -> hval (f_mul (f_ofZ (-1)) y) (- b).
Proof.
  intros [F2 V2] H. destruct (hval_ofZ (-1) ltac:(lia)) as [F1 V1].
  eapply rounded_hval; [apply mul_rounded; assumption| |lia]. rewrite V1, V2, opp_IZR, mult_IZR. lra.
Qed.
Lemma hval_half : hval (@half NumF) 1.
Proof.
  destruct (hval_ofZ 1 ltac:(lia)) as [F1 V1].
  apply (rounded_hval _ (IZR 1 / IZR 2)%R); [|reflexivity|lia]. change (@half NumF) with (f_div (f_ofZ 1) (f_ofZ 2)).
  replace (IZR 1) with (B2R (f_ofZ 1)) by (rewrite V1, mult_IZR; lra). apply div_int_rounded; [lia|exact F1].
Qed.
Lemma hval_eq x y a : hval x a -> hval y a -> Beqb x y = true.
Proof. intros [F1 V1] [F2 V2]. rewrite Beqb_correct by assumption. rewrite V1, V2. apply Req_bool_true. reflexivity. Qed.
Close Scope R_scope.
Lemma label_Z a b : (0 <= a <= INT_MAX)%Z -> (0 <= b <= INT_MAX)%Z ->
  hval (f_sub (f_mul (f_ofZ (-1)) (f_add (f_mul (@half NumF) (f_ofZ a)) (f_mul (f_sub (f_ofZ 1) (@half NumF)) (f_ofZ b)))) (f_ofZ 0)) (- (a + b)).
Proof.
  unfold INT_MAX. intros Ha Hb. assert (P : (2 ^ 53 = 9007199254740992)%Z) by reflexivity.
  replace (- (a + b))%Z with (- (1 * a + (2 * 1 - 1) * b) - 2 * 0)%Z by lia.
  apply hval_sub; [|apply hval_ofZ; lia|lia]. apply hval_opp; [|lia].
  apply hval_add; [| |lia]; apply hval_mul; try (apply hval_ofZ; lia); try lia; [apply hval_half|].
  apply hval_sub; [apply hval_ofZ; lia|apply hval_half|lia].
Qed.
Lemma label_binary64 a b : (Z.of_nat a <= INT_MAX)%Z -> (Z.of_nat b <= INT_MAX)%Z -> @halfway NumF (label_coord a b) a b.
Proof.
  intros Ha Hb. pose proof (label_Z (Z.of_nat a) (Z.of_nat b) ltac:(lia) ltac:(lia)) as H. unfold INT_MAX in *.
  assert (P : (2 ^ 53 = 9007199254740992)%Z) by reflexivity. apply (hval_eq _ _ (2 * - (Z.of_nat a + Z.of_nat b))); [|apply hval_ofZ; lia].
  replace (2 * - (Z.of_nat a + Z.of_nat b))%Z with (- (Z.of_nat a + Z.of_nat b) + - (Z.of_nat a + Z.of_nat b))%Z by lia.
  apply hval_add; [exact H|exact H|lia].
Qed.
Lemma label_fma a b : (Z.of_nat a <= INT_MAX)%Z -> (Z.of_nat b <= INT_MAX)%Z -> @halfway NumFMA (label_coord a b) a b.
Proof. exact (label_binary64 a b). Qed.
Lemma label_exact a b : @halfway NumQ (label_coord a b) a b.
Proof.
  unfold halfway, label_coord, midpoint, neg, ofN. generalize (Z.of_nat a) (Z.of_nat b). clear. intros a b.
  assert (E : exists h, @half NumQ = XFin h /\ (h + h = qc_ofZ 1)%Qc) by (eexists; split; [reflexivity|]; apply Qc_is_canon; reflexivity).
  destruct E as [h [-> E]].
  change (qc_eqb (qc_ofZ (-1) * (h * qc_ofZ a + (qc_ofZ 1 + - h) * qc_ofZ b) + - qc_ofZ 0 +
                  (qc_ofZ (-1) * (h * qc_ofZ a + (qc_ofZ 1 + - h) * qc_ofZ b) + - qc_ofZ 0)) (qc_ofZ (- (a + b))) = true)%Qc.
  apply qc_eqb_eq. rewrite <- ofZ_opp, <- ofZ_add. change (qc_ofZ 0) with 0%Qc. change (qc_ofZ (-1)) with (Qcopp 1).
  assert (E' : h = (1 - h)%Qc) by (change 1%Qc with (qc_ofZ 1); rewrite <- E; ring). 
  transitivity (- ((h + h) * qc_ofZ a + (qc_ofZ 1 + qc_ofZ 1 - (h + h)) * qc_ofZ b))%Qc; [ring|]. rewrite E. ring_simplify. change (qc_ofZ 1) with 1%Qc. ring.
Qed.
Lemma label_mid {N : Num} (M : modelled N) a b : (Z.of_nat a <= INT_MAX)%Z -> (Z.of_nat b <= INT_MAX)%Z -> @halfway N (label_coord a b) a b.
Proof. destruct M as [-> | [-> | ->]]; intros; [apply label_exact|apply label_binary64|apply label_fma]; assumption. Qed.

Lemma segments_In {A} (l : list A) p q : In (p, q) (segments l) -> In p l /\ In q l.
Proof.
  induction l as [|x l IH]; [intros []|]. destruct l as [|y l]; [intros []|]. cbn [segments]. intros [E|H].
  - injection E as <- <-. split; [left|right; left]; reflexivity.
  - destruct (IH H). split; right; assumption.
Qed.
Lemma shape_fits {N : Num} (rules : list (rule N)) r p : forallb valid_rule rules = true -> fits_int rules -> In r rules -> In p (shape r) ->
  (Z.of_nat (fst p) <= INT_MAX)%Z /\ (Z.of_nat (snd p) <= INT_MAX)%Z.
Proof.
  intros Hv Hf Hr [<-|H].
  - destruct Hf as [_ Hf]. rewrite Forall_forall in Hf. apply Hf. exact Hr.
  - apply in_map_iff in H. destruct H as [a [<- Ha]]. destruct (rule_rows_fits rules r a Hv Hf Hr Ha) as [H1 [H2 _]]. split; assumption.
Qed.
Theorem plot_labels {N : Num} (M : modelled N) fmt2 (s : steppat N) rules : pattern_rules s rules ->
  exists drs dots, plot_pattern fmt2 s = Ok (drs, dots) /\
    Forall2 (fun dr r => Forall2 in_the_middle (dr_labels dr) (segments (shape r))) drs rules.
Proof.
  intros Hp. pose proof (proj1 (modelled_laws _ M)) as L. unfold plot_pattern. rewrite (n_patterns_rules L _ _ Hp). cbn [bind]. rewrite Nat2Z.id.
  do 2 eexists. split; [reflexivity|].
  assert (Hd : forall q r, nth_error rules q = Some r ->
      Forall2 in_the_middle (dr_labels (draw_rule fmt2 s (Z.of_nat (1 + q)))) (segments (shape r))).
  { intros q r Hq. pose proof (draw_labels L fmt2 s rules q r Hp Hq) as E. cbn [Nat.add].
    destruct Hp as [_ [_ [Hv Hf]]]. assert (Hr : In r rules) by (eapply nth_error_In; exact Hq).
    assert (Hs : forall p, In p (shape r) -> (Z.of_nat (fst p) <= INT_MAX)%Z /\ (Z.of_nat (snd p) <= INT_MAX)%Z) by (intros p; apply (shape_fits rules r p); assumption).
    assert (Hg : forall pq, In pq (segments (shape r)) -> (Z.of_nat (fst (fst pq)) <= INT_MAX)%Z /\ (Z.of_nat (snd (fst pq)) <= INT_MAX)%Z /\
        (Z.of_nat (fst (snd pq)) <= INT_MAX)%Z /\ (Z.of_nat (snd (snd pq)) <= INT_MAX)%Z).
    { intros [p p'] H. apply segments_In in H. destruct H as [H1 H2]. destruct (Hs _ H1), (Hs _ H2). cbn [fst snd]. auto. }
    clear - M E Hg. revert E Hg. generalize (dr_labels (draw_rule fmt2 s (Z.of_nat (S q)))) as ls, (segments (shape r)) as sg.
    induction ls as [|l ls IH]; intros [|g sg] E Hg; try discriminate; [constructor|]. cbn [map] in E. injection E as E1 E2.
    constructor; [|apply IH; [exact E2|intros pq H; apply Hg; right; exact H]].
    destruct (Hg g (or_introl eq_refl)) as [G1 [G2 [G3 G4]]]. unfold in_the_middle. rewrite E1. cbn [label_pos fst snd].
    split; apply (label_mid M); assumption. }
  clear Hp. revert Hd. generalize 1. induction rules as [|r rs IH]; intros k Hd; [constructor|].
  cbn [List.length seq map]. constructor.
  - specialize (Hd 0 r eq_refl). rewrite Nat.add_0_r in Hd. exact Hd.
  - apply IH. intros q r' Hq. specialize (Hd (S q) r' Hq). replace (S k + q) with (k + S q) by lia. exact Hd.
Qed.
