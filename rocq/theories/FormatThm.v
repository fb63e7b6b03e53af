(** FormatThm.v - printed numbers (proofs for C85). *)
From Coq Require Import Ascii String ZArith Reals List Bool Lia Lra Psatz.
From Flocq Require Import Core BinarySingleNaN Relative.
From Verif Require Import Base Num NumF Print Format FormatSpec.
Import ListNotations.
Open Scope string_scope.
Open Scope list_scope.
Open Scope Z_scope.

(** ** Digits *)
Definition dval (a : Z) (ds : list Z) : Z := fold_left (fun a d => 10 * a + d) ds a.
Definition is_digit (d : Z) : Prop := 0 <= d < 10.
Lemma dval_app ds : forall a es, dval a (ds ++ es) = dval (dval a ds) es.
Proof. intros a es. unfold dval. apply fold_left_app. Qed.
Lemma dval_acc ds : forall a, dval a ds = a * 10 ^ Z.of_nat (List.length ds) + dval 0 ds.
Proof.
  induction ds as [|d ds IH]; intros a; [cbn; lia|]. cbn [List.length]. unfold dval in *. cbn [fold_left].
  rewrite IH, (IH (10 * 0 + d)), Nat2Z.inj_succ, Z.pow_succ_r by lia. ring.
Qed.
Lemma dval_zeros k : forall a, dval a (repeat 0 k) = a * 10 ^ Z.of_nat k.
Proof.
  induction k as [|k IH]; intros a; [cbn; lia|]. cbn [repeat]. unfold dval in *. cbn [fold_left]. rewrite IH, Nat2Z.inj_succ, Z.pow_succ_r by lia. ring.
Qed.
Lemma digits_spec p : forall m, 0 <= m < 10 ^ Z.of_nat p ->
  dval 0 (digits p m) = m /\ Forall is_digit (digits p m) /\ List.length (digits p m) = p.
Proof.
  induction p as [|p IH]; intros m Hm; [cbn in *; repeat split; [lia|constructor]|].
  rewrite Nat2Z.inj_succ, Z.pow_succ_r in Hm by lia. cbn [digits].
  destruct (IH (m / 10)) as [A [B C]]; [split; [apply Z.div_pos; lia|apply Z.div_lt_upper_bound; lia]|].
  pose proof (Z.mod_pos_bound m 10 ltac:(lia)) as Q. pose proof (Z.div_mod m 10 ltac:(lia)) as D.
  split; [|split].
  - rewrite dval_app, A. unfold dval. cbn [fold_left]. lia.
  - apply Forall_app. split; [exact B|]. constructor; [exact Q|constructor].
  - rewrite app_length, C. cbn. lia.
Qed.
Lemma strip_spec ds : exists j, ds = strip_zeros ds ++ repeat 0 j.
Proof.
  induction ds as [|d ds [j IH]]; [exists 0%nat; reflexivity|]. cbn [strip_zeros].
  destruct (strip_zeros ds) as [|c l] eqn:E.
  - destruct (d =? 0) eqn:Ed; [apply Z.eqb_eq in Ed; subst d; exists (S j); cbn in *; rewrite <- IH; reflexivity|].
    exists j. cbn in *. rewrite <- IH. reflexivity.
  - exists j. cbn in *. rewrite <- IH. reflexivity.
Qed.

(** ** Reading digits *)
Lemma digit_cases (P : Z -> Prop) d : is_digit d -> P 0 -> P 1 -> P 2 -> P 3 -> P 4 -> P 5 -> P 6 -> P 7 -> P 8 -> P 9 -> P d.
Proof.
  intros H. assert (E : d = 0 \/ d = 1 \/ d = 2 \/ d = 3 \/ d = 4 \/ d = 5 \/ d = 6 \/ d = 7 \/ d = 8 \/ d = 9) by (unfold is_digit in H; lia).
  intuition (subst; assumption).
Qed.
Lemma read_digit d s seen point m k : is_digit d ->
  read_body (String (digit_char d) s) seen point m k = read_body s true point (10 * m + d) (if point then k - 1 else k).
Proof. intros H. apply (digit_cases (fun d => read_body (String (digit_char d) s) seen point m k = read_body s true point (10 * m + d) (if point then k - 1 else k)) d H); reflexivity. Qed.
Lemma read_digits ds : Forall is_digit ds -> forall s seen point m k,
  read_body (append (digit_text ds) s) seen point m k =
  read_body s (seen || negb (Nat.eqb (List.length ds) 0)) point (dval m ds) (if point then k - Z.of_nat (List.length ds) else k).
Proof.
  induction 1 as [|d ds H F IH]; intros s seen point m k.
  - cbn. rewrite orb_false_r. destruct point; [f_equal; lia|reflexivity].
  - cbn [digit_text append]. rewrite read_digit by exact H. rewrite IH. cbn [List.length Nat.eqb negb orb]. rewrite orb_true_r.
    unfold dval. cbn [fold_left]. destruct point; [f_equal; lia|reflexivity].
Qed.
Lemma append_empty s : append s "" = s.
Proof. induction s as [|c s IH]; [reflexivity|]. cbn. rewrite IH. reflexivity. Qed.
Lemma read_digits_end ds seen point m k : Forall is_digit ds -> ds <> [] \/ seen = true ->
  read_body (digit_text ds) seen point m k = Some (dval m ds, if point then k - Z.of_nat (List.length ds) else k).
Proof.
  intros F H. rewrite <- (append_empty (digit_text ds)), read_digits by exact F. cbn [read_body].
  destruct H as [H| ->]; [|reflexivity]. destruct ds; [contradiction|]. rewrite orb_true_r. reflexivity.
Qed.
Lemma append_assoc a b c : append (append a b) c = append a (append b c).
Proof. induction a as [|x a IH]; [reflexivity|]. cbn. rewrite IH. reflexivity. Qed.
Lemma more_digits ds : Forall is_digit ds -> forall a, read_more (digit_text ds) a = Some (dval a ds).
Proof.
  induction 1 as [|d ds H F IH]; intros a; [reflexivity|]. cbn [digit_text read_more].
  replace (char_digit (digit_char d)) with (Some d) by (apply (digit_cases (fun d => Some d = char_digit (digit_char d)) d H); reflexivity).
  rewrite IH. reflexivity.
Qed.
Lemma integer_digits ds : Forall is_digit ds -> ds <> [] -> read_integer (digit_text ds) = Some (dval 0 ds).
Proof. intros F H. destruct ds as [|d ds]; [contradiction|]. unfold read_integer. rewrite <- (more_digits _ F). reflexivity. Qed.
Lemma read_exp_text e : Z.abs e < 1000 -> read_exponent (exp_text e) = Some e.
Proof.
  intros H. unfold exp_text.
  assert (G : read_integer (digit_text (if Z.abs e <? 100 then digits 2 (Z.abs e) else digits 3 (Z.abs e))) = Some (Z.abs e)).
  { destruct (Z.abs e <? 100) eqn:E.
    - apply Z.ltb_lt in E. destruct (digits_spec 2 (Z.abs e)) as [A [B C]]; [cbn; lia|]. rewrite integer_digits; [rewrite A; reflexivity|exact B|]. intros Z0. rewrite Z0 in C. discriminate.
    - destruct (digits_spec 3 (Z.abs e)) as [A [B C]]; [cbn; lia|]. rewrite integer_digits; [rewrite A; reflexivity|exact B|]. intros Z0. rewrite Z0 in C. discriminate. }
  destruct (e <? 0) eqn:E0; cbn [append read_exponent]; rewrite G; cbn [option_map]; f_equal; lia.
Qed.

Lemma read_fixed ds e : Forall is_digit ds -> ds <> [] ->
  exists m k, read_body (fixed_text ds e) false false 0 0 = Some (m, k) /\
    ((k = e + 1 - Z.of_nat (List.length ds) /\ m = dval 0 ds) \/
     (k = 0 /\ 0 <= e + 1 - Z.of_nat (List.length ds) /\ m = dval 0 ds * 10 ^ (e + 1 - Z.of_nat (List.length ds)))).
Proof.
  intros F H. unfold fixed_text. destruct (e <? 0) eqn:E0.
  - eexists _, _. split; [cbn [append]; change (read_body (String "0" (String "." (digit_text (repeat 0 (Z.to_nat (- e - 1)) ++ ds)))) false false 0 0)
      with (read_body (digit_text (repeat 0 (Z.to_nat (- e - 1)) ++ ds)) true true 0 0); apply read_digits_end|].
    + apply Forall_app. split; [|exact F]. apply Forall_forall. intros x Hx. apply repeat_spec in Hx. subst x. unfold is_digit. lia.
    + right. reflexivity.
    + left. rewrite app_length, repeat_length, dval_app, dval_zeros. split; [lia|]. f_equal.
  - destruct (Nat.leb (List.length ds) (Z.to_nat (e + 1))) eqn:E1.
    + apply Nat.leb_le in E1. eexists _, _. split; [apply read_digits_end|].
      * apply Forall_app. split; [exact F|]. apply Forall_forall. intros x Hx. apply repeat_spec in Hx. subst x. unfold is_digit. lia.
      * left. destruct ds; [contradiction|discriminate].
      * right. split; [reflexivity|]. split; [lia|]. rewrite dval_app, dval_zeros. f_equal. f_equal. lia.
    + apply Nat.leb_gt in E1. pose proof (firstn_skipn (Z.to_nat (e + 1)) ds) as FS. rewrite <- FS in F at 1. apply Forall_app in F. destruct F as [F1 F2].
      eexists _, _. split.
      * rewrite read_digits by exact F1. cbn [append]. 
        change (read_body (String "." (digit_text (skipn (Z.to_nat (e + 1)) ds))) ?s false ?m ?k) with (read_body (digit_text (skipn (Z.to_nat (e + 1)) ds)) s true m k).
        apply read_digits_end; [exact F2|]. right. rewrite firstn_length. destruct (Nat.min _ _) eqn:Q; [|reflexivity]. lia.
      * left. rewrite skipn_length. split; [lia|]. rewrite <- dval_app, FS. reflexivity.
Qed.
Lemma read_scientific ds e : Forall is_digit ds -> ds <> [] -> Z.abs e < 1000 ->
  read_body (scientific_text ds e) false false 0 0 = Some (dval 0 ds, e + 1 - Z.of_nat (List.length ds)).
Proof.
  intros F H He. unfold scientific_text. destruct ds as [|d ds]; [contradiction|]. inversion F as [|? ? F1 F2]; subst.
  cbn [firstn skipn digit_text append]. rewrite read_digit by exact F1. destruct ds as [|d2 ds].
  - cbn [List.length Nat.leb append]. change (read_body (String "e" (exp_text e)) true false ?m ?k) with (option_map (fun x => (m, k + x)) (read_exponent (exp_text e))).
    rewrite read_exp_text by exact He. cbn [option_map]. f_equal. unfold dval. cbn [fold_left List.length]. f_equal; lia.
  - replace (Nat.leb (List.length (d :: d2 :: ds)) 1) with false by reflexivity. cbn [append].
    change (read_body (String "." ?s) true false ?m ?k) with (read_body s true true m k).
    rewrite read_digits by exact F2. cbn [orb].
    change (read_body (String "e" (exp_text e)) true true ?m ?k) with (option_map (fun x => (m, k + x)) (read_exponent (exp_text e))).
    rewrite read_exp_text by exact He. cbn [option_map]. f_equal. unfold dval. cbn [fold_left List.length]. f_equal; lia.
Qed.

(** ** Rounding *)
Lemma pow10_bpow k : 0 <= k -> IZR (10 ^ k) = bpow radix10 k.
Proof. intros H. rewrite <- (IZR_Zpower radix10) by exact H. reflexivity. Qed.
Lemma at_least_spec num den e : 0 < num -> 0 < den -> at_least_pow10 num den e = true <-> (bpow radix10 e <= IZR num / IZR den)%R.
Proof.
  intros Hn Hd. apply IZR_lt in Hd as Hd'. apply IZR_lt in Hn as Hn'. unfold at_least_pow10.
  assert (Q : forall u v : R, (0 < v)%R -> (u * v <= IZR num <-> u <= IZR num / v)%R).
  { intros u v Hv. split; intros H.
    - apply Rmult_le_reg_r with v; [exact Hv|]. unfold Rdiv. rewrite Rmult_assoc, Rinv_l by lra. lra.
    - apply Rmult_le_compat_r with (r := v) in H; [|lra]. unfold Rdiv in H. rewrite Rmult_assoc, Rinv_l in H by lra. lra. }
  destruct (0 <=? e) eqn:E.
  - apply Z.leb_le in E. rewrite Z.leb_le, <- Q by exact Hd'. rewrite <- pow10_bpow by exact E. rewrite <- mult_IZR. split; intros H; [apply IZR_le; lia|apply le_IZR in H; lia].
  - apply Z.leb_gt in E. rewrite Z.leb_le, <- Q by exact Hd'.
    assert (B : (bpow radix10 e * bpow radix10 (- e) = 1)%R) by (rewrite <- bpow_plus; replace (e + - e) with 0 by lia; reflexivity).
    pose proof (bpow_gt_0 radix10 (- e)) as P. pose proof (bpow_gt_0 radix10 e) as P'.
    split; intros H.
    + apply IZR_le in H. rewrite mult_IZR, pow10_bpow in H by lia. nra.
    + apply le_IZR. rewrite mult_IZR, pow10_bpow by lia. nra.
Qed.
Lemma leading_spec num den : 0 < num -> 0 < den -> forall fuel e,
  (IZR num / IZR den < bpow radix10 (e + 1))%R -> (bpow radix10 (e - Z.of_nat fuel) <= IZR num / IZR den)%R ->
  let f := leading_exp fuel e num den in e - Z.of_nat fuel <= f <= e /\ (bpow radix10 f <= IZR num / IZR den < bpow radix10 (f + 1))%R.
Proof.
  intros Hn Hd. induction fuel as [|fuel IH]; intros e H1 H2; cbn [leading_exp].
  - replace (e - Z.of_nat 0) with e in * by lia. split; [lia|]. split; assumption.
  - destruct (at_least_pow10 num den e) eqn:E.
    + apply at_least_spec in E; auto. split; [lia|]. split; assumption.
    + assert (L : (IZR num / IZR den < bpow radix10 e)%R).
      { apply Rnot_le_lt. intros C. apply at_least_spec in C; auto. congruence. }
      destruct (IH (e - 1)) as [A B].
      * replace (e - 1 + 1) with e by lia. exact L.
      * replace (e - 1 - Z.of_nat fuel) with (e - Z.of_nat (S fuel)) by lia. exact H2.
      * split; [lia|exact B].
Qed.
Lemma nearest_spec a b : 0 < b -> ZnearestE (IZR a / IZR b) = nearest_even a b.
Proof.
  intros Hb. unfold nearest_even, Znearest. rewrite Zfloor_div by lia. apply IZR_lt in Hb as Hb'.
  assert (E : (IZR a / IZR b - IZR (a / b) = IZR (a mod b) / IZR b)%R).
  { rewrite Z.mod_eq by lia. rewrite minus_IZR, mult_IZR. field. lra. }
  rewrite E. pose proof (Z.mod_pos_bound a b Hb) as Q.
  assert (C : forall u, (IZR u / IZR b < / 2)%R <-> 2 * u < b).
  { intros u. split; intros H.
    - apply lt_IZR. rewrite mult_IZR. apply Rmult_lt_compat_r with (r := IZR b) in H; [|exact Hb']. unfold Rdiv in H. rewrite Rmult_assoc, Rinv_l in H by lra. lra.
    - apply IZR_lt in H. rewrite mult_IZR in H. apply Rmult_lt_reg_r with (IZR b); [exact Hb'|]. unfold Rdiv. rewrite Rmult_assoc, Rinv_l by lra. lra. }
  assert (C' : forall u, (/ 2 < IZR u / IZR b)%R <-> b < 2 * u).
  { intros u. split; intros H.
    - apply lt_IZR. rewrite mult_IZR. apply Rmult_lt_compat_r with (r := IZR b) in H; [|exact Hb']. unfold Rdiv in H. rewrite Rmult_assoc, Rinv_l in H by lra. lra.
    - apply IZR_lt in H. rewrite mult_IZR in H. apply Rmult_lt_reg_r with (IZR b); [exact Hb'|]. unfold Rdiv. rewrite Rmult_assoc, Rinv_l by lra. lra. }
  assert (CE : 2 * (a mod b) >= b -> Zceil (IZR a / IZR b) = a / b + 1).
  { intros H. rewrite Zceil_floor_neq; [rewrite Zfloor_div by lia; reflexivity|]. rewrite Zfloor_div by lia. intros Z0.
    rewrite <- Z0, Rminus_diag_eq in E by reflexivity. assert (0 < IZR (a mod b) / IZR b)%R by (apply Rdiv_lt_0_compat; [apply IZR_lt; lia|exact Hb']). lra. }
  destruct (Rcompare_spec (IZR (a mod b) / IZR b) (/ 2)) as [H|H|H].
  - apply C in H. replace (2 * (a mod b) <? b) with true by (symmetry; apply Z.ltb_lt; exact H). reflexivity.
  - assert (H' : 2 * (a mod b) = b).
    { destruct (Z.lt_total (2 * (a mod b)) b) as [D|[D|D]]; [apply C in D; lra|exact D|apply C' in D; lra]. }
    rewrite H', Z.ltb_irrefl. rewrite CE by lia. destruct (Z.even (a / b)); reflexivity.
  - apply C' in H. replace (2 * (a mod b) <? b) with false by (symmetry; apply Z.ltb_ge; lia).
    replace (b <? 2 * (a mod b)) with true by (symmetry; apply Z.ltb_lt; exact H). apply CE. lia.
Qed.

Lemma significant_spec p num den : (1 <= p)%nat -> 0 < num -> 0 < den ->
  (bpow radix10 (-391) <= IZR num / IZR den < bpow radix10 310)%R ->
  let (m, e) := significant p num den in
  10 ^ (Z.of_nat p - 1) <= m < 10 ^ Z.of_nat p /\ Z.abs e < 1000 /\ to_digits p (IZR num / IZR den) = (IZR m * bpow radix10 (e + 1 - Z.of_nat p))%R.
Proof.
  intros Hp Hn Hd [H1 H2]. set (x := (IZR num / IZR den)%R) in *. unfold significant.
  destruct (leading_spec num den Hn Hd 700 309) as [A B]; [exact H2|exact H1|]. fold x in B.
  set (e := leading_exp 700 309 num den) in *. cbv zeta.
  set (k := Z.of_nat p - 1 - e).
  set (m := if 0 <=? k then nearest_even (num * 10 ^ k) den else nearest_even num (den * 10 ^ (- k))).
  apply IZR_lt in Hd as Hd'. apply IZR_lt in Hn as Hn'.
  assert (Hx : (0 < x)%R) by (apply Rdiv_lt_0_compat; assumption).
  assert (Em : m = ZnearestE (x * bpow radix10 k)).
  { subst m. destruct (0 <=? k) eqn:E.
    - apply Z.leb_le in E. rewrite <- nearest_spec by exact Hd. f_equal. rewrite mult_IZR, pow10_bpow by exact E. subst x. field. lra.
    - apply Z.leb_gt in E. rewrite <- nearest_spec by (apply Z.mul_pos_pos; [exact Hd|apply Z.pow_pos_nonneg; lia]). f_equal. rewrite mult_IZR, pow10_bpow by lia.
      rewrite (bpow_opp radix10 k). pose proof (bpow_gt_0 radix10 k). subst x. field. split; lra. }
  assert (Hmag : (mag radix10 x : Z) = e + 1) by (apply (mag_unique radix10 x (e + 1)); rewrite Rabs_pos_eq by lra; replace (e + 1 - 1) with e by lia; exact B).
  assert (Hr : to_digits p x = (IZR m * bpow radix10 (e + 1 - Z.of_nat p))%R).
  { unfold to_digits, round, scaled_mantissa, cexp. rewrite Hmag. unfold FLX_exp, F2R. cbn [Fnum Fexp]. rewrite Em. replace k with (- (e + 1 - Z.of_nat p)) by (unfold k; lia). reflexivity. }
  assert (Hlo : 10 ^ (Z.of_nat p - 1) <= m).
  { rewrite Em. replace (10 ^ (Z.of_nat p - 1)) with (ZnearestE (IZR (10 ^ (Z.of_nat p - 1)))) by (apply (@Zrnd_IZR ZnearestE (valid_rnd_N _))).
    apply (@Zrnd_le ZnearestE (valid_rnd_N _)). rewrite pow10_bpow by lia. replace (Z.of_nat p - 1) with (e + k) by (unfold k; lia). rewrite bpow_plus.
    apply Rmult_le_compat_r; [apply bpow_ge_0|apply B]. }
  assert (Hhi : m <= 10 ^ Z.of_nat p).
  { rewrite Em. replace (10 ^ Z.of_nat p) with (ZnearestE (IZR (10 ^ Z.of_nat p))) by (apply (@Zrnd_IZR ZnearestE (valid_rnd_N _))).
    apply (@Zrnd_le ZnearestE (valid_rnd_N _)). rewrite pow10_bpow by lia. replace (Z.of_nat p) with (e + 1 + k) by (unfold k; lia). rewrite bpow_plus.
    apply Rmult_le_compat_r; [apply bpow_ge_0|apply Rlt_le, B]. }
  destruct (m =? 10 ^ Z.of_nat p) eqn:E.
  - apply Z.eqb_eq in E. split; [split; [lia|apply Z.pow_lt_mono_r; lia]|]. split; [lia|].
    rewrite Hr, E, !pow10_bpow by lia. rewrite <- !bpow_plus. f_equal. lia.
  - apply Z.eqb_neq in E. split; [lia|]. split; [lia|exact Hr].
Qed.

Lemma g_text_reads p m e : (1 <= p)%nat -> 10 ^ (Z.of_nat p - 1) <= m < 10 ^ Z.of_nat p -> Z.abs e < 1000 ->
  exists a k, read_body (g_text p (m, e)) false false 0 0 = Some (a, k) /\ (IZR a * bpow radix10 k = IZR m * bpow radix10 (e + 1 - Z.of_nat p))%R.
Proof.
  intros Hp Hm He. unfold g_text.
  assert (P0 : 0 < 10 ^ (Z.of_nat p - 1)) by (apply Z.pow_pos_nonneg; lia).
  destruct (digits_spec p m ltac:(lia)) as [A [B C]]. destruct (strip_spec (digits p m)) as [j E].
  set (ds := strip_zeros (digits p m)) in *. 
  assert (F : Forall is_digit ds) by (rewrite E in B; apply Forall_app in B; apply B).
  assert (D : dval 0 ds * 10 ^ Z.of_nat j = m) by (rewrite E, dval_app, dval_zeros in A; exact A).
  assert (Hne : ds <> []) by (intros Z0; rewrite Z0 in D; cbn in D; lia).
  assert (Hl : (List.length ds + j = p)%nat) by (rewrite <- C, E, app_length, repeat_length; lia).
  assert (V : (IZR (dval 0 ds) * bpow radix10 (e + 1 - Z.of_nat (List.length ds)) = IZR m * bpow radix10 (e + 1 - Z.of_nat p))%R).
  { rewrite <- D, mult_IZR, pow10_bpow by lia. rewrite Rmult_assoc, <- bpow_plus. do 2 f_equal. lia. }
  destruct ((-4 <=? e) && (e <? Z.of_nat p)).
  - destruct (read_fixed ds e F Hne) as [a [k [R [[K1 K2]|[K1 [K2 K3]]]]]]; exists a, k; (split; [exact R|]); rewrite <- V.
    + rewrite K1, K2. reflexivity.
    + rewrite K1, K3, mult_IZR, pow10_bpow by lia. cbn [bpow]. ring.
  - rewrite read_scientific by assumption. eexists _, _. split; [reflexivity|exact V].
Qed.

(** ** Doubles *)
Lemma pow2_pow10 : (bpow radix2 1024 <= bpow radix10 310 /\ bpow radix10 (-391) <= bpow radix2 (-1074))%R.
Proof.
  split.
  - rewrite <- (IZR_Zpower radix2), <- (IZR_Zpower radix10) by lia. apply IZR_le. apply Z.leb_le. vm_compute. reflexivity.
  - change (-391) with (- (391)). change (-1074) with (- (1074)). rewrite !bpow_opp. apply Rinv_le; [apply bpow_gt_0|].
    rewrite <- (IZR_Zpower radix2), <- (IZR_Zpower radix10) by lia. apply IZR_le. apply Z.leb_le. vm_compute. reflexivity.
Qed.
Lemma finite_abs s m e H : Rabs (B2R (B754_finite s m e H : f64)) =
  (if 0 <=? e then IZR (Zpos m * 2 ^ e) / IZR 1 else IZR (Zpos m) / IZR (2 ^ (- e)))%R.
Proof.
  cbn [B2R]. rewrite <- F2R_Zabs, abs_cond_Zopp. unfold F2R. cbn [Fnum Fexp]. change (Z.abs (Zpos m)) with (Zpos m).
  destruct (0 <=? e) eqn:E.
  - apply Z.leb_le in E. rewrite mult_IZR. unfold Rdiv. rewrite Rinv_1, Rmult_1_r. f_equal. rewrite <- (IZR_Zpower radix2) by exact E. reflexivity.
  - apply Z.leb_gt in E. unfold Rdiv. f_equal. replace e with (- - e) at 1 by lia. rewrite bpow_opp. f_equal. rewrite <- (IZR_Zpower radix2) by lia. reflexivity.
Qed.
Lemma read_positive s m k : read_body s false false 0 0 = Some (m, k) -> read_number s = Some (m, k).
Proof.
  intros H. destruct s as [|c s]; [exact H|]. destruct (Ascii.ascii_dec c "-"%char) as [->|Hc]; [discriminate H|].
  unfold read_number. destruct c as [[] [] [] [] [] [] [] []]; try exact H; exfalso; apply Hc; reflexivity.
Qed.
Lemma digits_opp p v : to_digits p (- v) = (- to_digits p v)%R.
Proof. unfold to_digits. apply round_NE_opp. Qed.

Theorem printed_value p (x : f64) : (1 <= p)%nat -> is_finite x = true -> reads (format_g p x) (to_digits p (B2R x)).
Proof.
  intros Hp Hf. assert (Pp : Prec_gt_0 (Z.of_nat p)) by (unfold Prec_gt_0; lia).
  destruct x as [s|s| |s m e H]; try discriminate Hf.
  - exists 0, 0. split; [destruct s; reflexivity|]. cbn [B2R]. unfold to_digits. rewrite round_0 by apply valid_rnd_N. ring.
  - pose proof (finite_abs s m e H) as FA. pose proof (abs_B2R_lt_emax 53 1024 (B754_finite s m e H : f64)) as U.
    pose proof (abs_B2R_ge_emin 53 1024 (B754_finite s m e H : f64) eq_refl) as Lo. rewrite FA in U, Lo.
    change (SpecFloat.emin 53 1024) with (-1074) in Lo. destruct pow2_pow10 as [P1 P2].
    assert (G : exists a k, read_body (g_text p (if 0 <=? e then significant p (Zpos m * 2 ^ e) 1 else significant p (Zpos m) (2 ^ (- e)))) false false 0 0 = Some (a, k) /\
              to_digits p (Rabs (B2R (B754_finite s m e H : f64))) = (IZR a * bpow radix10 k)%R).
    { rewrite FA. destruct (0 <=? e) eqn:E.
      - apply Z.leb_le in E. assert (Q : 0 < Zpos m * 2 ^ e) by (apply Z.mul_pos_pos; [lia|apply Z.pow_pos_nonneg; lia]).
        pose proof (significant_spec p (Zpos m * 2 ^ e) 1 Hp Q ltac:(lia) ltac:(split; lra)) as S. destruct (significant p (Zpos m * 2 ^ e) 1) as [a k].
        destruct S as [S1 [S2 S3]]. rewrite S3. destruct (g_text_reads p a k Hp S1 S2) as [b [l [R V]]]. exists b, l. split; [exact R|symmetry; exact V].
      - apply Z.leb_gt in E. assert (Q : 0 < 2 ^ (- e)) by (apply Z.pow_pos_nonneg; lia).
        pose proof (significant_spec p (Zpos m) (2 ^ (- e)) Hp ltac:(lia) Q ltac:(split; lra)) as S. destruct (significant p (Zpos m) (2 ^ (- e))) as [a k].
        destruct S as [S1 [S2 S3]]. rewrite S3. destruct (g_text_reads p a k Hp S1 S2) as [b [l [R V]]]. exists b, l. split; [exact R|symmetry; exact V]. }
    destruct G as [a [k [R V]]]. cbn [format_g]. destruct s.
    + exists (- a), k. split; [cbn [append read_number]; rewrite R; reflexivity|].
      assert (N0 : (B2R (B754_finite true m e H : f64) <= 0)%R) by (cbn [B2R]; apply F2R_le_0; cbn; lia).
      rewrite Rabs_left1, digits_opp in V by exact N0. rewrite opp_IZR. lra.
    + exists a, k. split; [apply read_positive; exact R|].
      assert (N0 : (0 <= B2R (B754_finite false m e H : f64))%R) by (cbn [B2R]; apply F2R_ge_0; cbn; lia).
      rewrite Rabs_pos_eq in V by exact N0. exact V.
Qed.
Theorem printed_special p (x : f64) : is_finite x = false ->
  read_number (format_g p x) = None /\
  ((is_nan x = true /\ format_g p x = "nan") \/ (x = B754_infinity false /\ format_g p x = "inf") \/ (x = B754_infinity true /\ format_g p x = "-inf")).
Proof. destruct x as [|[]| |]; try discriminate; intros _; (split; [reflexivity|]); auto. Qed.

Lemma reads_unique s v v' : reads s v -> reads s v' -> v = v'.
Proof. intros [m [k [E V]]] [m' [k' [E' V']]]. rewrite E in E'. injection E' as <- <-. congruence. Qed.

Theorem printed_close p (x : f64) : (1 <= p)%nat -> is_finite x = true ->
  exists v, reads (format_g p x) v /\ (Rabs (v - B2R x) <= / 2 * bpow radix10 (1 - Z.of_nat p) * Rabs (B2R x))%R.
Proof.
  intros Hp Hf. assert (Pp : Prec_gt_0 (Z.of_nat p)) by (unfold Prec_gt_0; lia).
  exists (to_digits p (B2R x)). split; [apply printed_value; assumption|].
  pose proof (relative_error_N_FLX radix10 (Z.of_nat p) Pp (fun z => negb (Z.even z)) (B2R x)) as Q.
  replace (1 - Z.of_nat p) with (- Z.of_nat p + 1) by lia. exact Q.
Qed.
Theorem printed_order p (x y : f64) v v' : (1 <= p)%nat -> is_finite x = true -> is_finite y = true -> (B2R x <= B2R y)%R ->
  reads (format_g p x) v -> reads (format_g p y) v' -> (v <= v')%R.
Proof.
  intros Hp Hx Hy Hle H H'. assert (Pp : Prec_gt_0 (Z.of_nat p)) by (unfold Prec_gt_0; lia).
  rewrite (reads_unique _ _ _ H (printed_value p x Hp Hx)), (reads_unique _ _ _ H' (printed_value p y Hp Hy)).
  unfold to_digits. apply round_le; [apply FLX_exp_valid; exact Pp|apply valid_rnd_N|exact Hle].
Qed.
Theorem printed_exact p (x : f64) k j : (1 <= p)%nat -> is_finite x = true -> Z.abs k < 10 ^ Z.of_nat p ->
  B2R x = (IZR k * bpow radix10 j)%R -> reads (format_g p x) (B2R x).
Proof.
  intros Hp Hx Hk E. assert (Pp : Prec_gt_0 (Z.of_nat p)) by (unfold Prec_gt_0; lia).
  pose proof (printed_value p x Hp Hx) as V. unfold to_digits in V. rewrite round_generic in V; [exact V|apply valid_rnd_N|].
  apply generic_format_FLX. exists (Float radix10 k j); [exact E|exact Hk].
Qed.
Theorem printed_zero p (x : f64) : (1 <= p)%nat -> is_finite x = true -> reads (format_g p x) 0 -> B2R x = 0%R.
Proof.
  intros Hp Hx H. assert (Pp : Prec_gt_0 (Z.of_nat p)) by (unfold Prec_gt_0; lia).
  pose proof (reads_unique _ _ _ H (printed_value p x Hp Hx)) as E. symmetry in E. unfold to_digits in E.
  eapply eq_0_round_0_FLX; [exact Pp| |exact E]. apply valid_rnd_N.
Qed.
