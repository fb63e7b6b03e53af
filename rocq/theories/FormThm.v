(** FormThm.v - the layout of printed numbers (proofs for C85). *)
From Coq Require Import Ascii String ZArith Reals List Bool Lia Lra Psatz.
From Flocq Require Import Core BinarySingleNaN Relative.
From Verif Require Import Base Num NumF Print Format FormatSpec FormSpec FormatThm.
Import ListNotations.
Open Scope string_scope.
Open Scope list_scope.
Open Scope Z_scope.

Lemma len_append a b : len (append a b) = len a + len b.
Proof. unfold len. induction a as [|c a IH]; [cbn; lia|]. cbn [append String.length]. lia. Qed.
Lemma len_digits ds : len (digit_text ds) = Z.of_nat (List.length ds).
Proof. unfold len. induction ds as [|d ds IH]; [reflexivity|]. cbn [digit_text String.length List.length]. lia. Qed.
Lemma digit_text_app a b : digit_text (a ++ b) = append (digit_text a) (digit_text b).
Proof. induction a as [|d a IH]; [reflexivity|]. cbn. rewrite IH. reflexivity. Qed.
Lemma digit_text_zeros k : digit_text (repeat 0 k) = zeros k.
Proof. induction k as [|k IH]; [reflexivity|]. cbn. rewrite IH. reflexivity. Qed.

(** No zeros in front or behind. *)
Lemma strip_last ds : strip_zeros ds = [] \/ exists l d, strip_zeros ds = l ++ [d] /\ d <> 0.
Proof.
  induction ds as [|d ds IH]; [left; reflexivity|]. cbn [strip_zeros]. destruct IH as [E|[l [d' [E H]]]].
  - rewrite E. destruct (d =? 0) eqn:Ed; [left; reflexivity|]. right. exists [], d. split; [reflexivity|]. apply Z.eqb_neq, Ed.
  - right. rewrite E. exists (d :: l), d'. split; [|exact H]. destruct l; reflexivity.
Qed.
Lemma digit_not_0 d : is_digit d -> d <> 0 -> digit_char d <> "0"%char.
Proof. intros H. apply (digit_cases (fun d => d <> 0 -> digit_char d <> "0"%char) d H); [congruence|..]; intros _ E; discriminate E. Qed.
Lemma last_text l d : last_char (digit_text (l ++ [d])) = Some (digit_char d).
Proof.
  induction l as [|x l IH]; [reflexivity|]. cbn [app digit_text]. rewrite <- IH. cbn [last_char].
  destruct (digit_text (l ++ [d])) eqn:E; [|reflexivity]. destruct l; discriminate E.
Qed.
Lemma first_text ds : Forall is_digit ds -> (forall d l, ds = d :: l -> d <> 0) -> first_char (digit_text ds) <> Some "0"%char.
Proof.
  intros F H. destruct F as [|d l F1 F2]; [discriminate|]. cbn [digit_text first_char]. intros [= Z0]. apply (digit_not_0 d); [exact F1| |exact Z0]. apply (H d l eq_refl).
Qed.
Lemma digits_first p m d ds : 10 ^ (Z.of_nat p - 1) <= m < 10 ^ Z.of_nat p -> digits p m = d :: ds -> d <> 0.
Proof.
  intros Hm E. destruct (digits_spec p m) as [A [B C]]; [split; [|lia]; pose proof (Z.pow_nonneg 10 (Z.of_nat p - 1)); lia|].
  rewrite E in A, B, C. intros ->. unfold dval in A. cbn [fold_left] in A. change (dval 0 ds = m) in A.
  inversion B as [|? ? B1 B2]; subst. cbn [List.length] in *. replace (Z.of_nat (S (List.length ds)) - 1) with (Z.of_nat (List.length ds)) in Hm by lia.
  assert (U : forall l, Forall is_digit l -> forall a, 0 <= a -> dval a l < (a + 1) * 10 ^ Z.of_nat (List.length l)).
  { clear. induction 1 as [|x l H F IH]; intros a Ha; [cbn; lia|]. unfold dval in *. cbn [fold_left List.length]. unfold is_digit in H.
    specialize (IH (10 * a + x) ltac:(lia)). rewrite Nat2Z.inj_succ, Z.pow_succ_r by lia. pose proof (Z.pow_pos_nonneg 10 (Z.of_nat (List.length l))). nia. }
  specialize (U ds B2 0 ltac:(lia)). lia.
Qed.

Lemma exp_text_exponent e : Z.abs e < 1000 -> exponent e (exp_text e).
Proof.
  intros H. pose proof (read_exp_text e H) as R. unfold exp_text in *.
  exists (digit_text (if Z.abs e <? 100 then digits 2 (Z.abs e) else digits 3 (Z.abs e))). split; [destruct (e <? 0); reflexivity|]. split.
  - destruct (e <? 0) eqn:E; cbn [append read_exponent] in R.
    + destruct (read_integer _) as [z|]; [|discriminate]. cbn [option_map] in R. f_equal. injection R as R. lia.
    + rewrite R. f_equal. lia.
  - rewrite len_digits. destruct (Z.abs e <? 100) eqn:E; [left|right]; rewrite ?(proj2 (proj2 (digits_spec _ _ _))); cbn [digits app List.length]; lia.
Qed.

Lemma layout_scientific p ds e : e < -4 \/ p <= e -> ds <> [] -> Z.abs e < 1000 -> layout p (digit_text ds) e (scientific_text ds e).
Proof.
  intros Q H He. unfold scientific_text. destruct ds as [|d l]; [contradiction|]. destruct l as [|d2 l].
  - cbn [firstn List.length Nat.leb]. change (append (digit_text [d]) (append "" (append "e" (exp_text e)))) with (append (digit_text [d]) (append "e" (exp_text e))).
    apply lay_exp; [exact Q|reflexivity|apply exp_text_exponent, He].
  - replace (Nat.leb (List.length (d :: d2 :: l)) 1) with false by reflexivity.
    change (firstn 1 (d :: d2 :: l)) with [d]. change (skipn 1 (d :: d2 :: l)) with (d2 :: l).
    change (digit_text (d :: d2 :: l)) with (append (digit_text [d]) (digit_text (d2 :: l))).
    rewrite !append_assoc. apply lay_point_exp; [exact Q|reflexivity|discriminate|apply exp_text_exponent, He].
Qed.

Lemma g_layout p m e : (1 <= p)%nat -> 10 ^ (Z.of_nat p - 1) <= m < 10 ^ Z.of_nat p -> Z.abs e < 1000 ->
  exists ds n, significand ds n /\ len ds <= Z.of_nat p /\ layout (Z.of_nat p) ds e (g_text p (m, e)) /\
    (IZR n * bpow radix10 (e + 1 - len ds) = IZR m * bpow radix10 (e + 1 - Z.of_nat p))%R.
Proof.
  intros Hp Hm He.
  assert (P0 : 0 < 10 ^ (Z.of_nat p - 1)) by (apply Z.pow_pos_nonneg; lia).
  destruct (digits_spec p m ltac:(lia)) as [A [B C]]. destruct (strip_spec (digits p m)) as [j E].
  pose proof (strip_last (digits p m)) as SL. pose proof (digits_first p m) as DF. unfold g_text.
  set (ds := strip_zeros (digits p m)) in *. 
  assert (F : Forall is_digit ds) by (rewrite E in B; apply Forall_app in B; apply B).
  assert (D : dval 0 ds * 10 ^ Z.of_nat j = m) by (rewrite E, dval_app, dval_zeros in A; exact A).
  assert (Hne : ds <> []) by (intros Z0; rewrite Z0 in D; cbn in D; lia).
  assert (Hl : (List.length ds + j = p)%nat) by (rewrite <- C, E, app_length, repeat_length; lia).
  exists (digit_text ds), (dval 0 ds). split; [|split; [|split]].
  - split; [apply integer_digits; assumption|]. split.
    + apply first_text; [exact F|]. intros d l Q. apply (DF d (l ++ repeat 0 j) Hm). rewrite E, Q. reflexivity.
    + destruct SL as [SL|[l [d [SL Hd]]]]; [contradiction|]. rewrite SL, last_text. intros [= Z0]. rewrite SL in F. apply Forall_app in F. destruct F as [_ F].
      apply (digit_not_0 d); [exact (Forall_inv F)|exact Hd|exact Z0].
  - rewrite len_digits. lia.
  - destruct ((-4 <=? e) && (e <? Z.of_nat p)) eqn:Q.
    + apply andb_prop in Q. destruct Q as [Q1 Q2]. apply Z.leb_le in Q1. apply Z.ltb_lt in Q2. unfold fixed_text. destruct (e <? 0) eqn:E0.
      * apply Z.ltb_lt in E0. rewrite digit_text_app, digit_text_zeros. apply (lay_small _ (digit_text ds) e). lia.
      * apply Z.ltb_ge in E0. destruct (Nat.leb (List.length ds) (Z.to_nat (e + 1))) eqn:E1.
        -- apply Nat.leb_le in E1. rewrite digit_text_app, digit_text_zeros.
           replace (Z.to_nat (e + 1) - List.length ds)%nat with (Z.to_nat (e + 1 - len (digit_text ds))) by (rewrite len_digits; lia).
           apply lay_whole; [lia|rewrite len_digits; lia].
        -- apply Nat.leb_gt in E1. pose proof (firstn_skipn (Z.to_nat (e + 1)) ds) as FS. rewrite <- FS at 1. rewrite digit_text_app. apply lay_point; [lia| |].
           ++ rewrite len_digits, firstn_length. lia.
           ++ intros Z0. apply (f_equal len) in Z0. rewrite len_digits, skipn_length in Z0. cbn in Z0. lia.
    + assert (Q' : e < -4 \/ Z.of_nat p <= e) by (apply andb_false_iff in Q; destruct Q as [Q|Q]; [apply Z.leb_gt in Q|apply Z.ltb_ge in Q]; lia).
      apply layout_scientific; assumption.
  - rewrite len_digits. rewrite <- D, mult_IZR, pow10_bpow by lia. rewrite Rmult_assoc, <- bpow_plus. do 2 f_equal. lia.
Qed.

(** ** Doubles *)
Lemma format_digits p (x : f64) : (1 <= p)%nat -> is_finite x = true -> B2R x <> 0%R ->
  exists m e, format_g p x = append (if Bsign x then "-" else "") (g_text p (m, e)) /\
    10 ^ (Z.of_nat p - 1) <= m < 10 ^ Z.of_nat p /\ Z.abs e < 1000 /\ to_digits p (Rabs (B2R x)) = (IZR m * bpow radix10 (e + 1 - Z.of_nat p))%R.
Proof.
  intros Hp Hf Hz. destruct x as [s|s| |s m e H]; try discriminate Hf; [exfalso; apply Hz; reflexivity|].
  pose proof (finite_abs s m e H) as FA. pose proof (abs_B2R_lt_emax 53 1024 (B754_finite s m e H : f64)) as U.
  pose proof (abs_B2R_ge_emin 53 1024 (B754_finite s m e H : f64) eq_refl) as Lo. rewrite FA in U, Lo.
  change (SpecFloat.emin 53 1024) with (-1074) in Lo. destruct pow2_pow10 as [P1 P2]. rewrite FA. cbn [format_g Bsign].
  destruct (0 <=? e) eqn:E.
  - apply Z.leb_le in E. assert (Q : 0 < Zpos m * 2 ^ e) by (apply Z.mul_pos_pos; [lia|apply Z.pow_pos_nonneg; lia]).
    pose proof (significant_spec p (Zpos m * 2 ^ e) 1 Hp Q ltac:(lia) ltac:(split; lra)) as S. destruct (significant p (Zpos m * 2 ^ e) 1) as [a k].
    exists a, k. split; [reflexivity|exact S].
  - apply Z.leb_gt in E. assert (Q : 0 < 2 ^ (- e)) by (apply Z.pow_pos_nonneg; lia).
    pose proof (significant_spec p (Zpos m) (2 ^ (- e)) Hp ltac:(lia) Q ltac:(split; lra)) as S. destruct (significant p (Zpos m) (2 ^ (- e))) as [a k].
    exists a, k. split; [reflexivity|exact S].
Qed.
Lemma sign_of (x : f64) : is_finite x = true -> B2R x <> 0%R -> Bsign x = Rlt_bool (B2R x) 0.
Proof.
  intros Hf Hz. destruct x as [s|s| |s m e H]; try discriminate Hf; [exfalso; apply Hz; reflexivity|]. cbn [Bsign B2R].
  symmetry. destruct s; [apply Rlt_bool_true; apply F2R_lt_0; cbn; lia|apply Rlt_bool_false; apply F2R_ge_0; cbn; lia].
Qed.
Lemma to_digits_abs p v : (1 <= p)%nat -> to_digits p (Rabs v) = Rabs (to_digits p v).
Proof.
  intros Hp. assert (Pp : Prec_gt_0 (Z.of_nat p)) by (unfold Prec_gt_0; lia). unfold to_digits. apply round_NE_abs. apply FLX_exp_valid. exact Pp.
Qed.
Theorem printed_layout p (x : f64) : (1 <= p)%nat -> is_finite x = true -> B2R x <> 0%R ->
  exists ds n e t, significand ds n /\ len ds <= Z.of_nat p /\ layout (Z.of_nat p) ds e t /\
    Rabs (to_digits p (B2R x)) = (IZR n * bpow radix10 (e + 1 - len ds))%R /\
    format_g p x = append (if Rlt_bool (B2R x) 0 then "-" else "") t.
Proof.
  intros Hp Hf Hz. destruct (format_digits p x Hp Hf Hz) as [m [e [E [Hm [He V]]]]].
  destruct (g_layout p m e Hp Hm He) as [ds [n [S [L [Ly W]]]]]. exists ds, n, e, (g_text p (m, e)).
  rewrite <- to_digits_abs, V, W, <- sign_of by assumption. auto.
Qed.
Theorem printed_zero_text p (x : f64) : is_finite x = true -> B2R x = 0%R -> format_g p x = if Bsign x then "-0" else "0".
Proof.
  intros Hf Hz. destruct x as [s|s| |s m e H]; try discriminate Hf; [reflexivity|]. exfalso. cbn [B2R] in Hz.
  apply eq_0_F2R in Hz. destruct s; discriminate Hz.
Qed.
Lemma to_digits_0 p : to_digits p 0 = 0%R.
Proof. unfold to_digits. apply round_0. apply valid_rnd_N. Qed.
Lemma to_digits_nonzero p v : (1 <= p)%nat -> v <> 0%R -> to_digits p v <> 0%R.
Proof.
  intros Hp H E. assert (Pp : Prec_gt_0 (Z.of_nat p)) by (unfold Prec_gt_0; lia). apply H. unfold to_digits in E. eapply eq_0_round_0_FLX; [exact Pp| |exact E]. apply valid_rnd_N.
Qed.
Lemma to_digits_sign p v : (1 <= p)%nat -> Rlt_bool (to_digits p v) 0 = Rlt_bool v 0.
Proof.
  intros Hp. assert (Pp : Prec_gt_0 (Z.of_nat p)) by (unfold Prec_gt_0; lia). assert (V : Valid_exp (FLX_exp (Z.of_nat p))) by (apply FLX_exp_valid; exact Pp).
  destruct (Rlt_le_dec v 0) as [H|H].
  - rewrite (Rlt_bool_true v) by exact H. apply Rlt_bool_true. pose proof (to_digits_nonzero p v Hp ltac:(lra)).
    assert (Q : (to_digits p v <= to_digits p 0)%R) by (unfold to_digits; apply round_le; [exact V|apply valid_rnd_N|lra]). rewrite to_digits_0 in Q. lra.
  - rewrite (Rlt_bool_false v) by exact H. apply Rlt_bool_false.
    assert (Q : (to_digits p 0 <= to_digits p v)%R) by (unfold to_digits; apply round_le; [exact V|apply valid_rnd_N|lra]). rewrite to_digits_0 in Q. lra.
Qed.
(** Equal texts: equal roundings (and equal signs of zeros). *)
Theorem printed_same p (x y : f64) : (1 <= p)%nat -> is_finite x = true -> is_finite y = true ->
  format_g p x = format_g p y <-> to_digits p (B2R x) = to_digits p (B2R y) /\ Bsign x = Bsign y.
Proof.
  intros Hp Hx Hy. assert (Pp : Prec_gt_0 (Z.of_nat p)) by (unfold Prec_gt_0; lia). split.
  - intros E. split.
    + apply (reads_unique (format_g p x)); [apply printed_value; assumption|rewrite E; apply printed_value; assumption].
    + assert (EV : to_digits p (B2R x) = to_digits p (B2R y)) by (apply (reads_unique (format_g p x)); [apply printed_value; assumption|rewrite E; apply printed_value; assumption]).
      destruct (Req_dec (B2R x) 0) as [Zx|Nx]; destruct (Req_dec (B2R y) 0) as [Zy|Ny].
      * rewrite !printed_zero_text in E by assumption. destruct (Bsign x), (Bsign y); congruence.
      * exfalso. apply (to_digits_nonzero p _ Hp Ny). rewrite <- EV, Zx. apply to_digits_0.
      * exfalso. apply (to_digits_nonzero p _ Hp Nx). rewrite EV, Zy. apply to_digits_0.
      * rewrite !sign_of by assumption. rewrite <- (to_digits_sign p (B2R x)) by exact Hp. rewrite <- (to_digits_sign p (B2R y)) by exact Hp. rewrite EV. reflexivity.
  - intros [E S]. destruct (Req_dec (B2R x) 0) as [Zx|Nx]; destruct (Req_dec (B2R y) 0) as [Zy|Ny].
    + rewrite !printed_zero_text, S by assumption. reflexivity.
    + exfalso. apply (to_digits_nonzero p _ Hp Ny). rewrite <- E, Zx. apply to_digits_0.
    + exfalso. apply (to_digits_nonzero p _ Hp Nx). rewrite E, Zy. apply to_digits_0.
    + destruct (format_digits p x Hp Hx Nx) as [m [e [-> [Hm [He V]]]]]. destruct (format_digits p y Hp Hy Ny) as [m' [e' [-> [Hm' [He' V']]]]].
      rewrite S. f_equal. rewrite to_digits_abs in V, V' by exact Hp. rewrite E, V' in V. clear - V Hm Hm' Hp.
      assert (M : forall m e, 10 ^ (Z.of_nat p - 1) <= m < 10 ^ Z.of_nat p -> (mag radix10 (IZR m * bpow radix10 (e + 1 - Z.of_nat p)) : Z) = e + 1).
      { clear - Hp. intros m e Hm. apply mag_unique. pose proof (bpow_gt_0 radix10 (e + 1 - Z.of_nat p)) as P. destruct Hm as [H1 H2]. apply IZR_le in H1. apply IZR_lt in H2.
        rewrite pow10_bpow in H1, H2 by lia. pose proof (bpow_gt_0 radix10 (Z.of_nat p - 1)) as P'. rewrite Rabs_pos_eq by (apply Rmult_le_pos; lra).
        split.
        - replace (bpow radix10 (e + 1 - 1)) with (bpow radix10 (Z.of_nat p - 1) * bpow radix10 (e + 1 - Z.of_nat p))%R by (rewrite <- bpow_plus; f_equal; lia). apply Rmult_le_compat_r; lra.
        - replace (bpow radix10 (e + 1)) with (bpow radix10 (Z.of_nat p) * bpow radix10 (e + 1 - Z.of_nat p))%R by (rewrite <- bpow_plus; f_equal; lia). apply Rmult_lt_compat_r; lra. }
      assert (Ee : e = e') by (pose proof (M m e Hm) as A1; pose proof (M m' e' Hm') as A2; rewrite V in A2; lia). subst e'.
      f_equal. f_equal. apply eq_IZR. apply Rmult_eq_reg_r in V; [congruence|]. pose proof (bpow_gt_0 radix10 (e + 1 - Z.of_nat p)). lra.
Qed.

(** ** Width two *)
Theorem printed_width p (x : f64) : exists sp, format_2g p x = append sp (format_g p x) /\ is_spaces sp /\ len (format_2g p x) = Z.max 2 (len (format_g p x)).
Proof.
  unfold format_2g. unfold len. destruct (String.length (format_g p x)) as [|[|n]] eqn:E.
  - exists "  ". split; [reflexivity|]. split; [|cbn [append String.length]; rewrite E; reflexivity].
    intros [|[|k]] c H; cbn in H; congruence.
  - exists " ". split; [reflexivity|]. split; [|cbn [append String.length]; rewrite E; reflexivity].
    intros [|k] c H; cbn in H; congruence.
  - exists "". split; [reflexivity|]. split; [intros k c H; destruct k; discriminate H|]. rewrite E. lia.
Qed.
