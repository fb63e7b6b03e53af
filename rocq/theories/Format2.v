(** Format2.v - the texts that contain printed numbers (proofs for C85). *)
From Coq Require Import Ascii String ZArith Reals List Bool Lia Lra.
From Flocq Require Import Core BinarySingleNaN.
From Verif Require Import Base Num NumF NumFLaws StepPattern Window Core Backtrack Dtw Spec Api Plot Print PrintSpec Thm20 Thm21 Format FormatSpec FormatThm.
Import ListNotations.
Open Scope string_scope.
Open Scope list_scope.
Open Scope Z_scope.

(** Characters *)
Lemma lacks_append c a b : lacks c (append a b) = lacks c a && lacks c b.
Proof. induction a as [|x a IH]; [reflexivity|]. cbn [append lacks]. rewrite IH. apply andb_assoc. Qed.
Lemma lacks_digits ds : Forall is_digit ds -> lacks "d"%char (digit_text ds) = true.
Proof.
  induction 1 as [|d ds H F IH]; [reflexivity|]. cbn [digit_text lacks]. rewrite IH, andb_true_r.
  apply (digit_cases (fun d => negb (Ascii.eqb (digit_char d) "d"%char) = true) d H); reflexivity.
Qed.
Lemma digits_digits p : forall m, Forall is_digit (digits p m).
Proof.
  induction p as [|p IH]; intros m; [constructor|]. cbn [digits]. apply Forall_app. split; [apply IH|].
  constructor; [unfold is_digit; apply Z.mod_pos_bound; lia|constructor].
Qed.
Lemma strip_digits ds : Forall is_digit ds -> Forall is_digit (strip_zeros ds).
Proof. intros F. destruct (strip_spec ds) as [j E]. rewrite E in F. apply Forall_app in F. apply F. Qed.
Lemma zeros_digits k : Forall is_digit (repeat 0 k).
Proof. apply Forall_forall. intros x Hx. apply repeat_spec in Hx. subst x. unfold is_digit. lia. Qed.
Lemma part_digits k ds : Forall is_digit ds -> Forall is_digit (firstn k ds) /\ Forall is_digit (skipn k ds).
Proof. intros F. rewrite <- (firstn_skipn k ds) in F. apply Forall_app in F. exact F. Qed.
Lemma format_no_d p x : lacks "d"%char (format_g p x) = true.
Proof.
  destruct x as [[]|[]| |s m e H]; try reflexivity. cbn [format_g]. rewrite lacks_append.
  replace (lacks "d"%char (if s then "-" else "")) with true by (destruct s; reflexivity). cbn [andb].
  destruct (if 0 <=? e then significant p (Zpos m * 2 ^ e) 1 else significant p (Zpos m) (2 ^ (- e))) as [a k]. unfold g_text.
  assert (F : Forall is_digit (strip_zeros (digits p a))) by (apply strip_digits, digits_digits).
  set (ds := strip_zeros (digits p a)) in *. clearbody ds.
  destruct ((-4 <=? k) && (k <? Z.of_nat p)).
  - unfold fixed_text. destruct (k <? 0).
    + rewrite lacks_append, lacks_digits; [reflexivity|]. apply Forall_app. split; [apply zeros_digits|exact F].
    + destruct (Nat.leb _ _).
      * apply lacks_digits. apply Forall_app. split; [exact F|apply zeros_digits].
      * rewrite !lacks_append, !lacks_digits; [reflexivity| |]; apply part_digits; exact F.
  - unfold scientific_text, exp_text. rewrite !lacks_append, lacks_digits by (apply part_digits; exact F).
    assert (D : lacks "d"%char (digit_text (if Z.abs k <? 100 then digits 2 (Z.abs k) else digits 3 (Z.abs k))) = true)
      by (apply lacks_digits; destruct (_ <? _); apply digits_digits).
    rewrite D. destruct (k <? 0); destruct (Nat.leb _ _); cbn [andb lacks negb]; rewrite ?lacks_append, ?lacks_digits by (apply part_digits; exact F); reflexivity.
Qed.
Lemma format2_no_d p x : lacks "d"%char (format_2g p x) = true.
Proof. unfold format_2g. destruct (String.length (format_g p x)) as [|[|]]; rewrite ?lacks_append, format_no_d; reflexivity. Qed.

(** Padding hides nothing. *)
Lemma no_blank p x s : (1 <= p)%nat -> format_g p x <> String " " s.
Proof.
  intros Hp E. destruct (is_finite x) eqn:F.
  - destruct (printed_value p x Hp F) as [m [k [R _]]]. rewrite E in R. discriminate R.
  - destruct (printed_special p x F) as [_ [[_ Q]|[[_ Q]|[_ Q]]]]; rewrite Q in E; discriminate E.
Qed.
Lemma format2_inj p x y : (1 <= p)%nat -> format_2g p x = format_2g p y -> format_g p x = format_g p y.
Proof.
  intros Hp. unfold format_2g. destruct (String.length (format_g p x)) as [|[|a]] eqn:Ex; destruct (String.length (format_g p y)) as [|[|b]] eqn:Ey; cbn [append];
    intros E; try (injection E as E; congruence); try congruence;
    try (exfalso; eapply no_blank; [exact Hp|]; first [exact E | symmetry; exact E]).
  - injection E as E. exfalso. eapply no_blank; [exact Hp|]. symmetry. exact E.
  - injection E as E. exfalso. eapply no_blank; [exact Hp|]. exact E.
Qed.
Theorem same_text_weights (w w' : f64) : is_finite w = true -> is_finite w' = true ->
  @same_weight_text NumF (format_2g 2) w w' -> to_digits 2 (B2R w) = to_digits 2 (B2R w').
Proof.
  intros F F' [[E E']|[_ [_ E]]].
  - change (Beqb w (f_ofZ 1) = true) in E. change (Beqb w' (f_ofZ 1) = true) in E'.
    rewrite Beqb_correct in E, E' by (assumption || reflexivity). f_equal.
    destruct (Req_bool_spec (B2R w) (B2R (f_ofZ 1))) as [Q|]; [|discriminate]. destruct (Req_bool_spec (B2R w') (B2R (f_ofZ 1))) as [Q'|]; [|discriminate]. congruence.
  - apply format2_inj in E; [|lia]. eapply reads_unique; [apply printed_value; [lia|exact F]|]. rewrite E. apply printed_value; [lia|exact F'].
Qed.

Lemma bpow_m3 : bpow radix10 (1 - Z.of_nat 4) = (/ 1000)%R.
Proof. reflexivity. Qed.
(** The output of the command line tool *)
Theorem cli_text euclidean (q r : ndarray NumF) sp v show : main2 euclidean q r sp = Ok v ->
  exists (d : DTW NumF) mp sn sd, dtw euclidean q (Some r) (mkOpts (SPName sp) WTNone [] false false false false) = Ok d /\ r_map d = Some mp /\
    main_text show v = ("Normalized distance: " ++ sn ++ nl ++ nl ++ "Distance: " ++ sd ++ nl ++ nl ++
                        "Warping path: " ++ show (index1 mp) (index2 mp) ++ nl ++ nl)%string /\
    (is_finite (r_distance d : f64) = true -> exists u, reads sd u /\ (Rabs (u - B2R (r_distance d : f64)) <= / 2000 * Rabs (B2R (r_distance d : f64)))%R) /\
    (is_finite (r_normalizedDistance d : f64) = true ->
       exists u, reads sn u /\ (Rabs (u - B2R (r_normalizedDistance d : f64)) <= / 2000 * Rabs (B2R (r_normalizedDistance d : f64)))%R) /\
    (is_nan (r_normalizedDistance d : f64) = true -> sn = "nan").
Proof.
  intros H. apply cli_is_api in H. destruct H as [d [mp [E [Em ->]]]].
  exists d, mp, (format_g 4 (r_normalizedDistance d)), (format_g 4 (r_distance d)). split; [exact E|]. split; [exact Em|].
  assert (C : forall x : f64, is_finite x = true -> exists u, reads (format_g 4 x) u /\ (Rabs (u - B2R x) <= / 2000 * Rabs (B2R x))%R).
  { intros x Hx. destruct (printed_close 4 x ltac:(lia) Hx) as [u [R B]]. exists u. split; [exact R|]. rewrite bpow_m3 in B. lra. }
  split; [|split; [apply C|split; [apply C|]]].
  - unfold main_text. rewrite !append_assoc. reflexivity.
  - intros Hn. destruct (r_normalizedDistance d : f64); try discriminate Hn. reflexivity.
Qed.

(** print(step_pattern): two patterns that print alike have the same productions, and weights with the same two digits. *)
Theorem pattern_text_digits (s s' : steppat NumF) rules rules' : pattern_rules s rules -> pattern_rules s' rules' ->
  str_pattern (N := NumF) (format_2g 2) s = str_pattern (N := NumF) (format_2g 2) s' ->
  Forall2 (fun r r' : rule NumF => r_di r = r_di r' /\ r_dj r = r_dj r' /\
     Forall2 (fun a a' : nat * nat * NumF => fst a = fst a' /\
       (is_finite (snd a : f64) = true -> is_finite (snd a' : f64) = true -> to_digits 2 (B2R (snd a : f64)) = to_digits 2 (B2R (snd a' : f64)))) (r_add r) (r_add r')) rules rules' /\
  hint s = hint s'.
Proof.
  intros H H' E. destruct (str_pattern_inj (N := NumF) (format_2g 2) (format2_no_d 2) NumF_laws s s' rules rules' H H' E) as [A B]. split; [|exact B].
  clear - A. induction A as [|r r' l l' W F IH]; constructor; [|exact IH]. destruct W as [W1 [W2 W3]]. split; [exact W1|]. split; [exact W2|].
  clear - W3. induction W3 as [|a a' k k' [Q1 Q2] F IH]; constructor; [|exact IH]. split; [exact Q1|]. intros F1 F2. apply same_text_weights; assumption.
Qed.
