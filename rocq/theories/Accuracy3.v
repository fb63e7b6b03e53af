(** Accuracy3.v - accuracy of the distance returned by dtw() in binary64 (proofs). *)
From Coq Require Import ZifyBool ZifyNat Reals Lra Psatz Lia Classical.
From Flocq Require Import Core BinarySingleNaN.
From Verif Require Import Base Num NumF NumFLaws StepPattern Window Core Backtrack Dtw Spec Api Tables Vocab Terms
  DPProof DtwProof ApiThms Thm2 Thm9 Derived Laws2 Exact Accuracy Accuracy2.
Open Scope string_scope.
Open Scope list_scope.
Open Scope nat_scope.
Local Arguments bpow : simpl never.

Lemma double_F : double false = NumF. Proof. reflexivity. Qed.
Lemma double_FMA : double true = NumFMA. Proof. reflexivity. Qed.
Lemma double_laws (fused : bool) : NumLaws (double fused).
Proof. destruct fused; [exact NumFMA_laws|exact NumF_laws]. Qed.
Lemma double_ok (fused : bool) : Mok (if fused then macFMA else macF).
Proof. destruct fused; [exact macFMA_ok|exact macF_ok]. Qed.

Lemma u_val : u53 = (/ 2 ^ 53)%R.
Proof. unfold u53. cbn -[pow]. unfold bpow. f_equal. rewrite pow_IZR. f_equal. Qed.

(** ** A least exact cost exists *)
Section Finite.
Variable l : list wrule.
Variable rc : nat -> nat -> R.
Variable n m : nat.
Variable source : nat -> nat -> option R.
Variable allowed : nat -> nat -> Prop.
Hypothesis Hv : forallb wvalid l = true.

Lemma real_walk_bound ks q c : real_walk l rc n m source allowed ks q c ->
  List.length ks <= fst q + snd q /\ fst q < n /\ snd q < m.
Proof.
  intros W. induction W as [i j c H Hi Hj | ks i0 j0 x k w W [IH _] Hk Hi Hj Ha]; cbn [fst snd] in *.
  - cbn. lia.
  - rewrite app_length. cbn [List.length].
    pose proof (nth_error_In _ _ Hk) as Hin. rewrite forallb_forall in Hv. specialize (Hv w Hin). unfold wvalid in Hv. lia.
Qed.

Definition next (pc : point * R) : list (point * R) :=
  map (fun w => ((fst (fst pc) + w_di w, snd (fst pc) + w_dj w),
                 real_charge rc w (fst (fst pc) + w_di w) (snd (fst pc) + w_dj w) (snd pc))) l.

Lemma walks_listed K : exists L, forall ks q c, real_walk l rc n m source allowed ks q c -> List.length ks = K -> In (q, c) L.
Proof.
  induction K as [|K [L IH]].
  - exists (flat_map (fun i => flat_map (fun j => match source i j with Some c => [((i, j), c)] | None => [] end) (seq 0 m)) (seq 0 n)).
    intros ks q c W E. destruct W as [i j c H Hi Hj | ks i0 j0 x k w W Hk Hi Hj Ha].
    + apply in_flat_map. exists i. split; [apply in_seq; lia|]. apply in_flat_map. exists j. split; [apply in_seq; lia|].
      rewrite H. left. reflexivity.
    + rewrite app_length in E. cbn in E. lia.
  - exists (flat_map next L). intros ks q c W E. destruct W as [i j c H Hi Hj | ks i0 j0 x k w W Hk Hi Hj Ha]; [discriminate E|].
    rewrite app_length in E. cbn [List.length] in E. apply in_flat_map. exists ((i0, j0), x). split.
    + apply (IH ks); [exact W|lia].
    + unfold next. cbn [fst snd]. apply in_map_iff. exists w. split; [reflexivity|]. eapply nth_error_In. exact Hk.
Qed.

Lemma all_listed K : exists L, forall ks q c, real_walk l rc n m source allowed ks q c -> List.length ks <= K -> In (q, c) L.
Proof.
  induction K as [|K [L IH]].
  - destruct (walks_listed 0) as [L H]. exists L. intros ks q c W E. apply (H ks); [exact W|lia].
  - destruct (walks_listed (S K)) as [L' H]. exists (L ++ L'). intros ks q c W E. apply in_or_app.
    destruct (Nat.eq_dec (List.length ks) (S K)) as [E'|E']; [right; apply (H ks); assumption|left; apply (IH ks); [assumption|lia]].
Qed.

Lemma min_listed {A} (P : A -> Prop) (f : A -> R) L : (exists x, In x L /\ P x) ->
  exists x, In x L /\ P x /\ forall y, In y L -> P y -> (f x <= f y)%R.
Proof.
  induction L as [|a L IH]; intros [x [Hx Px]]; [destruct Hx|].
  destruct (classic (exists x, In x L /\ P x)) as [Q|Q].
  - destruct (IH Q) as [z [Hz [Pz Mz]]]. destruct (classic (P a)) as [Pa|Pa].
    + destruct (Rle_or_lt (f a) (f z)) as [C|C].
      * exists a. split; [left; reflexivity|]. split; [exact Pa|]. intros y [<-|Hy] Py; [apply Rle_refl|].
        eapply Rle_trans; [exact C|]. apply Mz; assumption.
      * exists z. split; [right; exact Hz|]. split; [exact Pz|]. intros y [<-|Hy] Py; [apply Rlt_le; exact C|]. apply Mz; assumption.
    + exists z. split; [right; exact Hz|]. split; [exact Pz|]. intros y [<-|Hy] Py; [contradiction|]. apply Mz; assumption.
  - destruct Hx as [<-|Hx]; [|exfalso; apply Q; eauto].
    exists a. split; [left; reflexivity|]. split; [exact Px|]. intros y [<-|Hy] Py; [apply Rle_refl|]. exfalso; apply Q; eauto.
Qed.

Lemma least_real q : (exists ks c, real_walk l rc n m source allowed ks q c) ->
  exists E, (exists ks, real_walk l rc n m source allowed ks q E) /\
    forall ks c, real_walk l rc n m source allowed ks q c -> (E <= c)%R.
Proof.
  intros [ks [c W]]. destruct (all_listed (fst q + snd q)) as [L HL].
  destruct (min_listed (fun pc => exists ks, real_walk l rc n m source allowed ks (fst pc) (snd pc) /\ fst pc = q) snd L)
    as [[q' E] [_ [[ks' [W' Eq]] ME]]].
  - exists (q, c). split; [apply (HL ks); [exact W|apply (real_walk_bound _ _ _ W)]|]. exists ks. split; [exact W|reflexivity].
  - cbn [fst snd] in *. subst q'. exists E. split; [exists ks'; exact W'|].
    intros ks2 c2 W2. apply (ME (q, c2)).
    + apply (HL ks2); [exact W2|apply (real_walk_bound _ _ _ W2)].
    + exists ks2. split; [exact W2|reflexivity].
Qed.
End Finite.

Section Thm.
Variable fused : bool.
Notation N := (double fused).

Lemma tiny_val : bpow radix2 (-1020) = (/ 2 ^ 1020)%R.
Proof. unfold bpow. f_equal. rewrite pow_IZR. f_equal. Qed.

Definition cond (e : nat) (lm : mat N) : Prop := costs_fine lm /\ (e = 2 -> costs_not_tiny lm).

(** The two kinds of walk, and how their costs relate. *)
Lemma walks_agree e l (lm : mat N) w kw ob q : forallb wshort l = true -> weights_ok e l ->
  wf_mat lm -> cond e lm ->
  (forall ks vs ts c, admissible ob (productions l) lm w kw ks vs ts q c ->
     exists r, exact_walk value ob l lm w kw ks q r /\ approx (fst q + snd q + e) c r) /\
  (forall ks r, exact_walk value ob l lm w kw ks q r ->
     exists vs ts c, admissible ob (productions l) lm w kw ks vs ts q c /\ approx (fst q + snd q + e) c r).
Proof.
  intros Hs Hw Wf [Hf Ht]. pose proof (double_ok fused) as HM.
  unfold admissible, exact_walk. destruct ob.
  - unfold open_walk.
    assert (HC : forall i j, i < nr lm + 1 -> j < nc lm ->
       is_finite (cell (padded lm) i j : f64) = true /\
       (match i with 0 => 0 | S i' => value (cell lm i' j) end)%R = B2R (cell (padded lm) i j : f64) /\
       (0 <= match i with 0 => 0 | S i' => value (cell lm i' j) end)%R /\
       (e = 2 -> not_tiny (match i with 0 => 0 | S i' => value (cell lm i' j) end)%R)).
    { intros i j Hi Hj. rewrite (padded_cell lm i j Wf Hi Hj). destruct i as [|i]; cbn [Nat.eqb].
      - change (@ofZ N 0) with (f_ofZ 0). rewrite ofZ_B2R by lia. split; [apply ofZ_fin; lia|].
        split; [reflexivity|]. split; [lra|]. intros _. left. reflexivity.
      - replace (S i - 1) with i by lia. destruct (Hf i j ltac:(lia) Hj) as [F P].
        split; [exact F|]. split; [reflexivity|]. split; [exact P|]. intros He. unfold not_tiny. rewrite tiny_val. apply (Ht He); lia. }
    assert (HS : forall i j (c : N), open_source i j = Some c -> i < nr lm + 1 -> j < nc lm ->
       is_finite (c : f64) = true /\ (0 <= B2R (c : f64))%R).
    { intros i j c H _ _. unfold open_source in H. destruct (i =? 0); [|discriminate]. assert (c = ofZ 0) as -> by congruence.
      change (@ofZ N 0) with (f_ofZ 0). rewrite ofZ_B2R by lia. split; [apply ofZ_fin; lia|lra]. }
    assert (HSR : forall i j r, i < nr lm + 1 -> j < nc lm ->
       ((if i =? 0 then Some 0%R else None) = Some r <-> exists c : N, open_source i j = Some c /\ r = B2R (c : f64))).
    { intros i j r _ _. unfold open_source. destruct (i =? 0).
      - assert (E0 : B2R (@ofZ N 0 : f64) = 0%R) by (change (@ofZ N 0) with (f_ofZ 0); apply ofZ_B2R; lia). split.
        + intros H. injection H as <-. exists (ofZ 0). split; [reflexivity|]. symmetry. exact E0.
        + intros [c [H ->]]. assert (c = ofZ 0) as -> by congruence. rewrite E0. reflexivity.
      - split; [discriminate|]. intros [c [H _]]. discriminate. }
    split.
    + intros ks vs ts c W. eapply (walk_real _ HM l e Hs Hw _ _ _ _ HC _ _ HS HSR). exact W.
    + intros ks r W. eapply (real_walk_float _ HM l e Hs Hw _ _ _ _ HC _ _ HS HSR). exact W.
  - unfold closed_walk.
    assert (HC : forall i j, i < nr lm -> j < nc lm ->
       is_finite (cell lm i j : f64) = true /\ value (cell lm i j) = B2R (cell lm i j : f64) /\
       (0 <= value (cell lm i j))%R /\ (e = 2 -> not_tiny (value (cell lm i j)))).
    { intros i j Hi Hj. destruct (Hf i j Hi Hj) as [F P].
      split; [exact F|]. split; [reflexivity|]. split; [exact P|]. intros He. unfold not_tiny. rewrite tiny_val. apply (Ht He); lia. }
    assert (HS : forall i j (c : N), closed_source lm i j = Some c -> i < nr lm -> j < nc lm ->
       is_finite (c : f64) = true /\ (0 <= B2R (c : f64))%R).
    { intros i j c H Hi Hj. unfold closed_source in H. destruct ((i =? 0) && (j =? 0)) eqn:E; [|discriminate]. injection H as <-.
      destruct (Hf 0 0 ltac:(lia) ltac:(lia)) as [F P]. split; assumption. }
    assert (HSR : forall i j r, i < nr lm -> j < nc lm ->
       ((if (i =? 0) && (j =? 0) then Some (value (cell lm 0 0)) else None) = Some r <->
        exists c : N, closed_source lm i j = Some c /\ r = B2R (c : f64))).
    { intros i j r _ _. unfold closed_source. destruct ((i =? 0) && (j =? 0)).
      - split.
        + intros H. injection H as <-. eexists. split; reflexivity.
        + intros [c [H ->]]. injection H as <-. reflexivity.
      - split; [discriminate|]. intros [c [H _]]. discriminate. }
    split.
    + intros ks vs ts c W. eapply (walk_real _ HM l e Hs Hw _ _ _ _ HC _ _ HS HSR). exact W.
    + intros ks r W. eapply (real_walk_float _ HM l e Hs Hw _ _ _ _ HC _ _ HS HSR). exact W.
Qed.

Lemma abs_bound k D E : (0 <= E)%R -> ((1 - u53) ^ k * E <= D <= (1 + u53) ^ k * E)%R ->
  (Rabs (D - E) <= ((1 + u53) ^ k - 1) * E)%R.
Proof.
  intros HE [H1 H2]. pose proof (pow_both k) as B. apply Rabs_le. split; [|lra].
  assert ((1 - (1 - u53) ^ k) * E <= ((1 + u53) ^ k - 1) * E)%R by (apply Rmult_le_compat_r; lra). lra.
Qed.

Lemma acc_main e l cdist x y o (lm : mat N) d : costs_of cdist x y lm ->
  dtw cdist x y o = Ok d -> pattern_rules (r_stepPattern d) (productions l) ->
  forallb wshort l = true -> weights_ok e l -> forallb wvalid l = true -> cond e lm ->
  is_finite (r_distance d : f64) = true ->
  let ob := o_open_begin o in
  let q := exact_end ob lm (r_jmin d) in
  exists E, least_exact value ob l lm (r_windowFunction d) (r_windowArgs d) (r_jmin d) E /\
    (0 <= E)%R /\
    ((1 - u53) ^ (fst q + snd q + e) * E <= value (r_distance d) <= (1 + u53) ^ (fst q + snd q + e) * E)%R /\
    (forall ks vs ts, admissible ob (productions l) lm (r_windowFunction d) (r_windowArgs d) ks vs ts q (r_distance d) ->
       exists R, exact_walk value ob l lm (r_windowFunction d) (r_windowArgs d) ks q R /\ (E <= R)%R /\
         ((1 - u53) ^ (fst q + snd q + e) * R <= value (r_distance d) <= (1 + u53) ^ (fst q + snd q + e) * R)%R).
Proof.
  intros HC H Hp Hs Hw Hv Hcond Fin ob q.
  assert (Wf : wf_mat lm) by (destruct HC; assumption).
  destruct (dtw_best (double_laws fused) _ _ _ _ _ _ _ HC H Hp) as [[ks [vs [ts [W U]]]] B].
  destruct (walks_agree e l lm (r_windowFunction d) (r_windowArgs d) ob q Hs Hw Wf Hcond) as [A1 A2].
  change (end_cell (o_open_begin o) lm (r_jmin d)) with q in W, B. change (o_open_begin o) with ob in W, B.
  destruct (A1 _ _ _ _ W) as [r [RW Ar]].
  assert (LE : exists E, least_exact value ob l lm (r_windowFunction d) (r_windowArgs d) (r_jmin d) E).
  { unfold least_exact. change (exact_end ob lm (r_jmin d)) with q.
    clear - RW Hv. unfold exact_walk in *. destruct ob; apply least_real; eauto. }
  destruct LE as [E [[ksE WE] ME]]. exists E. split; [split; [exists ksE; exact WE|exact ME]|].
  change (exact_end ob lm (r_jmin d)) with q in WE, ME.
  destruct (A2 _ _ WE) as [vs' [ts' [c [W' [Nc [PE [Pc [Uc Lc]]]]]]]].
  split; [exact PE|].
  assert (Al : forall ks vs ts, admissible ob (productions l) lm (r_windowFunction d) (r_windowArgs d) ks vs ts q (r_distance d) ->
       exists R, exact_walk value ob l lm (r_windowFunction d) (r_windowArgs d) ks q R /\ (E <= R)%R /\
         ((1 - u53) ^ (fst q + snd q + e) * R <= value (r_distance d) <= (1 + u53) ^ (fst q + snd q + e) * R)%R).
  { intros ks1 vs1 ts1 W1. destruct (A1 _ _ _ _ W1) as [R1 [RW1 [_ [_ [_ [U1 L1]]]]]]. exists R1.
    split; [exact RW1|]. split; [apply (ME _ _ RW1)|]. specialize (L1 Fin). rewrite X_fin in L1, U1 by exact Fin.
    split; [exact L1|exact U1]. }
  split; [|exact Al].
  destruct Ar as [Nr [Pr [_ [_ Lr]]]]. specialize (Lr Fin). specialize (ME _ _ RW).
  change (value (r_distance d)) with (B2R (r_distance d : f64)).
  rewrite X_fin in Lr by exact Fin. split.
  - eapply Rle_trans; [|exact Lr]. apply Rmult_le_compat_l; [|exact ME].
    destruct (pow_lo (fst q + snd q + e)); lra.
  - destruct (nonneg_cases c Nc Pc) as [Fc| Ec].
    + assert (Uc' : usable ksE (c : N)).
      { split; [exact Nc|]. intros _. apply goodf_cases. left. exact Fc. }
      pose proof (B _ _ _ _ W' Uc') as Le. apply Bleb_iff in Le as [_ [_ Le]].
      rewrite X_fin in Le by exact Fin. lra.
    + rewrite Ec in Uc. cbn [X] in Uc. pose proof (X_fin_bound _ Fin) as BB'. rewrite X_fin in BB' by exact Fin. lra.
Qed.

(** ** The statements *)
Lemma integer_ok k l : In k integer_weights -> lookup k predefined = Some l ->
  forallb wshort l = true /\ weights_ok 0 l /\ forallb wvalid l = true.
Proof.
  intros Hk Hl.
  assert (G : forallb (fun k => match lookup k predefined with
              | Some l => forallb wshort l && forallb (fun r => forallb (fun a => wexact (snd a)) (w_add r)) l && forallb wvalid l
              | None => false end) integer_weights = true) by (vm_compute; reflexivity).
  rewrite forallb_forall in G. specialize (G k Hk). rewrite Hl in G.
  apply andb_prop in G as [G G3]. apply andb_prop in G as [G1 G2]. split; [exact G1|]. split; [|exact G3]. left. auto.
Qed.
Lemma fraction_ok k l : k <> "_symmetricVelichkoZagoruyko" -> lookup k predefined = Some l ->
  forallb wshort l = true /\ weights_ok 2 l /\ forallb wvalid l = true.
Proof.
  intros Hk Hl.
  assert (G : forallb (fun kl => String.eqb (fst kl) "_symmetricVelichkoZagoruyko" ||
              (forallb wshort (snd kl) && forallb (fun r => forallb (fun a => wmid (snd a)) (w_add r)) (snd kl) && forallb wvalid (snd kl)))
              predefined = true) by (vm_compute; reflexivity).
  rewrite forallb_forall in G. specialize (G (k, l) (lookup_In _ _ _ Hl)). cbn [fst snd] in G.
  destruct (String.eqb_spec k "_symmetricVelichkoZagoruyko") as [E|E]; [contradiction|]. cbn [orb] in G.
  apply andb_prop in G as [G G3]. apply andb_prop in G as [G1 G2]. split; [exact G1|]. split; [|exact G3]. right. auto.
Qed.

Theorem accuracy k l cdist x y o (lm : mat N) d : costs_of cdist x y lm -> dtw cdist x y o = Ok d ->
  lookup k pattern_table = Some (r_stepPattern d) -> lookup k predefined = Some l -> In k integer_weights ->
  o_open_begin o = false -> o_open_end o = false ->
  costs_fine lm -> is_finite (r_distance d : f64) = true ->
  exists E, least_exact value false l lm (r_windowFunction d) (r_windowArgs d) (nc lm - 1) E /\
    (Rabs (value (r_distance d) - E) <= ((1 + / 2 ^ 53) ^ (nr lm + nc lm - 2) - 1) * E)%R.
Proof.
  intros HC H Hk Hl Hin Hb He Hf Fin. pose proof (named_rules (double_laws fused) _ _ _ Hk Hl) as Hp.
  destruct (dtw_fields (double_laws fused) _ _ _ _ _ _ _ HC H Hp) as [_ [_ [_ [_ [_ [_ [_ [J0 [J _]]]]]]]]]. specialize (J He).
  destruct (integer_ok k l Hin Hl) as [G1 [G2 G3]].
  destruct (acc_main 0 l _ _ _ _ _ _ HC H Hp G1 G2 G3) as [E [HE [P [B _]]]]; [split; [exact Hf|discriminate]|exact Fin|].
  rewrite Hb, J in *. exists E. split; [exact HE|]. rewrite <- u_val. cbn [exact_end fst snd] in B.
  replace (nr lm - 1 + (nc lm - 1) + 0) with (nr lm - 1 + (nc lm - 1)) in B by lia.
  apply abs_bound; [exact P|].
  destruct (nr lm) as [|n'] eqn:En.
  - exfalso. destruct HE as [[ks W] _]. unfold exact_walk in W. apply real_walk_bound in W; [|exact G3]. rewrite En in W. lia.
  - replace (S n' + nc lm - 2) with (S n' - 1 + (nc lm - 1)) by lia. exact B.
Qed.

Theorem accuracy_fractions k l cdist x y o (lm : mat N) d : costs_of cdist x y lm -> dtw cdist x y o = Ok d ->
  lookup k pattern_table = Some (r_stepPattern d) -> lookup k predefined = Some l -> k <> "_symmetricVelichkoZagoruyko" ->
  o_open_begin o = false -> o_open_end o = false ->
  costs_fine lm -> costs_not_tiny lm -> is_finite (r_distance d : f64) = true ->
  exists E, least_exact value false l lm (r_windowFunction d) (r_windowArgs d) (nc lm - 1) E /\
    (Rabs (value (r_distance d) - E) <= ((1 + / 2 ^ 53) ^ (nr lm + nc lm) - 1) * E)%R.
Proof.
  intros HC H Hk Hl Hin Hb He Hf Ht Fin. pose proof (named_rules (double_laws fused) _ _ _ Hk Hl) as Hp.
  destruct (dtw_fields (double_laws fused) _ _ _ _ _ _ _ HC H Hp) as [_ [_ [_ [_ [_ [_ [_ [J0 [J _]]]]]]]]]. specialize (J He).
  destruct (fraction_ok k l Hin Hl) as [G1 [G2 G3]].
  destruct (acc_main 2 l _ _ _ _ _ _ HC H Hp G1 G2 G3) as [E [HE [P [B _]]]]; [split; [exact Hf|intros _; exact Ht]|exact Fin|].
  rewrite Hb, J in *. exists E. split; [exact HE|]. rewrite <- u_val. cbn [exact_end fst snd] in B.
  apply abs_bound; [exact P|].
  destruct (nr lm) as [|n'] eqn:En.
  - exfalso. destruct HE as [[ks W] _]. unfold exact_walk in W. apply real_walk_bound in W; [|exact G3]. rewrite En in W. lia.
  - replace (S n' + nc lm) with (S n' - 1 + (nc lm - 1) + 2) by lia. exact B.
Qed.

Lemma abs_bound_mono j k D E : j <= k -> (0 <= E)%R -> ((1 - u53) ^ j * E <= D <= (1 + u53) ^ j * E)%R ->
  (Rabs (D - E) <= ((1 + u53) ^ k - 1) * E)%R.
Proof.
  intros Hj P B. eapply Rle_trans; [apply abs_bound; eassumption|]. apply Rmult_le_compat_r; [exact P|].
  pose proof (pow_up_mono j k Hj). lra.
Qed.

(** Any combination of open ends: against the best alignment to the same reference column. *)
Theorem accuracy_open k l cdist x y o (lm : mat N) d : costs_of cdist x y lm -> dtw cdist x y o = Ok d ->
  lookup k pattern_table = Some (r_stepPattern d) -> lookup k predefined = Some l -> k <> "_symmetricVelichkoZagoruyko" ->
  costs_fine lm -> (In k integer_weights \/ costs_not_tiny lm) -> is_finite (r_distance d : f64) = true ->
  exists E, least_exact value (o_open_begin o) l lm (r_windowFunction d) (r_windowArgs d) (r_jmin d) E /\
    (Rabs (value (r_distance d) - E) <= ((1 + / 2 ^ 53) ^ (nr lm + r_jmin d + 2) - 1) * E)%R.
Proof.
  intros HC H Hk Hl Hin Hf Ht Fin. pose proof (named_rules (double_laws fused) _ _ _ Hk Hl) as Hp.
  rewrite <- u_val. destruct Ht as [Ht|Ht].
  - destruct (integer_ok k l Ht Hl) as [G1 [G2 G3]].
    destruct (acc_main 0 l _ _ _ _ _ _ HC H Hp G1 G2 G3) as [E [HE [P [B _]]]]; [split; [exact Hf|discriminate]|exact Fin|].
    exists E. split; [exact HE|]. eapply abs_bound_mono; [|exact P|exact B].
    unfold exact_end. destruct (o_open_begin o); cbn [fst snd]; lia.
  - destruct (fraction_ok k l Hin Hl) as [G1 [G2 G3]].
    destruct (acc_main 2 l _ _ _ _ _ _ HC H Hp G1 G2 G3) as [E [HE [P [B _]]]]; [split; [exact Hf|intros _; exact Ht]|exact Fin|].
    exists E. split; [exact HE|]. eapply abs_bound_mono; [|exact P|exact B].
    unfold exact_end. destruct (o_open_begin o); cbn [fst snd]; lia.
Qed.

(** The returned alignment, costed exactly, is nearly optimal, and the reported distance is
    nearly its cost. *)
Theorem accuracy_alignment k l cdist x y o (lm : mat N) d : costs_of cdist x y lm -> dtw cdist x y o = Ok d ->
  lookup k pattern_table = Some (r_stepPattern d) -> lookup k predefined = Some l -> k <> "_symmetricVelichkoZagoruyko" ->
  costs_fine lm -> (In k integer_weights \/ costs_not_tiny lm) -> is_finite (r_distance d : f64) = true ->
  o_distance_only o = false ->
  exists mp ks E R, r_map d = Some mp /\ stepsTaken mp = map Z.of_nat ks /\
    exact_walk value (o_open_begin o) l lm (r_windowFunction d) (r_windowArgs d) ks (exact_end (o_open_begin o) lm (r_jmin d)) R /\
    least_exact value (o_open_begin o) l lm (r_windowFunction d) (r_windowArgs d) (r_jmin d) E /\
    (Rabs (value (r_distance d) - R) <= ((1 + / 2 ^ 53) ^ (nr lm + r_jmin d + 2) - 1) * R)%R /\
    ((1 - / 2 ^ 53) ^ (nr lm + r_jmin d + 2) * R <= (1 + / 2 ^ 53) ^ (nr lm + r_jmin d + 2) * E)%R.
Proof.
  intros HC H Hk Hl Hin Hf Ht Fin Hd. pose proof (named_rules (double_laws fused) _ _ _ Hk Hl) as Hp.
  destruct (dtw_alignment (double_laws fused) _ _ _ _ _ _ _ HC H Hp Hd) as [mp [ks [vs [ts [Em [W [_ [_ De]]]]]]]].
  assert (Es : stepsTaken mp = map Z.of_nat ks).
  { destruct (o_open_begin o); [destruct De as [p0 [vs' [ts' De]]]|]; apply De. }
  rewrite <- u_val.
  assert (G : exists e E R, e <= 2 /\ least_exact value (o_open_begin o) l lm (r_windowFunction d) (r_windowArgs d) (r_jmin d) E /\
     exact_walk value (o_open_begin o) l lm (r_windowFunction d) (r_windowArgs d) ks (exact_end (o_open_begin o) lm (r_jmin d)) R /\
     (0 <= E <= R)%R /\
     let q := exact_end (o_open_begin o) lm (r_jmin d) in
     ((1 - u53) ^ (fst q + snd q + e) * R <= value (r_distance d) <= (1 + u53) ^ (fst q + snd q + e) * R)%R /\
     (value (r_distance d) <= (1 + u53) ^ (fst q + snd q + e) * E)%R).
  { destruct Ht as [Ht|Ht].
    - destruct (integer_ok k l Ht Hl) as [G1 [G2 G3]].
      destruct (acc_main 0 l _ _ _ _ _ _ HC H Hp G1 G2 G3) as [E [HE [P [B A]]]]; [split; [exact Hf|discriminate]|exact Fin|].
      destruct (A _ _ _ W) as [R [RW [HER BR]]]. exists 0, E, R. split; [lia|]. split; [exact HE|]. split; [exact RW|].
      split; [lra|]. split; [exact BR|apply B].
    - destruct (fraction_ok k l Hin Hl) as [G1 [G2 G3]].
      destruct (acc_main 2 l _ _ _ _ _ _ HC H Hp G1 G2 G3) as [E [HE [P [B A]]]]; [split; [exact Hf|intros _; exact Ht]|exact Fin|].
      destruct (A _ _ _ W) as [R [RW [HER BR]]]. exists 2, E, R. split; [lia|]. split; [exact HE|]. split; [exact RW|].
      split; [lra|]. split; [exact BR|apply B]. }
  destruct G as [e [E [R [He [HE [RW [[P0 P1] [B1 B2]]]]]]]]. exists mp, ks, E, R.
  split; [exact Em|]. split; [exact Es|]. split; [exact RW|]. split; [exact HE|].
  set (q := exact_end (o_open_begin o) lm (r_jmin d)) in *. cbv zeta in B1, B2.
  assert (Hq : fst q + snd q + e <= nr lm + r_jmin d + 2) by (unfold q, exact_end; destruct (o_open_begin o); cbn [fst snd]; lia).
  split.
  - eapply abs_bound_mono; [exact Hq|lra|exact B1].
  - pose proof (pow_lo_mono _ _ Hq). pose proof (pow_up_mono _ _ Hq).
    assert ((1 - u53) ^ (nr lm + r_jmin d + 2) * R <= (1 - u53) ^ (fst q + snd q + e) * R)%R by (apply Rmult_le_compat_r; lra).
    assert ((1 + u53) ^ (fst q + snd q + e) * E <= (1 + u53) ^ (nr lm + r_jmin d + 2) * E)%R by (apply Rmult_le_compat_r; lra).
    lra.
Qed.
End Thm.
