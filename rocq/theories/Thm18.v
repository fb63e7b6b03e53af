(** Thm18.v - warpArea() and warp() at the level of dtw() (C34, C36). *)
From Coq Require Import Permutation ZifyBool ZifyNat QArith Qcanon Qcabs.
From Verif Require Import Base Num StepPattern Window Core Backtrack Dtw Spec Api Tables Vocab Terms SumLaws
  CoreProof DtwProof ApiProof WalkGeom ApiThms Thm1 Thm3 Thm10 Derived Warp WarpSpec WarpProof NumQ NumQLaws Laws2 Thm16 Thm17.
Open Scope string_scope.
Open Scope list_scope.
Open Scope nat_scope.

Section Area2.
Context {N : Num} (L : NumLaws N) (L2 : NumLaws2 N).

Lemma ok_size cdist x y o (lm : mat N) d rules : costs_of cdist x y lm ->
  dtw cdist x y o = Ok d -> pattern_rules (r_stepPattern d) rules ->
  0 < nc lm /\ (Z.of_nat (nc lm) * Z.of_nat (nr lm) <= INT_MAX)%Z /\ (o_open_begin o = false -> 0 < nr lm).
Proof.
  intros HC H Hp. destruct (dtw_ok_inv L _ _ _ _ _ _ _ HC H Hp) as [_ [_ [[Sn [Sm Ss]] _]]].
  rewrite <- rows_used_p in *. unfold rows_used in *. destruct (o_open_begin o); split; try assumption; split; try lia; discriminate.
Qed.

(** A non-decreasing index1 going from 0 to N - 1. *)
Theorem area_closed cdist x y o (lm : mat N) d rules : costs_of cdist x y lm ->
  dtw cdist x y o = Ok d -> pattern_rules (r_stepPattern d) rules ->
  o_distance_only o = false -> o_open_begin o = false ->
  exists mp ts, r_map d = Some mp /\ warpArea d = Ok (np_sum ts) /\
    area_terms (index1 mp) (index2 mp) (nr lm) (nc lm) ts.
Proof.
  intros HC H Hp Hd Hb. destruct (ok_size _ _ _ _ _ _ _ HC H Hp) as [Hm [Hsz Hn]]. specialize (Hn Hb).
  destruct (dtw_fields L _ _ _ _ _ _ _ HC H Hp) as [EN [EM _]].
  destruct (monotone_closed L _ _ _ _ _ _ _ HC H Hp Hd Hb) as [mp [Em [Hl [_ [_ [F1 [F2 [_ [_ [L1 [_ [_ [_ [W1 [W2 [_ [_ [M1 [M2 _]]]]]]]]]]]]]]]]]]].
  destruct (area_sum L L2 d mp Em Hl M1 M2 F1) as [ts [E T]]; rewrite ?EN, ?EM in *; try assumption.
  - destruct L1 as [l' ->]. apply in_or_app. right. left. reflexivity.
  - unfold INT_MAX in Hsz. lia.
  - exists mp, ts. auto.
Qed.

Theorem area_row_by_row cdist x y o (lm : mat N) d rules : costs_of cdist x y lm ->
  dtw cdist x y o = Ok d -> pattern_rules (r_stepPattern d) rules ->
  o_distance_only o = false -> 0 < nr lm -> row_by_row rules ->
  exists mp ts, r_map d = Some mp /\ warpArea d = Ok (np_sum ts) /\ List.length ts = nr lm /\
    forall i, i < nr lm -> exists j, nth_error (index2 mp) i = Some j /\
      nth_error ts i = Some (vabs (sub (ofZ j) (diagonal_value (Z.of_nat (nr lm)) (Z.of_nat (nc lm)) (Z.of_nat i)))).
Proof.
  intros HC H Hp Hd Hn Hr. destruct (ok_size _ _ _ _ _ _ _ HC H Hp) as [Hm [Hsz _]].
  destruct (dtw_fields L _ _ _ _ _ _ _ HC H Hp) as [EN [EM _]].
  destruct (row_by_row_closed L _ _ _ _ _ _ _ HC H Hp Hd Hn Hr) as [mp [Em [E1 [_ [_ E4]]]]].
  assert (Q : List.length (index1 mp) = List.length (index2 mp) /\ nondecreasing (index2 mp) /\ within 0 (Z.of_nat (nc lm)) (index2 mp)).
  { destruct (o_open_begin o) eqn:Eb.
    - destruct (monotone_open L _ _ _ _ _ _ _ HC H Hp Eb Hn) as [mp' [Em' K]]. rewrite Em in Em'. injection Em' as <-.
      destruct K as [K1 [_ [_ [_ [_ [_ [_ [K2 [_ [_ [_ [_ [K3 _]]]]]]]]]]]]]. auto.
    - destruct (monotone_closed L _ _ _ _ _ _ _ HC H Hp Hd Eb) as [mp' [Em' K]]. rewrite Em in Em'. injection Em' as <-.
      destruct K as [K1 [_ [_ [_ [_ [_ [_ [_ [_ [_ [_ [_ [W2 [_ [_ [_ [M2 _]]]]]]]]]]]]]]]]]. auto. }
  destruct Q as [Hl [M2 W2]].
  assert (I1 : forall t i, nth_error (index1 mp) t = Some i <-> i = Z.of_nat t /\ t < nr lm).
  { intros t i. rewrite E1, nth_error_map. destruct (nth_error (seq 0 (nr lm)) t) as [u|] eqn:E.
    - assert (t < nr lm) by (rewrite <- (seq_length (nr lm) 0); apply nth_error_Some; congruence).
      apply nth_error_nth with (d := 0) in E. rewrite seq_nth in E by assumption. subst u. cbn.
      split; [intros G; injection G; lia|intros [-> _]; reflexivity].
    - apply nth_error_None in E. rewrite seq_length in E. split; [discriminate|lia]. }
  destruct (area_sum L L2 d mp Em Hl) as [ts [E [T1 T2]]]; rewrite ?EN, ?EM in *; try assumption.
  - intros a b p q Hab Ha Hb. apply I1 in Ha as [-> _]. apply I1 in Hb as [-> _]. lia.
  - apply I1. split; [reflexivity|exact Hn].
  - apply nth_error_In with (nr lm - 1). apply I1. lia.
  - intros z Hz. apply In_nth_error in Hz as [t Ht]. apply I1 in Ht as [-> Ht]. lia.
  - unfold INT_MAX in Hsz. lia.
  - exists mp, ts. split; [exact Em|]. split; [exact E|]. split; [exact T1|].
    intros i Hi. destruct (T2 i Hi) as [v [Cv [_ Ev]]].
    destruct Cv as [[j [[t [Ht [Hj _]]] ->]]|[a [ja [b [jb [[t [Ha [_ [Hb [_ Hlt]]]]] _]]]]]].
    + apply I1 in Ht as [Ht _]. assert (t = i) by lia. subst t. exists j. auto.
    + apply I1 in Ha as [-> _]. apply I1 in Hb as [-> _]. lia.
Qed.

(** warpArea() is never negative (nor NaN). *)
Theorem area_nonneg cdist x y o (lm : mat N) d rules : costs_of cdist x y lm ->
  dtw cdist x y o = Ok d -> pattern_rules (r_stepPattern d) rules ->
  o_distance_only o = false -> o_open_begin o = false ->
  exists a, warpArea d = Ok a /\ leb (ofZ 0) a = true.
Proof.
  intros HC H Hp Hd Hb. destruct (ok_size _ _ _ _ _ _ _ HC H Hp) as [Hm [Hsz _]]. unfold INT_MAX in Hsz.
  destruct (area_closed _ _ _ _ _ _ _ HC H Hp Hd Hb) as [mp [ts [_ [E T]]]].
  exists (np_sum ts). split; [exact E|]. eapply (terms_nonneg L L2); [|  |exact T]; lia.
Qed.

(** The area of the identity alignment is 0. *)
Lemma sum_zeros n : np_sum (repeat (@ofZ N 0) n) = ofZ 0.
Proof.
  assert (E : repeat (@ofZ N 0) n = map (fun k => ofZ (Z.of_nat k)) (repeat 0%nat n))
    by (induction n as [|n IH]; [reflexivity|]; cbn; f_equal; exact IH).
  assert (S0 : list_sum (repeat 0%nat n) = 0%nat) by (clear; unfold list_sum; induction n as [|n IH]; [reflexivity|exact IH]).
  rewrite E, (np_sum_nats L) by (rewrite S0; cbn; lia). rewrite S0. reflexivity.
Qed.
Theorem area_identity cdist x y o (lm : mat N) d rules mp : costs_of cdist x y lm ->
  dtw cdist x y o = Ok d -> pattern_rules (r_stepPattern d) rules ->
  o_distance_only o = false -> o_open_begin o = false -> nr lm = nc lm ->
  r_map d = Some mp -> index2 mp = index1 mp -> index1 mp = map Z.of_nat (seq 0 (nr lm)) ->
  warpArea d = Ok (ofZ 0).
Proof.
  intros HC H Hp Hd Hb Heq Em E2 E1. destruct (ok_size _ _ _ _ _ _ _ HC H Hp) as [Hm [Hsz _]]. unfold INT_MAX in Hsz.
  destruct (area_closed _ _ _ _ _ _ _ HC H Hp Hd Hb) as [mp' [ts [Em' [E [T1 T2]]]]]. rewrite Em in Em'. injection Em' as <-.
  rewrite E. f_equal. replace ts with (repeat (@ofZ N 0) (nr lm)); [apply sum_zeros|].
  assert (I1 : forall t i, nth_error (index1 mp) t = Some i <-> i = Z.of_nat t /\ t < nr lm).
  { intros t i. rewrite E1, nth_error_map. destruct (nth_error (seq 0 (nr lm)) t) as [u|] eqn:G.
    - assert (t < nr lm) by (rewrite <- (seq_length (nr lm) 0); apply nth_error_Some; congruence).
      apply nth_error_nth with (d := 0) in G. rewrite seq_nth in G by assumption. subst u. cbn.
      split; [intros G; injection G; lia|intros [-> _]; reflexivity].
    - apply nth_error_None in G. rewrite seq_length in G. split; [discriminate|lia]. }
  symmetry. apply nth_ext with (d := ofZ 0) (d' := ofZ 0); [rewrite repeat_length; exact T1|].
  intros k Hk. rewrite nth_repeat. rewrite T1 in Hk. destruct (T2 k Hk) as [v [Cv [_ Ev]]].
  apply nth_error_nth with (d := ofZ 0) in Ev. rewrite Ev.
  destruct Cv as [[j [[t [Ht [Hj _]]] ->]]|[a [ja [b [jb [[t [Ha [_ [Hb' [_ Hlt]]]]] _]]]]]].
  - apply I1 in Ht as [Ht _]. assert (t = k) by lia. subst t. rewrite E2 in Hj. apply I1 in Hj as [-> _].
    assert (Hk' : (Z.of_nat (nr lm) <= 2147483647)%Z) by nia.
    assert (ED : @diagonal_value N (Z.of_nat (nr lm)) (Z.of_nat (nc lm)) (Z.of_nat k) = ofZ (Z.of_nat k)).
    { rewrite <- Heq. unfold diagonal_value. destruct (Z.of_nat k =? Z.of_nat (nr lm) - 1)%Z eqn:G1.
      - destruct (Z.of_nat k =? 0)%Z eqn:G2; f_equal; lia.
      - destruct (Z.of_nat (nr lm) =? 1)%Z eqn:G2; [lia|].
        rewrite <- (Z.mul_1_l (Z.of_nat (nr lm) - 1)) at 1.
        rewrite (law_div_exact N L) by lia. rewrite (law_mul_ofZ N L2) by lia. f_equal. lia. }
    rewrite ED. rewrite (law_sub_ofZ N L) by lia. rewrite (law_abs_ofZ N L2) by lia. f_equal. lia.
  - apply I1 in Ha as [-> _]. apply I1 in Hb' as [-> _]. lia.
Qed.

(** distance_only results carry no alignment: warp() and warpArea() raise. *)
Theorem warp_needs_alignment (d : DTW N) ref : r_map d = None ->
  warp d ref = Raise AttributeError /\ warpArea d = Raise AttributeError.
Proof. intros H. unfold warp, warpArea. rewrite H. auto. Qed.

(** Row-by-row patterns: warping the reference gives index2, with open begin too. *)
Lemma matched_seq l n s j k : List.length l = n -> s <= k < s + n -> nth_error l (k - s) = Some j ->
  matched l (map Z.of_nat (seq s n)) (Z.of_nat k) = [j].
Proof.
  revert l s. induction n as [|n IH]; intros [|a l0] s Hln Hs Hj; cbn in Hln; try lia.
  assert (Q : forall n l s, k < s -> matched l (map Z.of_nat (seq s n)) (Z.of_nat k) = []).
  { intros n' l' s' Hs'. apply matched_empty. intros Hin. apply in_map_iff in Hin as [q [E Hq]]. apply in_seq in Hq. lia. }
  cbn [seq map]. unfold matched. cbn [combine filter snd].
  destruct (Z.of_nat s =? Z.of_nat k)%Z eqn:E; cbn [map fst].
  - fold (matched l0 (map Z.of_nat (seq (S s) n)) (Z.of_nat k)). rewrite Q by lia.
    replace (k - s) with 0 in Hj by lia. cbn in Hj. injection Hj as ->. reflexivity.
  - fold (matched l0 (map Z.of_nat (seq (S s) n)) (Z.of_nat k)). apply IH; [lia|lia|].
    replace (k - s) with (S (k - S s)) in Hj by lia. exact Hj.
Qed.
Theorem warp_row_by_row cdist x y o (lm : mat N) d rules : costs_of cdist x y lm ->
  dtw cdist x y o = Ok d -> pattern_rules (r_stepPattern d) rules ->
  o_distance_only o = false -> 0 < nr lm -> row_by_row rules ->
  exists mp, r_map d = Some mp /\ warp d true = Ok (index2 mp).
Proof.
  intros HC H Hp Hd Hn Hr. destruct (ok_size _ _ _ _ _ _ _ HC H Hp) as [Hm [Hsz _]]. unfold INT_MAX in Hsz.
  destruct (row_by_row_closed L _ _ _ _ _ _ _ HC H Hp Hd Hn Hr) as [mp [Em [E1 [_ [_ E4]]]]].
  exists mp. split; [exact Em|].
  assert (W2 : within 0 (Z.of_nat (nc lm)) (index2 mp)).
  { destruct (o_open_begin o) eqn:Eb.
    - destruct (monotone_open L _ _ _ _ _ _ _ HC H Hp Eb Hn) as [mp' [Em' K]]. rewrite Em in Em'. injection Em' as <-.
      destruct K as [K1 [_ [_ [_ [_ [_ [_ [K2 [_ [_ [_ [_ [K3 _]]]]]]]]]]]]]. auto.
    - destruct (monotone_closed L _ _ _ _ _ _ _ HC H Hp Hd Eb) as [mp' [Em' K]]. rewrite Em in Em'. injection Em' as <-.
      destruct K as [K1 [_ [_ [_ [_ [_ [_ [_ [_ [_ [_ [_ [W2 [_ [_ [_ [M2 _]]]]]]]]]]]]]]]]]. auto. }
  assert (L12 : List.length (index1 mp) = List.length (index2 mp)) by (rewrite E1, map_length, seq_length; lia).
  destruct (warp_total L d mp true (Z.of_nat (nr lm) - 1)%Z Em L12) as [l [El [Ll Hk]]].
  - intros z Hz. specialize (W2 z Hz). lia.
  - intros z Hz. cbn in Hz. rewrite E1 in Hz. apply in_map_iff in Hz as [u [<- Hu]]. lia.
  - cbn. split.
    + rewrite E1. apply in_map_iff. exists (nr lm - 1). split; [lia|]. apply in_seq. lia.
    + intros z Hz. rewrite E1 in Hz. apply in_map_iff in Hz as [u [<- Hu]]. apply in_seq in Hu. lia.
  - cbn [source_of]. assert (zsum (index2 mp) <= Z.of_nat (nc lm) * Z.of_nat (List.length (index2 mp)))%Z by (apply zsum_le; intros z Hz; specialize (W2 z Hz); lia).
    rewrite E4 in *. lia.
  - cbn [source_of]. rewrite E4. assert (Z.of_nat (nr lm) <= 2147483647)%Z by nia. lia.
  - rewrite El. f_equal. apply nth_ext with (d := 0%Z) (d' := 0%Z); [lia|].
    intros k Hkl. assert (Hkn : k < nr lm) by lia.
    specialize (Hk k ltac:(lia)). apply nth_error_nth with (d := 0%Z) in Hk. rewrite Hk.
    destruct (nth_error (index2 mp) k) as [j|] eqn:Ej; [|apply nth_error_None in Ej; lia].
    rewrite (nth_error_nth _ _ 0%Z Ej). unfold warp_at. cbn [source_of target_of]. rewrite E1.
    rewrite (matched_seq (index2 mp) (nr lm) 0 j k E4 ltac:(lia)); [|rewrite Nat.sub_0_r; exact Ej].
    unfold mean, zsum. cbn. rewrite Z.div_1_r. lia.
Qed.
(** With an open begin: unmatched indices before the first match get the first source
    index when no source is matched to target 0. *)
Theorem warp_open cdist x y o (lm : mat N) d rules ref : costs_of cdist x y lm ->
  dtw cdist x y o = Ok d -> pattern_rules (r_stepPattern d) rules ->
  o_distance_only o = false -> o_open_begin o = true -> 0 < nr lm -> leaves_row rules -> warp_size_ok lm d ->
  exists mp l, r_map d = Some mp /\ warp d ref = Ok l /\
    List.length l = (if ref then nr lm else r_jmin d + 1) /\
    let src := source_of ref (index1 mp) (index2 mp) in
    let tgt := target_of ref (index1 mp) (index2 mp) in
    forall k, k < List.length l -> exists v, nth_error l k = Some v /\
      (In (Z.of_nat k) tgt -> v = mean (matched src tgt (Z.of_nat k))) /\
      (~ In (Z.of_nat k) tgt -> In 0%Z tgt -> v = INT64_MIN) /\
      (~ In (Z.of_nat k) tgt -> ~ In 0%Z tgt -> first_is v src).
Proof.
  intros HC H Hp Hd Hb Hn Hr Hsz.
  destruct (monotone_open L _ _ _ _ _ _ _ HC H Hp Hb Hn) as [mp [Em [Hl [_ [_ [L1 [L2' [_ [_ [W2 [_ [_ [W1 [M1 [M2 _]]]]]]]]]]]]]]].
  specialize (W1 Hr).
  assert (LM : forall m l, last_is m l -> nondecreasing l -> is_max m l).
  { intros m l [l' ->] Hm. split; [apply in_or_app; right; left; reflexivity|].
    intros z Hz. apply In_nth_error in Hz as [a Ha].
    apply (Hm a (List.length l') z m); [|exact Ha|rewrite nth_error_app2 by lia; rewrite Nat.sub_diag; reflexivity].
    assert (a < List.length (l' ++ [m])) by (apply nth_error_Some; congruence). rewrite app_length in H0. cbn in H0. lia. }
  assert (X1 := LM _ _ L1 M1). assert (X2 := LM _ _ L2' M2). clear LM.
  destruct (alignment_open L _ _ _ _ _ _ _ HC H Hp Hb) as [mp' [ks [j0 [Em' [_ [Es [_ [_ [_ [I1 _]]]]]]]]]].
  rewrite Em in Em'. injection Em' as <-.
  destruct (backtrack_steps L _ _ _ _ _ _ _ HC H Hp Hd) as [mp' [Em' Hst]]. rewrite Em in Em'. injection Em' as <-.
  rewrite Hb in Hst. cbn [rows_used] in Hst. rewrite Es, map_length in Hst.
  assert (Hj : r_jmin d < nc lm) by (destruct X2 as [X _]; specialize (W2 _ X); lia).
  assert (Emx : mx (r_stepPattern d) = table rules) by (destruct Hp as [E _]; exact E).
  assert (Hlen : (Z.of_nat (List.length (index1 mp)) <= (Z.of_nat (List.length (mx (r_stepPattern d))) + 1) * Z.of_nat (nr lm + nc lm))%Z).
  { rewrite I1, map_length. pose proof (replay_length rules ks 0 j0) as G. rewrite Emx.
    assert (List.length ks * List.length (table rules) <= (nr lm + nc lm - 1) * List.length (table rules)) by (apply Nat.mul_le_mono_r; lia).
    nia. }
  unfold warp_size_ok in Hsz.
  set (T := (Z.of_nat (List.length (mx (r_stepPattern d))) + 1)%Z) in *.
  assert (HT : (1 <= T)%Z) by (subst T; lia). set (S := Z.of_nat (nr lm + nc lm)) in *. assert (HS : (2 <= S)%Z) by (subst S; lia).
  assert (Z1 : (zsum (index1 mp) < 2 ^ 53)%Z).
  { assert (zsum (index1 mp) <= S * Z.of_nat (List.length (index1 mp)))%Z by (apply zsum_le; intros z Hz; specialize (W1 z Hz); subst S; lia). nia. }
  assert (Z2 : (zsum (index2 mp) < 2 ^ 53)%Z).
  { assert (zsum (index2 mp) <= S * Z.of_nat (List.length (index2 mp)))%Z by (apply zsum_le; intros z Hz; specialize (W2 z Hz); subst S; lia). rewrite <- Hl in *. nia. }
  assert (Z3 : (Z.of_nat (List.length (index1 mp)) <= 2 ^ 53)%Z) by nia.
  destruct (warp_total L d mp ref (if ref then Z.of_nat (nr lm) - 1 else Z.of_nat (r_jmin d))%Z Em Hl) as [l [El [Ll Hk]]].
  - intros z Hz. destruct ref; [specialize (W2 z Hz)|specialize (W1 z Hz)]; lia.
  - intros z Hz. destruct ref; [specialize (W1 z Hz)|specialize (W2 z Hz)]; lia.
  - destruct ref; assumption.
  - destruct ref; assumption.
  - destruct ref; cbn [source_of]; lia.
  - exists mp, l. split; [exact Em|]. split; [exact El|]. split; [destruct ref; lia|].
    cbn zeta. intros k Hk'. eexists. split; [apply Hk; destruct ref; lia|]. unfold warp_at.
    set (src := source_of ref (index1 mp) (index2 mp)). set (tgt := target_of ref (index1 mp) (index2 mp)).
    assert (Hst' : List.length src = List.length tgt) by (subst src tgt; destruct ref; cbn; lia).
    split; [|split].
    + intros G. pose proof (matched_nonempty src tgt _ Hst' G). destruct (matched src tgt (Z.of_nat k)); [contradiction|reflexivity].
    + intros G G0. rewrite (matched_empty src tgt _ G). pose proof (matched_nonempty src tgt _ Hst' G0).
      destruct (matched src tgt 0); [contradiction|reflexivity].
    + intros G G0. rewrite (matched_empty src tgt _ G), (matched_empty src tgt _ G0).
      assert (src <> []).
      { intros E. destruct ref; subst src; cbn in E; [destruct X2 as [X _]|destruct X1 as [X _]]; rewrite E in X; destruct X. }
      destruct src; [contradiction|reflexivity].
Qed.
End Area2.

(** ** Exact arithmetic *)
Open Scope Qc_scope.

Lemma sub_q a b : (qc_ofZ a - qc_ofZ b)%Qc = qc_ofZ (a - b).
Proof. unfold Qcminus. rewrite ofZ_opp, ofZ_add. reflexivity. Qed.
Lemma div_q a k : (1 <= k)%Z -> xq_div (XFin (qc_ofZ a)) (XFin (qc_ofZ k)) = XFin (qc_ofZ a / qc_ofZ k).
Proof.
  intros Hk. cbn [xq_div]. destruct (qc_eqb (qc_ofZ k) (Q2Qc 0)) eqn:E; [|reflexivity].
  apply qc_eqb_eq in E. change (Q2Qc 0) with (qc_ofZ 0) in E. apply (proj1 (ofZ_inj _ _)) in E. lia.
Qed.
Lemma abs_q q : xq_abs (XFin q) = XFin (Qcabs q).
Proof.
  cbn. destruct (qc_ltb q (Q2Qc 0)) eqn:E; f_equal; symmetry.
  - apply Qcabs_neg. apply Qclt_le_weak. apply qc_ltb_lt. exact E.
  - apply Qcabs_pos. apply qc_ltb_false in E. exact E.
Qed.
Lemma sum_q l : np_sum (map XFin l : list NumQ) = XFin (qc_sum l).
Proof.
  assert (Hs : forall a b, qc_sum (a ++ b) = qc_sum a + qc_sum b).
  { induction a as [|x a IH]; intros b; [change (qc_sum b = 0 + qc_sum b); ring|]. change (x + qc_sum (a ++ b) = x + qc_sum a + qc_sum b).
    rewrite IH. ring. }
  assert (Hp : forall a b, Permutation a b -> qc_sum a = qc_sum b).
  { induction 1 as [|x a b _ IH|x y a|a b c _ IH1 _ IH2]; [reflexivity| | |congruence].
    - change (x + qc_sum a = x + qc_sum b). rewrite IH. reflexivity.
    - change (y + (x + qc_sum a) = x + (y + qc_sum a)). ring. }
  apply (@np_sum_tree NumQ (fun q v => forall qs, Permutation (map XFin qs) q -> v = XFin (qc_sum qs))) with (l := map XFin l).
  - intros qs H. apply Permutation_sym, Permutation_nil in H. apply map_eq_nil in H. subst. reflexivity.
  - intros x qs H. apply Permutation_sym, Permutation_length_1_inv in H.
    destruct qs as [|z [|]]; try discriminate. injection H as <-. change (XFin z = XFin (z + 0)). f_equal. ring.
  - intros l1 l2 v1 v2 H1 H2 qs H.
    apply Permutation_sym, Permutation_map_inv in H as [qs' [E H]]. symmetry in E. apply map_eq_app in E as [a [b [-> [<- <-]]]].
    rewrite (Hp _ _ H), Hs, (H1 a), (H2 b) by reflexivity. reflexivity.
  - intros q1 q2 v HP IH qs H. apply IH. rewrite H. symmetry. exact HP.
  - reflexivity.
Qed.
Lemma diagonal_q n m i : (i < n)%nat -> (1 <= m)%nat -> @diagonal_value NumQ (Z.of_nat n) (Z.of_nat m) (Z.of_nat i) = XFin (diagonal_point n m i).
Proof.
  intros Hi Hm. unfold diagonal_value, diagonal_point. cbn [NumQ ofZ mul div].
  destruct (Z.of_nat i =? Z.of_nat n - 1)%Z eqn:E1.
  - destruct (Z.of_nat i =? 0)%Z eqn:E2.
    + replace (Z.of_nat i) with 0%Z by lia. f_equal. change (qc_ofZ 0) with (Q2Qc 0). ring.
    + f_equal. replace (Z.of_nat i) with (Z.of_nat n - 1)%Z by lia. unfold Qcdiv.
      assert (NZ : qc_ofZ (Z.of_nat n - 1) <> 0).
      { intros G. change (Q2Qc 0) with (qc_ofZ 0) in G. apply (proj1 (ofZ_inj _ _)) in G. lia. }
      field. exact NZ.
  - destruct (Z.of_nat m =? 1)%Z eqn:E2.
    + rewrite div_q by lia. cbn [xq_mul]. f_equal. replace (Z.of_nat m - 1)%Z with 0%Z by lia. change (qc_ofZ 0) with (Q2Qc 0). unfold Qcdiv. ring.
    + rewrite div_q by lia. reflexivity.
Qed.
Lemma curve_q i1 i2 i v : @curve_value NumQ i1 i2 i v -> exists q, v = XFin q /\ curve_point i1 i2 i q.
Proof.
  intros [[j [Hj ->]]|[a [ja [b [jb [Hb ->]]]]]].
  - exists (qc_ofZ j). split; [reflexivity|]. left. exists j. auto.
  - cbn [NumQ ofZ mul div add]. assert (Hlt : (a < i < b)%Z) by (destruct Hb as [t Ht]; apply Ht).
    rewrite div_q by lia. cbn [xq_mul xq_add]. eexists. split; [reflexivity|].
    right. exists a, ja, b, jb. split; [exact Hb|]. rewrite !sub_q. ring.
Qed.

(** Exact arithmetic: the area between the curve and the diagonal. *)
Theorem area_exact cdist x y o (lm : mat NumQ) d rules : costs_of cdist x y lm ->
  dtw cdist x y o = Ok d -> pattern_rules (r_stepPattern d) rules ->
  o_distance_only o = false -> o_open_begin o = false ->
  exists mp qs, r_map d = Some mp /\ List.length qs = nr lm /\
    (forall i q, nth_error qs i = Some q -> curve_point (index1 mp) (index2 mp) (Z.of_nat i) q) /\
    warpArea d = Ok (XFin (qc_sum (map (fun p => Qcabs (snd p - diagonal_point (nr lm) (nc lm) (fst p)))
                                       (combine (seq 0 (nr lm)) qs)))).
Proof.
  intros HC H Hp Hd Hb. destruct (ok_size NumQ_laws _ _ _ _ _ _ _ HC H Hp) as [Hm _].
  destruct (area_closed NumQ_laws NumQ_laws2 _ _ _ _ _ _ _ HC H Hp Hd Hb) as [mp [ts [Em [E [T1 T2]]]]].
  destruct (list_choice (fun i q => curve_point (index1 mp) (index2 mp) (Z.of_nat i) q /\
     nth_error ts i = Some (XFin (Qcabs (q - diagonal_point (nr lm) (nc lm) i)) : NumQ)) (nr lm)) as [qs [Lq Hq]].
  { intros i Hi. destruct (T2 i Hi) as [v [Cv [_ Ev]]]. destruct (curve_q _ _ _ _ Cv) as [q [-> Cq]].
    exists q. split; [exact Cq|]. rewrite Ev. rewrite diagonal_q by lia. cbn [NumQ vabs sub].
    rewrite <- abs_q. reflexivity. }
  exists mp, qs. split; [exact Em|]. split; [exact Lq|]. split.
  - intros i q Hi. assert (i < nr lm)%nat by (rewrite <- Lq; apply nth_error_Some; congruence).
    destruct (Hq i H0) as [q' [E1 [E2 _]]]. rewrite E1 in Hi. injection Hi as <-. exact E2.
  - rewrite E. f_equal. rewrite <- sum_q. f_equal.
    apply nth_ext with (d := XNan) (d' := XNan); [rewrite !map_length, combine_length, seq_length; cbn in *; lia|].
    intros k Hk. assert (Hk' : (k < nr lm)%nat) by (cbn in *; lia). destruct (Hq k Hk') as [q [E1 [_ E3]]].
    apply nth_error_nth with (d := XNan) in E3. cbn in E3. cbn. rewrite E3. symmetry. apply nth_error_nth.
    assert (EC : nth_error (combine (seq 0 (nr lm)) qs) k = Some (k, q)); [|exact (map_nth_error XFin _ _ (map_nth_error (fun p : nat * Qc => Qcabs (snd p - diagonal_point (nr lm) (nc lm) (fst p))) _ _ EC))].
    apply nth_combine. split; [|exact E1].
    rewrite nth_error_nth' with (d := 0%nat) by (rewrite seq_length; exact Hk'). rewrite seq_nth by exact Hk'. reflexivity.
Qed.
