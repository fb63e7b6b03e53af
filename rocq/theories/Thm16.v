(** Thm16.v - warp() on the results of dtw() (C34, C35). *)
From Coq Require Import ZifyBool ZifyNat.
From Verif Require Import Base Num StepPattern Window Core Backtrack Dtw Spec Api Tables Vocab Terms
  CoreProof DtwProof WalkGeom ApiThms Thm1 Thm3 Thm10 Derived Warp WarpSpec WarpProof.
Open Scope string_scope.
Open Scope list_scope.
Open Scope nat_scope.


Section Gapless.
Context {N : Num}.
End Gapless.


(** ** Contiguous lists *)
(** each element is at most one more than the one before *)
Fixpoint climbs (a : Z) (l : list Z) : Prop :=
  match l with [] => True | b :: l' => (b <= a + 1)%Z /\ climbs b l' end.
Lemma climbs_covers l : forall a k t, climbs a l -> In t l -> (a < k <= t)%Z -> In k l.
Proof.
  induction l as [|b l IH]; intros a k t H Hin Hk; [destruct Hin|]. cbn in H. destruct H as [H1 H2].
  destruct (Z.eq_dec b k) as [->|Hn]; [left; reflexivity|].
  destruct Hin as [->|Hin]; [right|right; apply (IH b k t); auto; lia].
  exfalso. lia.
Qed.
Lemma climbs_app l : forall a l', climbs a l -> climbs (last l a) l' -> climbs a (l ++ l').
Proof.
  induction l as [|b l IH]; intros a l' H H'; cbn in *; [exact H'|]. destruct H as [H1 H2]. split; [exact H1|].
  apply IH; [exact H2|]. destruct l as [|z l]; [exact H'|].
  assert (E : forall (w : list Z) u v x, last (x :: w) u = last (x :: w) v) by (induction w as [|q w IHw]; intros u v r; [reflexivity|apply IHw]).
  rewrite (E l b a z). exact H'.
Qed.

Section Thm16.
Context {N : Num} (L : NumLaws N).

Lemma small_climbs l : forall a s, small_steps a l = true -> (forall b, In b l -> b <= a) \/ True -> a <= s ->
  (forall b, In b l -> b <= s) ->
  climbs (Z.of_nat (s - a)) (map (fun b => Z.of_nat (s - b)) l ++ [Z.of_nat s]).
Proof.
  induction l as [|b l IH]; intros a s H _ Ha Hb; cbn in *.
  - split; [lia|exact I].
  - apply andb_prop in H as [H1 H2]. split; [specialize (Hb b (or_introl eq_refl)); lia|].
    apply IH; auto.
Qed.

Definition ix (ref : bool) (p : point) : Z := Z.of_nat (target_coord ref p).
Lemma replay_climbs ref rules ks : forallb valid_rule rules = true -> @gapless N ref rules ->
  forall i j, climbs (ix ref (i, j)) (map (ix ref) (replay rules i j ks)).
Proof.
  intros Hv Hg. induction ks as [|k ks IH]; intros i j; [exact I|]. cbn [replay].
  destruct (rule_no rules k) as [r|] eqn:Er; [|exact I].
  apply rule_no_In in Er. specialize (Hg r Er). rewrite forallb_forall in Hv. specialize (Hv r Er).
  rewrite map_app. cbn [map].
  replace (map (ix ref) (inner_points r (i + r_di r) (j + r_dj r)) ++ ix ref (i + r_di r, j + r_dj r) :: map (ix ref) (replay rules (i + r_di r) (j + r_dj r) ks))
    with ((map (ix ref) (inner_points r (i + r_di r) (j + r_dj r)) ++ [ix ref (i + r_di r, j + r_dj r)]) ++ map (ix ref) (replay rules (i + r_di r) (j + r_dj r) ks))
    by (rewrite <- app_assoc; reflexivity).
  apply climbs_app; [|rewrite last_last; apply IH].
  unfold gapless_rule in Hg.
  pose proof (small_climbs _ _ (target_coord ref (i + r_di r, j + r_dj r)) Hg (or_intror I)) as S.
  replace (ix ref (i, j)) with (Z.of_nat (target_coord ref (i + r_di r, j + r_dj r) - target_coord ref (r_di r, r_dj r))) by (unfold ix; destruct ref; cbn; lia).
  replace (map (ix ref) (inner_points r (i + r_di r) (j + r_dj r))) with
    (map (fun b => Z.of_nat (target_coord ref (i + r_di r, j + r_dj r) - b))
      (map (fun a => target_coord ref (fst a)) (filter (fun a => negb ((fst (fst a) =? 0) && (snd (fst a) =? 0))) (r_add r)))).
  - apply S; [destruct ref; cbn; lia|]. intros b Hb. apply in_map_iff in Hb as [a [<- Ha]]. apply filter_In in Ha as [Ha _].
    destruct (valid_adds r a Hv Ha) as [H1 H2]. destruct ref; cbn; lia.
  - unfold inner_points. rewrite !map_map. apply map_ext_in. intros a Ha. unfold ix. destruct ref; reflexivity.
Qed.

(** ** The number of points *)
Lemma table_from_rule k (rules : list (rule N)) r : In r rules -> S (List.length (r_add r)) <= List.length (table_from k rules).
Proof.
  revert k. induction rules as [|r' rules IH]; intros k H; [destruct H|]. destruct H as [->|H]; cbn [table_from]; rewrite app_length.
  - unfold rule_rows. cbn [List.length]. rewrite map_length. lia.
  - specialize (IH (S k) H). lia.
Qed.
Lemma replay_length (rules : list (rule N)) ks : forall i j,
  List.length (replay rules i j ks) <= List.length ks * List.length (table rules).
Proof.
  induction ks as [|k ks IH]; intros i j; [cbn; lia|]. cbn [replay].
  destruct (rule_no rules k) as [r|] eqn:Er; [|cbn; lia].
  apply rule_no_In in Er. pose proof (table_from_rule 1 rules r Er) as T. fold (table rules) in T.
  rewrite app_length. cbn [List.length]. specialize (IH (i + r_di r) (j + r_dj r)).
  unfold inner_points at 1. rewrite map_length.
  pose proof (filter_len (fun a : nat * nat * N => negb ((fst (fst a) =? 0) && (snd (fst a) =? 0))) (r_add r)). nia.
Qed.
Lemma zsum_le l hi : (forall x, In x l -> 0 <= x <= hi)%Z -> (zsum l <= hi * Z.of_nat (List.length l))%Z.
Proof. intros H. apply zsum_bounds in H. lia. Qed.

(** The alignment, as far as warp() is concerned. *)
Lemma closed_indices cdist x y o (lm : mat N) d rules : costs_of cdist x y lm ->
  dtw cdist x y o = Ok d -> pattern_rules (r_stepPattern d) rules ->
  o_distance_only o = false -> o_open_begin o = false ->
  ((Z.of_nat (List.length (mx (r_stepPattern d))) + 1) * (Z.of_nat (nr lm + nc lm) * Z.of_nat (nr lm + nc lm)) < 2 ^ 53)%Z ->
  exists mp, r_map d = Some mp /\ List.length (index1 mp) = List.length (index2 mp) /\
    first_is 0 (index1 mp) /\ first_is 0 (index2 mp) /\
    is_max (Z.of_nat (nr lm) - 1) (index1 mp) /\ is_max (Z.of_nat (r_jmin d)) (index2 mp) /\
    within 0 (Z.of_nat (nr lm)) (index1 mp) /\ within 0 (Z.of_nat (nc lm)) (index2 mp) /\
    nondecreasing (index1 mp) /\ nondecreasing (index2 mp) /\
    (zsum (index1 mp) < 2 ^ 53)%Z /\ (zsum (index2 mp) < 2 ^ 53)%Z /\ (Z.of_nat (List.length (index1 mp)) <= 2 ^ 53)%Z /\
    (gapless true rules -> no_gaps (index1 mp)) /\ (gapless false rules -> no_gaps (index2 mp)).
Proof.
  intros HC H Hp Hd Hb Hsz.
  destruct (monotone_closed L _ _ _ _ _ _ _ HC H Hp Hd Hb) as [mp [Em [Hl [_ [_ [F1 [F2 [_ [_ [L1 [L2 [_ [_ [W1 [W2 [_ [_ [M1 [M2 _]]]]]]]]]]]]]]]]]]].
  exists mp. split; [exact Em|]. split; [exact Hl|]. split; [exact F1|]. split; [exact F2|].
  assert (LM : forall m l, last_is m l -> nondecreasing l -> is_max m l).
  { intros m l [l' ->] Hm. split; [apply in_or_app; right; left; reflexivity|].
    intros z Hz. apply In_nth_error in Hz as [a Ha].
    apply (Hm a (List.length l') z m); [|exact Ha|rewrite nth_error_app2 by lia; rewrite Nat.sub_diag; reflexivity].
    assert (a < List.length (l' ++ [m])) by (apply nth_error_Some; congruence). rewrite app_length in H0. cbn in H0. lia. }
  split; [apply LM; assumption|]. split; [apply LM; assumption|]. split; [exact W1|]. split; [exact W2|].
  split; [exact M1|]. split; [exact M2|].
  destruct (alignment_closed L _ _ _ _ _ _ _ HC H Hp Hd Hb) as [mp' [ks [Em' [Es [_ [_ [_ [I1 [I2 _]]]]]]]]].
  rewrite Em in Em'. injection Em' as <-.
  destruct (backtrack_steps L _ _ _ _ _ _ _ HC H Hp Hd) as [mp' [Em' Hst]]. rewrite Em in Em'. injection Em' as <-.
  rewrite Hb in Hst. cbn [rows_used] in Hst. rewrite Es, map_length in Hst.
  assert (Hj : r_jmin d < nc lm).
  { destruct L2 as [l' E]. specialize (W2 (Z.of_nat (r_jmin d))). rewrite E in W2. specialize (W2 ltac:(apply in_or_app; right; left; reflexivity)). lia. }
  assert (Hn0 : 0 < nr lm).
  { destruct L1 as [l' E]. specialize (W1 (Z.of_nat (nr lm) - 1)%Z). rewrite E in W1. specialize (W1 ltac:(apply in_or_app; right; left; reflexivity)). lia. }
  destruct Hp as [Emx [Hne [Hv _]]].
  assert (Hlen : (Z.of_nat (List.length (index1 mp)) <= (Z.of_nat (List.length (mx (r_stepPattern d))) + 1) * Z.of_nat (nr lm + nc lm))%Z).
  { rewrite I1, map_length. cbn [List.length]. pose proof (replay_length rules ks 0 0) as G. rewrite Emx.
    assert (List.length ks * List.length (table rules) <= (nr lm + nc lm - 1) * List.length (table rules)) by (apply Nat.mul_le_mono_r; lia).
    nia. }
  set (T := (Z.of_nat (List.length (mx (r_stepPattern d))) + 1)%Z) in *.
  assert (HT : (1 <= T)%Z) by (subst T; lia). set (S := Z.of_nat (nr lm + nc lm)) in *. assert (HS : (2 <= S)%Z) by (subst S; lia).
  split; [|split; [|split; [nia|split]]].
  - assert (zsum (index1 mp) <= S * Z.of_nat (List.length (index1 mp)))%Z by (apply zsum_le; intros z Hz; specialize (W1 z Hz); subst S; lia). nia.
  - assert (zsum (index2 mp) <= S * Z.of_nat (List.length (index2 mp)))%Z by (apply zsum_le; intros z Hz; specialize (W2 z Hz); subst S; lia). rewrite <- Hl in *. nia.
  - intros Hg k t Ht Hk. pose proof (replay_climbs true rules ks Hv Hg 0 0) as C. rewrite I1 in *. cbn [map] in *.
    destruct (Z.eq_dec k 0) as [->|Hk0]; [left; reflexivity|]. right.
    destruct Ht as [<-|Ht]; [exfalso; cbn in Hk; lia|]. eapply climbs_covers; [exact C|exact Ht|cbn; lia].
  - intros Hg k t Ht Hk. pose proof (replay_climbs false rules ks Hv Hg 0 0) as C. rewrite I2 in *. cbn [map] in *.
    destruct (Z.eq_dec k 0) as [->|Hk0]; [left; reflexivity|]. right.
    destruct Ht as [<-|Ht]; [exfalso; cbn in Hk; lia|]. eapply climbs_covers; [exact C|exact Ht|cbn; lia].
Qed.

(** ** warp() on closed-begin alignments *)

Theorem warp_closed cdist x y o (lm : mat N) d rules ref : costs_of cdist x y lm ->
  dtw cdist x y o = Ok d -> pattern_rules (r_stepPattern d) rules ->
  o_distance_only o = false -> o_open_begin o = false -> warp_size_ok lm d ->
  exists mp l, r_map d = Some mp /\ warp d ref = Ok l /\
    List.length l = (if ref then nr lm else r_jmin d + 1) /\
    forall k, k < List.length l -> exists v, nth_error l k = Some v /\
      let s := matched (source_of ref (index1 mp) (index2 mp)) (target_of ref (index1 mp) (index2 mp)) (Z.of_nat k) in
      (s <> [] -> v = mean s) /\ (s = [] -> v = INT64_MIN).
Proof.
  intros HC H Hp Hd Hb Hsz.
  destruct (closed_indices _ _ _ _ _ _ _ HC H Hp Hd Hb Hsz) as [mp [Em [Hl [F1 [F2 [X1 [X2 [W1 [W2 [_ [_ [Z1 [Z2 [Z3 _]]]]]]]]]]]]]].
  assert (Hn0 : 0 < nr lm) by (destruct X1 as [X _]; specialize (W1 _ X); lia).
  destruct (warp_total L d mp ref (if ref then Z.of_nat (nr lm) - 1 else Z.of_nat (r_jmin d))%Z Em Hl) as [l [El [Ll Hk]]].
  - intros z Hz. destruct ref; [specialize (W2 z Hz)|specialize (W1 z Hz)]; lia.
  - intros z Hz. destruct ref; [specialize (W1 z Hz)|specialize (W2 z Hz)]; lia.
  - destruct ref; assumption.
  - destruct ref; assumption.
  - destruct ref; cbn; lia.
  - exists mp, l. split; [exact Em|]. split; [exact El|]. split; [destruct ref; lia|].
    intros k Hk'. eexists. split; [apply Hk; destruct ref; lia|]. cbn zeta. unfold warp_at.
    set (src := source_of ref (index1 mp) (index2 mp)). set (tgt := target_of ref (index1 mp) (index2 mp)).
    assert (H0 : matched src tgt 0 <> []).
    { apply matched_nonempty; [subst src tgt; destruct ref; cbn; lia|].
      subst tgt. destruct ref; cbn; [eapply nth_error_In; exact F1|eapply nth_error_In; exact F2]. }
    split.
    + intros G. destruct (matched src tgt (Z.of_nat k)); [contradiction|reflexivity].
    + intros ->. destruct (matched src tgt 0); [contradiction|reflexivity].
Qed.

(** No gaps: a usable, non-decreasing index vector. *)
Lemma mean_mono l l' : l <> [] -> l' <> [] -> (forall u v, In u l -> In v l' -> (u <= v)%Z) -> (mean l <= mean l')%Z.
Proof.
  intros H H' Hle.
  destruct (zmax_spec l H) as [m [_ [Hm Hm']]].
  assert (mean l <= m)%Z.
  { assert (Hb : forall u, In u l -> (fold_right Z.min m l <= u <= m)%Z).
    { intros u Hu. split; [|apply Hm'; exact Hu]. clear - Hu. induction l as [|a l IH]; [destruct Hu|].
      cbn. destruct Hu as [->|Hu]; [lia|specialize (IH Hu); lia]. }
    apply (mean_bounds l _ _ H Hb). }
  assert (m <= mean l')%Z.
  { assert (Hb : forall u, In u l' -> (m <= u <= fold_right Z.max m l')%Z).
    { intros u Hu. split; [apply Hle; assumption|]. clear - Hu. induction l' as [|a l' IH]; [destruct Hu|].
      cbn. destruct Hu as [->|Hu]; [lia|specialize (IH Hu); lia]. }
    apply (mean_bounds l' _ _ H' Hb). }
  lia.
Qed.

Lemma matched_mono src tgt k k' u v : nondecreasing src -> nondecreasing tgt -> (k < k')%Z ->
  In u (matched src tgt k) -> In v (matched src tgt k') -> (u <= v)%Z.
Proof.
  intros Hs Ht Hk Hu Hv. apply matched_in, In_nth_error in Hu as [a Ha]. apply matched_in, In_nth_error in Hv as [b Hb].
  apply nth_combine in Ha as [Ha1 Ha2]. apply nth_combine in Hb as [Hb1 Hb2].
  destruct (le_lt_dec a b) as [Hab|Hab].
  - apply (Hs a b); assumption.
  - assert (k' <= k)%Z by (apply (Ht b a); [lia|assumption|assumption]). lia.
Qed.

Theorem warp_gapless cdist x y o (lm : mat N) d rules ref : costs_of cdist x y lm ->
  dtw cdist x y o = Ok d -> pattern_rules (r_stepPattern d) rules ->
  o_distance_only o = false -> o_open_begin o = false -> warp_size_ok lm d ->
  gapless ref rules ->
  exists mp l, r_map d = Some mp /\ warp d ref = Ok l /\
    List.length l = (if ref then nr lm else r_jmin d + 1) /\
    within 0 (Z.of_nat (if ref then nc lm else nr lm)) l /\ nondecreasing l /\
    forall k, k < List.length l ->
      nth_error l k = Some (mean (matched (source_of ref (index1 mp) (index2 mp))
                                          (target_of ref (index1 mp) (index2 mp)) (Z.of_nat k))).
Proof.
  intros HC H Hp Hd Hb Hsz Hg.
  destruct (closed_indices _ _ _ _ _ _ _ HC H Hp Hd Hb Hsz) as [mp [Em [Hl [F1 [F2 [X1 [X2 [W1 [W2 [M1 [M2 [Z1 [Z2 [Z3 [G1 G2]]]]]]]]]]]]]]].
  destruct (warp_closed _ _ _ _ _ _ _ ref HC H Hp Hd Hb Hsz) as [mp' [l [Em' [El [Ll Hk]]]]].
  rewrite Em in Em'. injection Em' as <-.
  set (src := source_of ref (index1 mp) (index2 mp)) in *. set (tgt := target_of ref (index1 mp) (index2 mp)) in *.
  assert (Hgap : no_gaps tgt) by (subst tgt; destruct ref; cbn; auto).
  assert (Hmax : is_max (Z.of_nat (List.length l) - 1) tgt).
  { assert (0 < nr lm) by (destruct X1 as [X _]; specialize (W1 _ X); lia).
    subst tgt. destruct ref; cbn; [replace (Z.of_nat (List.length l) - 1)%Z with (Z.of_nat (nr lm) - 1)%Z by lia|
      replace (Z.of_nat (List.length l) - 1)%Z with (Z.of_nat (r_jmin d)) by lia]; assumption. }
  assert (Hne : forall k, k < List.length l -> matched src tgt (Z.of_nat k) <> []).
  { intros k Hkl. apply matched_nonempty; [subst src tgt; destruct ref; cbn; lia|].
    destruct Hmax as [Hin _]. apply (Hgap _ _ Hin). lia. }
  assert (Hval : forall k, k < List.length l -> nth_error l k = Some (mean (matched src tgt (Z.of_nat k)))).
  { intros k Hkl. destruct (Hk k Hkl) as [v [Ev [Hv _]]]. rewrite Ev. f_equal. apply Hv. apply Hne. exact Hkl. }
  exists mp, l. split; [exact Em|]. split; [exact El|]. split; [exact Ll|]. split; [|split; [|exact Hval]].
  - intros z Hz. apply In_nth_error in Hz as [k Hz]. assert (Hkl : k < List.length l) by (apply nth_error_Some; congruence).
    rewrite (Hval k Hkl) in Hz. injection Hz as <-.
    assert (Hbd : (0 <= mean (matched src tgt (Z.of_nat k)) <= Z.of_nat (if ref then nc lm else nr lm) - 1)%Z).
    { apply mean_bounds; [apply Hne; exact Hkl|]. apply matched_bounds. intros u Hu.
      subst src. destruct ref; cbn in Hu; [specialize (W2 u Hu)|specialize (W1 u Hu)]; lia. }
    lia.
  - intros a b u v Hab Hu Hv.
    assert (Hal : a < List.length l) by (apply nth_error_Some; congruence).
    assert (Hbl : b < List.length l) by (apply nth_error_Some; congruence).
    rewrite (Hval a Hal) in Hu. rewrite (Hval b Hbl) in Hv. injection Hu as <-. injection Hv as <-.
    destruct (Nat.eq_dec a b) as [->|Hn]; [lia|].
    apply mean_mono; [apply Hne; exact Hal|apply Hne; exact Hbl|].
    intros u v Hu Hv. eapply (matched_mono src tgt); [| | |exact Hu|exact Hv]; [| |lia]; subst src tgt; destruct ref; cbn; assumption.
Qed.

Lemma gapless_named ref k l : In k (gapless_names ref) -> lookup k predefined = Some l -> @gapless N ref (productions l).
Proof.
  intros Hk Hl.
  assert (G : forallb (fun k => match lookup k predefined with
     | Some l => forallb (wgapless_rule ref) l | None => false end) (gapless_names ref) = true)
    by (destruct ref; vm_compute; reflexivity).
  rewrite forallb_forall in G. specialize (G k Hk). rewrite Hl in G. rewrite forallb_forall in G.
  intros r Hr. apply in_map_iff in Hr as [w [<- Hw]]. specialize (G w Hw).
  unfold gapless_rule, wgapless_rule in *. cbn [production r_di r_dj r_add].
  rewrite <- G. f_equal. clear. induction (w_add w) as [|a l IH]; [reflexivity|]. cbn [map filter fst].
  destruct (negb _); cbn [map fst]; rewrite IH; reflexivity.
Qed.

(** Named patterns. *)
Theorem warp_named cdist x y o (lm : mat N) d k ref : costs_of cdist x y lm ->
  dtw cdist x y o = Ok d -> lookup k pattern_table = Some (r_stepPattern d) -> In k (gapless_names ref) ->
  o_distance_only o = false -> o_open_begin o = false -> warp_size_ok lm d ->
  exists mp l, r_map d = Some mp /\ warp d ref = Ok l /\
    List.length l = (if ref then nr lm else r_jmin d + 1) /\
    within 0 (Z.of_nat (if ref then nc lm else nr lm)) l /\ nondecreasing l /\
    forall k, k < List.length l ->
      nth_error l k = Some (mean (matched (source_of ref (index1 mp) (index2 mp))
                                          (target_of ref (index1 mp) (index2 mp)) (Z.of_nat k))).
Proof.
  intros HC H Hk Hin Hd Hb Hsz. destruct (predefined_rules L _ _ Hk) as [pl [El Hl]].
  eapply warp_gapless; try eassumption. eapply gapless_named; eassumption.
Qed.

(** One match per query index (asymmetric, rigid, mvm): warping the reference gives
    the image of each query index. *)
Theorem warp_function cdist x y o (lm : mat N) d rules mp : costs_of cdist x y lm ->
  dtw cdist x y o = Ok d -> pattern_rules (r_stepPattern d) rules ->
  o_distance_only o = false -> o_open_begin o = false -> warp_size_ok lm d ->
  r_map d = Some mp -> index1 mp = map Z.of_nat (seq 0 (nr lm)) ->
  warp d true = Ok (index2 mp).
Proof.
  intros HC H Hp Hd Hb Hsz Em I1.
  destruct (closed_indices _ _ _ _ _ _ _ HC H Hp Hd Hb Hsz) as [mp' [Em' [Hl _]]].
  rewrite Em in Em'. injection Em' as <-.
  destruct (warp_closed _ _ _ _ _ _ _ true HC H Hp Hd Hb Hsz) as [mp' [l [Em' [El [Ll Hk]]]]].
  rewrite Em in Em'. injection Em' as <-. cbn [source_of target_of] in Hk.
  rewrite El. f_equal.
  assert (Hlen : List.length (index2 mp) = nr lm) by (rewrite <- Hl, I1, map_length; apply seq_length).
  apply nth_ext with (d := 0%Z) (d' := 0%Z); [lia|].
  intros k Hkl. destruct (Hk k Hkl) as [v [Ev [Hv _]]].
  destruct (nth_error (index2 mp) k) as [j|] eqn:Ej; [|apply nth_error_None in Ej; lia].
  rewrite (nth_error_nth _ _ 0%Z Ev), (nth_error_nth _ _ 0%Z Ej).
  assert (Em1 : matched (index2 mp) (index1 mp) (Z.of_nat k) = [j]).
  { rewrite I1. rewrite Ll in Hkl. clear - Ej Hlen Hkl. revert Ej Hlen Hkl. generalize (index2 mp) as l. intros l. 
    replace k with (k - 0) by lia. 
    assert (G : forall n l s, List.length l = n -> s <= k < s + n -> nth_error l (k - s) = Some j ->
       matched l (map Z.of_nat (seq s n)) (Z.of_nat k) = [j]).
    { assert (Q : forall n l s, k < s -> matched l (map Z.of_nat (seq s n)) (Z.of_nat k) = []).
      { intros n l0 s Hs. apply matched_empty. intros Hin. apply in_map_iff in Hin as [q [E Hq]]. apply in_seq in Hq. lia. }
      induction n as [|n IH]; intros [|a l0] s Hln Hs Hj; cbn in Hln; try lia.
      cbn [seq map]. unfold matched. cbn [combine filter snd].
      destruct (Z.of_nat s =? Z.of_nat k)%Z eqn:E; cbn [map fst].
      - fold (matched l0 (map Z.of_nat (seq (S s) n)) (Z.of_nat k)). rewrite Q by lia.
        replace (k - s) with 0 in Hj by lia. cbn in Hj. injection Hj as ->. reflexivity.
      - fold (matched l0 (map Z.of_nat (seq (S s) n)) (Z.of_nat k)). apply IH; [lia|lia|].
        replace (k - s) with (S (k - S s)) in Hj by lia. exact Hj. }
    intros Ej Hl Hk. rewrite Nat.sub_0_r. apply (G (nr lm) l 0); [exact Hl|lia|exact Ej]. }
  rewrite Hv; rewrite Em1; [|discriminate]. unfold mean, zsum. cbn. rewrite Z.div_1_r. lia.
Qed.
End Thm16.