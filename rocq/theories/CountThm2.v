(** CountThm2.v - countPaths: feasibility and failures (proofs). *)
From Coq Require Import ZifyBool ZifyNat.
From Verif Require Import Base Num StepPattern Window Core Backtrack Dtw CountPaths Spec Api Tables Vocab Terms CountSpec Bound
  CoreProof DPProof DtwProof ApiProof ApiThms WalkGeom Uniq Thm1 Thm2 Thm3 Thm4 Thm5 Feas CountProof CountThm
  NumQ NumQLaws NumF NumFLaws BoundF Thm9 Derived Derived2.
Open Scope string_scope.
Open Scope list_scope.
Open Scope nat_scope.

(** ** Exact arithmetic: every walk over finite costs has finite cost *)

Lemma macc_fin (a w x : NumQ) : isfin a = true -> isfin w = true -> isfin x = true -> isfin (macc a w x) = true.
Proof. destruct a, w, x; cbn; congruence. Qed.

Lemma walk_fin (rules : list (rule NumQ)) cost n m source allowed ks vs ts q c : finite_weights rules ->
  (forall i j, i < n -> j < m -> isfin (cost i j) = true) ->
  (forall i j c, i < n -> j < m -> source i j = Some c -> isfin c = true) ->
  walk rules cost n m source allowed ks vs ts q c -> isfin c = true.
Proof.
  intros Hw Hc Hs W. induction W as [i j c Hs0 Hi Hj|ks vs ts i0 j0 c k r W IH Hk Hi Hj Ha].
  - eauto.
  - apply rule_no_In in Hk. unfold charge. specialize (Hw r).
    assert (G : forall l c, (forall a, In a l -> isfin (snd a) = true) -> isfin c = true ->
      isfin (fold_left (fun c (a : nat * nat * NumQ) => macc c (snd a) (cost (i0 + r_di r - fst (fst a)) (j0 + r_dj r - snd (fst a)))) l c) = true).
    { induction l as [|a l IHl]; intros c0 Ha0 H0; [exact H0|]. cbn [fold_left]. apply IHl.
      - intros b Hb. apply Ha0. right. exact Hb.
      - apply macc_fin; [exact H0|apply Ha0; left; reflexivity|apply Hc; lia]. }
    apply G; [intros a Ha0; apply Hw; auto|exact IH].
Qed.

Section Feasible.
Context {N : Num}.
Variable L : NumLaws N.

(** Closed begin and end: found iff some sequence is admitted, provided every
    admitted sequence has a usable cost. *)
Lemma found_count cdist x y o (lm : mat N) sp rules w c :
  well_posed cdist x y o lm sp rules w -> o_open_begin o = false -> o_open_end o = false ->
  (forall ks vs ts c, closed_walk rules lm w (o_window_args o) ks vs ts (nr lm - 1, nc lm - 1) c -> usable ks c) ->
  numbers (admitted rules lm w (o_window_args o) (nr lm - 1, nc lm - 1)) c ->
  ((exists d, dtw cdist x y o = Ok d) <-> 0 < c).
Proof.
  intros WP Ob Oe HU HN. rewrite (numbers_pos _ _ HN).
  pose proof (dtw_closed_end_iff L _ _ _ _ _ _ _ _ WP Oe) as D. rewrite Ob in D. unfold unreachable, admissible, end_cell in D.
  destruct D as [[E U]|[d [E [_ [_ [ks [vs [ts [c0 [W _]]]]]]]]]].
  - split; [intros [d Hd]; congruence|]. intros [ks [vs [ts [c0 W]]]]. exfalso. apply (U _ _ _ _ W). eapply HU. exact W.
  - split; [|eauto]. intros _. exists ks, vs, ts, c0. exact W.
Qed.
End Feasible.

Theorem found_iff_count_exact cdist x y o (lm : mat NumQ) sp rules w c :
  well_posed cdist x y o lm sp rules w -> o_open_begin o = false -> o_open_end o = false ->
  all_finite lm -> finite_weights rules ->
  numbers (admitted rules lm w (o_window_args o) (nr lm - 1, nc lm - 1)) c ->
  ((exists d, dtw cdist x y o = Ok d) <-> 0 < c).
Proof.
  intros WP Ob Oe Hf Hw. apply (found_count NumQ_laws _ _ _ _ _ _ _ _ _ WP Ob Oe).
  intros ks vs ts c0 W.
  assert (F : isfin c0 = true).
  { eapply walk_fin; [exact Hw|exact Hf| |exact W]. intros i j c1 Hi Hj E. unfold closed_source in E.
    destruct ((i =? 0) && (j =? 0)); [|discriminate]. injection E as <-. apply Hf; lia. }
  split; [apply (law_fin_not_nan _ NumQ_laws); exact F|intros _; apply (law_fin_good _ NumQ_laws); exact F].
Qed.

Lemma named_usable {N : Num} (L : NumLaws N) bnd (BL : BoundLaws N bnd) cdist x y o (lm : mat N) sp k l w :
  well_posed cdist x y o lm sp (productions l) w -> o_open_begin o = false ->
  lookup k predefined = Some l -> all_moderate bnd lm ->
  forall ks vs ts c, closed_walk (productions l) lm w (o_window_args o) ks vs ts (nr lm - 1, nc lm - 1) c -> usable ks c.
Proof.
  intros WP Ob Hl Hm ks vs ts c W.
  pose proof (wp_size _ _ _ _ _ _ _ _ WP) as Hz. rewrite Ob in Hz.
  apply (admissible_usable L bnd BL false l lm w (o_window_args o) ks vs ts (nc lm - 1) c); auto.
  - eapply predefined_good; eauto.
  - eapply predefined_light; eauto.
  - eapply costs_of_wf. apply WP.
  - destruct Hz as [_ [Hz _]]. lia.
Qed.

Theorem found_iff_count_binary64 cdist x y o (lm : mat NumF) sp k l w c :
  well_posed cdist x y o lm sp (productions l) w -> o_open_begin o = false -> o_open_end o = false ->
  lookup k predefined = Some l -> moderate lm ->
  numbers (admitted (productions l) lm w (o_window_args o) (nr lm - 1, nc lm - 1)) c ->
  ((exists d, dtw cdist x y o = Ok d) <-> 0 < c).
Proof.
  intros WP Ob Oe Hl Hm. apply (found_count NumF_laws _ _ _ _ _ _ _ _ _ WP Ob Oe).
  exact (named_usable NumF_laws _ NumF_bound _ _ _ _ _ _ _ _ _ WP Ob Hl (moderate_f _ Hm)).
Qed.
Theorem found_iff_count_fma cdist x y o (lm : mat NumFMA) sp k l w c :
  well_posed cdist x y o lm sp (productions l) w -> o_open_begin o = false -> o_open_end o = false ->
  lookup k predefined = Some l -> moderate lm ->
  numbers (admitted (productions l) lm w (o_window_args o) (nr lm - 1, nc lm - 1)) c ->
  ((exists d, dtw cdist x y o = Ok d) <-> 0 < c).
Proof.
  intros WP Ob Oe Hl Hm. apply (found_count NumFMA_laws _ _ _ _ _ _ _ _ _ WP Ob Oe).
  exact (named_usable NumFMA_laws _ NumFMA_bound _ _ _ _ _ _ _ _ _ WP Ob Hl (moderate_fma _ Hm)).
Qed.

Section Fail.
Context {N : Num}.
Variable L : NumLaws N.

(** On any result (any costs) the count is positive. *)
Theorem count_positive cdist x y o (lm : mat N) d rules : costs_of cdist x y lm ->
  dtw cdist x y o = Ok d -> pattern_rules (r_stepPattern d) rules -> no_marker rules ->
  o_open_begin o = false -> o_open_end o = false ->
  (r_windowFunction d = NoWindow -> r_windowArgs d = []) ->
  counts_fit rules lm (r_windowFunction d) (r_windowArgs d) ->
  exists z, countPaths d = Ok z /\ (0 < z)%Z.
Proof.
  intros HC H Hp NM Ob Oe Hw Fit.
  destruct (count_closed L _ _ _ _ _ _ _ HC H Hp NM Ob Oe Hw Fit) as [c [Hc E]]. exists (Z.of_nat c). split; [exact E|].
  destruct (dtw_best L _ _ _ _ _ _ _ HC H Hp) as [[ks [vs [ts [W _]]]] _].
  destruct (dtw_fields L _ _ _ _ _ _ _ HC H Hp) as [_ [_ [_ [_ [_ [_ [_ [_ [J _]]]]]]]]]. rewrite (J Oe), Ob in W.
  unfold admissible, end_cell in W.
  assert (0 < c); [|lia]. apply (numbers_pos _ _ Hc). exists ks, vs, ts, (r_distance d). exact W.
Qed.

(** ** Failures *)

(** window_args without a window. *)
Lemma foldM_raise {A S : Type} (f : A -> S -> out S) l1 x l2 s s1 e : foldM f l1 s = Ok s1 -> f x s1 = Raise e ->
  foldM f (l1 ++ x :: l2) s = Raise e.
Proof.
  revert s. induction l1 as [|a l1 IH]; intros s H1 H2; cbn [app foldM] in *.
  - injection H1 as ->. rewrite H2. reflexivity.
  - destruct (f a s); try discriminate. cbn [bind] in *. apply IH; assumption.
Qed.

Lemma indices_split n m t : t < n * m -> exists l1 l2, indices n m = l1 ++ (t / m, t mod m) :: l2 /\ List.length l1 = t.
Proof.
  intros H. assert (Hm : 0 < m) by (destruct m; lia).
  pose proof (indices_nth n m (t / m) (t mod m)) as I.
  pose proof (Nat.div_mod t m ltac:(lia)) as D. pose proof (Nat.mod_upper_bound t m ltac:(lia)) as U.
  assert (Q : t / m < n) by (apply Nat.div_lt_upper_bound; lia).
  specialize (I Q U). replace (t / m * m + t mod m) with t in I by lia.
  apply nth_error_split in I. destruct I as [l1 [l2 [E1 E2]]]. eauto.
Qed.

Theorem count_no_window_args (d : DTW N) rules : pattern_rules (r_stepPattern d) rules ->
  r_windowFunction d = NoWindow -> r_windowArgs d <> [] -> r_openBegin d = false ->
  0 < r_N d -> 0 < r_M d -> 1 < r_N d * r_M d ->
  countPaths d = Raise TypeError.
Proof.
  intros Hp Hw Ha Ob Hn Hm H1. unfold countPaths, countMatrix. rewrite Ob, Hw.
  replace (r_N d =? 0) with false by lia. replace (r_M d =? 0) with false by lia. cbn [orb andb negb].
  rewrite (n_patterns_rules L _ rules Hp). cbn [bind].
  destruct (indices_split (r_N d) (r_M d) 1 H1) as [l1 [l2 [E El]]].
  assert (K : l1 = [(0, 0)]).
  { pose proof (indices_nth (r_N d) (r_M d) 0 0 Hn Hm) as I. rewrite E in I. destruct l1 as [|p [|q l1]]; try discriminate El.
    injection I as ->. reflexivity. }
  rewrite E. subst l1. clear E El.
  set (g0 := Mat (r_N d) (r_M d) (upd (repeat nan (r_N d * r_M d)) 0 (ofZ 1))).
  assert (LD : List.length (dat g0) = r_N d * r_M d) by (unfold g0; cbn [dat]; rewrite upd_length, repeat_length; reflexivity).
  erewrite (foldM_raise _ [(0, 0)] _ l2 g0 g0 TypeError); [reflexivity| |].
  - cbn [foldM]. unfold count_visit. rewrite (py_get2_nat g0 0 0 (ofZ 1)); [|exact Hn|exact Hm|].
    + cbn [bind]. rewrite (law_fin_ofZ _ L) by lia. reflexivity.
    + unfold g0. cbn [dat nc]. rewrite nth_error_upd, repeat_length. destruct (r_N d * r_M d) eqn:E0; [lia|]. reflexivity.
  - assert (R1 : 1 / r_M d < r_N d) by (apply Nat.div_lt_upper_bound; lia).
    assert (R2 : 1 mod r_M d < r_M d) by (apply Nat.mod_upper_bound; lia).
    unfold count_visit. rewrite (py_get2_nat g0 (1 / r_M d) (1 mod r_M d) nan); [|exact R1|exact R2|].
    + cbn [bind].
      assert (Fn : isfin (@nan N) = false).
      { destruct (isfin (@nan N)) eqn:F; [|reflexivity]. apply (law_fin_not_nan _ L) in F. rewrite (law_nan _ L) in F. discriminate. }
      rewrite Fn. unfold call_window. destruct (r_windowArgs d); [contradiction|reflexivity].
    + unfold g0. cbn [dat nc]. pose proof (Nat.div_mod 1 (r_M d) ltac:(lia)) as D.
      replace (1 / r_M d * r_M d + 1 mod r_M d) with 1 by lia. rewrite nth_error_upd. cbn [Nat.eqb andb]. apply nth_error_repeat. exact H1.
Qed.

(** A displacement (0,0) among those added up spoils the last cell. *)
Lemma count_nan_gen (d : DTW N) npats deltas k0 :
  get_n_patterns (r_stepPattern d) = Ok npats -> mkDirDeltas (r_stepPattern d) = deltas ->
  (forall k, k < Z.to_nat npats -> exists a b, nth_error deltas k = Some (a, b) /\ (0 <= a)%Z /\ (0 <= b)%Z) ->
  k0 < Z.to_nat npats -> nth_error deltas k0 = Some (0, 0)%Z ->
  r_openBegin d = false -> r_openEnd d = false ->
  0 < r_N d -> 0 < r_M d -> 1 < r_N d * r_M d ->
  window_callable (r_windowFunction d) (r_windowArgs d) (r_N d) (r_M d) ->
  in_window (r_windowFunction d) (r_windowArgs d) (r_N d) (r_M d) (r_N d - 1) (r_M d - 1) ->
  countPaths d = Raise (ValueError "cannot convert float NaN to integer").
Proof.
  intros Enp Ed Hd Hk0 Ek0 Ob Oe Hn Hm H1 Hw Hc. unfold countPaths, countMatrix. rewrite Ob, Oe, Enp, Ed.
  set (n := r_N d) in *. set (m := r_M d) in *. set (w := r_windowFunction d) in *. set (kw := r_windowArgs d) in *.
  replace (n =? 0) with false by lia. replace (m =? 0) with false by lia. cbn [orb andb negb bind].
  set (g0 := Mat n m (upd (repeat nan (n * m)) 0 (ofZ 1))).
  set (P := fun (t : nat) (g : mat N) => nr g = n /\ nc g = m /\ List.length (dat g) = n * m /\
     exists v, nth_error (dat g) ((n - 1) * m + (m - 1)) = Some v /\ isnan v = true).
  assert (LastIx : (n - 1) * m + (m - 1) = n * m - 1) by (rewrite Nat.mul_sub_distr_r; nia).
  assert (Get : forall (g : mat N) i j, nr g = n -> nc g = m -> List.length (dat g) = n * m -> i < n -> j < m ->
     exists v, nth_error (dat g) (i * m + j) = Some v /\ py_get2 g (Z.of_nat i) (Z.of_nat j) = Ok v).
  { intros g i j G1 G2 G3 Hi Hj. destruct (nth_error (dat g) (i * m + j)) as [v|] eqn:E.
    - exists v. split; [reflexivity|]. apply py_get2_nat; [lia|lia|]. rewrite G2. exact E.
    - exfalso. apply nth_error_None in E. rewrite G3 in E. assert ((i + 1) * m <= n * m) by (apply Nat.mul_le_mono_r; lia). lia. }
  assert (Loop : forall (g : mat N) i j s, nr g = n -> nc g = m -> List.length (dat g) = n * m -> i < n -> j < m ->
     exists v, loop 0 (Z.to_nat npats) (count_cell g deltas i j) s = Ok v /\
       (forall u, nth_error (dat g) (i * m + j) = Some u -> isnan u = true -> isnan v = true)).
  { intros g i j s G1 G2 G3 Hi Hj.
    destruct (loop_inv (fun k v => k0 < k -> forall u, nth_error (dat g) (i * m + j) = Some u -> isnan u = true -> isnan v = true)
      (count_cell g deltas i j) 0 (Z.to_nat npats) s) as [v [E1 E2]].
    - intros C. lia.
    - intros k v Hk IH. destruct (Hd k Hk) as [a [b [Ek [Ha Hb]]]]. unfold count_cell.
      replace (Z.to_nat (0 + Z.of_nat k)) with k by lia. rewrite Ek. cbn [bind fst snd].
      destruct ((0 <=? Z.of_nat i - a)%Z && (0 <=? Z.of_nat j - b)%Z) eqn:Ez.
      + destruct (Get g (i - Z.to_nat a) (j - Z.to_nat b) G1 G2 G3 ltac:(lia) ltac:(lia)) as [u [Eu Ep]].
        replace (Z.of_nat i - a)%Z with (Z.of_nat (i - Z.to_nat a)) by lia.
        replace (Z.of_nat j - b)%Z with (Z.of_nat (j - Z.to_nat b)) by lia. rewrite Ep. cbn [bind].
        exists (add v u). split; [reflexivity|]. intros Hlt u' Eu' Nu'. destruct (Nat.eq_dec k k0) as [->|Ne].
        * rewrite Ek0 in Ek. injection Ek as <- <-. apply (law_add_nan_r _ L).
          cbn [Z.to_nat] in Eu. rewrite !Nat.sub_0_r, Eu' in Eu. injection Eu as <-. exact Nu'.
        * apply (law_add_nan_l _ L). apply (IH ltac:(lia) u' Eu' Nu').
      + exists v. split; [reflexivity|]. intros Hlt u' Eu' Nu'. destruct (Nat.eq_dec k k0) as [->|Ne].
        * rewrite Ek0 in Ek. injection Ek as <- <-. lia.
        * apply (IH ltac:(lia) u' Eu' Nu').
    - exists v. split; [exact E1|]. apply E2. exact Hk0. }
  destruct (foldM_inv P (count_visit w kw npats deltas) (indices n m) g0) as [g [E [G1 [G2 [G3 [v [Ev Nv]]]]]]].
  { unfold P, g0. cbn [nr nc dat]. split; [reflexivity|]. split; [reflexivity|]. rewrite upd_length, repeat_length. split; [reflexivity|].
    exists nan. split; [|apply (law_nan _ L)]. rewrite nth_error_upd, LastIx.
    replace (n * m - 1 =? 0) with false by lia. cbn [andb]. apply nth_error_repeat. lia. }
  { intros t [i j] g Ht [G1 [G2 [G3 [v [Ev Nv]]]]].
    assert (Hij : i < n /\ j < m) by (apply indices_in; eapply nth_error_In; exact Ht). destruct Hij as [Hi Hj].
    destruct (Get g i j G1 G2 G3 Hi Hj) as [u [Eu Ep]]. unfold count_visit. rewrite Ep. cbn [bind].
    destruct (isfin u) eqn:Fu.
    { exists g. split; [reflexivity|]. split; [exact G1|]. split; [exact G2|]. split; [exact G3|]. eauto. }
    assert (Set_ : forall z, (i * m + j = (n - 1) * m + (m - 1) -> isnan z = true) ->
       P (S t) (Mat (nr g) (nc g) (upd (dat g) (i * nc g + j) z))).
    { intros z Hz. split; [exact G1|]. split; [exact G2|]. cbn [dat]. split; [rewrite upd_length; exact G3|].
      rewrite G2, nth_error_upd.
      destruct (Nat.eqb_spec ((n - 1) * m + (m - 1)) (i * m + j)) as [Eq|Ne].
      - exists z. split; [|apply Hz; lia]. replace (_ <? _) with true; [reflexivity|]. symmetry. apply Nat.ltb_lt. rewrite G3. lia.
      - exists v. split; [exact Ev|exact Nv]. }
    destruct (Hw i j Hi Hj) as [b Eb]. rewrite G1, G2, Eb. cbn [bind].
    destruct b; cbn [negb].
    - destruct (Loop g i j (ofZ 0) G1 G2 G3 Hi Hj) as [z [Ez Hz]]. rewrite Ez. cbn [bind]. eexists. split; [reflexivity|].
      rewrite <- G1, <- G2. apply Set_. intros Eq. apply (Hz v); [rewrite Eq; exact Ev|exact Nv].
    - eexists. split; [reflexivity|]. rewrite <- G1, <- G2. apply Set_. intros Eq. exfalso.
      assert (i = n - 1 /\ j = m - 1) as [-> ->].
      { assert (i = n - 1); [|subst; lia]. destruct (Nat.lt_trichotomy i (n - 1)) as [Hlt|[->|Hlt]]; [|reflexivity|lia].
        assert ((i + 1) * m <= (n - 1) * m) by (apply Nat.mul_le_mono_r; lia). lia. }
      unfold in_window in Hc. unfold w in *. destruct (r_windowFunction d); try congruence.
      unfold call_window in Eb. destruct kw; [|discriminate]. injection Eb as Eb. unfold noWindow in Eb.
      destruct (Z.lor (Z.of_nat (n - 1)) 1 =? 0)%Z eqn:E0; [|discriminate]. apply Z.eqb_eq in E0. apply Z.lor_eq_0_iff in E0. lia. }
  rewrite E. cbn [bind].
  assert (RL : nth_error (row_of g (nr g - 1)) (nc g - 1) = Some v).
  { unfold row_of. rewrite nth_error_firstn, nth_error_skipn, G1, G2. replace (m - 1 <? m) with true by lia. exact Ev. }
  rewrite RL. cbn [bind]. rewrite (law_trunc_nan _ L) by exact Nv. rewrite Nv. reflexivity.
Qed.


Lemma velichko_gen :
  get_n_patterns (@p_symmetricVelichkoZagoruyko N) = Ok 3%Z ->
  mkDirDeltas (@p_symmetricVelichkoZagoruyko N) = [(0,1);(1,1);(0,0);(1,0)]%Z -> @velichko_claim N.
Proof.
  intros E1 E2 d Hs. assert (Es : r_stepPattern d = p_symmetricVelichkoZagoruyko).
  { cbn in Hs. injection Hs as Hs. symmetry. exact Hs. }
  rewrite <- Es in *. intros Ob Oe Hn Hm H1 Hw Hc. apply (count_nan_gen d 3 _ 2 E1 E2); auto.
  - intros k Hk. change (Z.to_nat 3) with 3 in Hk. destruct k as [|[|[|k]]]; [| | |lia];
      (eexists; eexists; split; [reflexivity|split; lia]).
Qed.
End Fail.

Theorem velichko_exact : @velichko_claim NumQ.
Proof. apply (velichko_gen NumQ_laws); vm_compute; reflexivity. Qed.
Theorem velichko_binary64 : @velichko_claim NumF.
Proof. apply (velichko_gen NumF_laws); vm_compute; reflexivity. Qed.
Theorem velichko_fma : @velichko_claim NumFMA.
Proof. apply (velichko_gen NumFMA_laws); vm_compute; reflexivity. Qed.

(** All other predefined patterns are countable. *)
Theorem named_no_marker {N : Num} (L : NumLaws N) k l : lookup k predefined = Some l ->
  k <> "_symmetricVelichkoZagoruyko" -> @no_marker N (productions l).
Proof.
  intros H Hk.
  assert (G : forallb (fun kl => String.eqb (fst kl) "_symmetricVelichkoZagoruyko" ||
     forallb (fun r => forallb (fun a => (0 <=? fst (snd a))%Z && (fst (snd a) <? 100)%Z && (1 <=? snd (snd a))%Z && (snd (snd a) <? 100)%Z) (w_add r)) (snd kl)) predefined = true) by reflexivity.
  rewrite forallb_forall in G. specialize (G _ (lookup_In _ _ _ H)). cbn [fst snd] in G.
  destruct (String.eqb_spec k "_symmetricVelichkoZagoruyko") as [E|_]; [contradiction|]. cbn [orb] in G.
  intros r a Hr Ha. apply in_map_iff in Hr. destruct Hr as [wr [<- Hr]]. cbn [production r_add] in Ha.
  apply in_map_iff in Ha. destruct Ha as [[[oi oj] [p q]] [<- Ha]]. cbn [fst snd].
  rewrite forallb_forall in G. specialize (G _ Hr). rewrite forallb_forall in G. specialize (G _ Ha). cbn [fst snd] in G.
  unfold weight. cbn [fst snd]. unfold np_int32.
  assert (K : exists z, trunc (if (q =? 1)%Z then @ofZ N p else div (ofZ p) (ofZ q)) = Some z /\ (0 <= z < 100)%Z).
  { destruct (Z.eqb_spec q 1) as [->|Nq].
    - rewrite (law_trunc_ofZ _ L) by lia. exists p. split; [reflexivity|lia].
    - rewrite (law_frac_trunc _ L) by lia. exists (p / q)%Z. split; [reflexivity|].
      split; [apply Z.div_pos; lia|]. apply Z.div_lt_upper_bound; nia. }
  destruct K as [z [-> Hz]]. destruct (in_i32 z); [lia|unfold INT_MIN; lia].
Qed.
