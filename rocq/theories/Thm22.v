(** Thm22.v - adding a constant to every local cost (exact arithmetic; proofs for C51). *)
From Coq Require Import ZifyBool ZifyNat QArith Qcanon Lqa.
From Verif Require Import Base Num StepPattern Window Core Backtrack Dtw Spec Api Tables Vocab Terms
  NumQ NumQLaws CoreProof DPProof DtwProof ApiProof ApiThms WalkGeom Uniq Thm1 Thm2 Thm3 Thm4 Thm5 Thm7 Thm8 Thm9 Thm11 Derived.
Open Scope string_scope.
Open Scope list_scope.
Open Scope nat_scope.

(** ** Position dependent maps of the cumulative costs *)
Section Map2.
Context {N : Num}.
Variable L : NumLaws N.
Lemma bellman_map2 (h : nat -> nat -> N -> N) rules n m cost cost' seed seed' win cmf smf :
  (forall i j x, isnan (h i j x) = isnan x) ->
  (forall i j x y, ltb (h i j x) (h i j y) = ltb x y) ->
  (forall i j x y, leb (h i j x) (h i j y) = leb x y) ->
  (forall i j x, good (h i j x) <-> good x) ->
  (forall i j, seed' i j = h i j (seed i j)) ->
  (forall r i j c, In r rules -> i < n -> j < m -> r_di r <= i -> r_dj r <= j -> isnan (seed i j) = true ->
     charge cost' r i j (h (i - r_di r) (j - r_dj r) c) = h i j (charge cost r i j c)) ->
  @bellman N rules n m cost seed win cmf smf ->
  bellman rules n m cost' seed' win (fun a b => h a b (cmf a b)) smf.
Proof.
  intros Hn Hlt Hle Hg Hs Hch HB i j Hi Hj. pose proof (HB i j Hi Hj) as C. unfold cell_eq in *.
  rewrite !Hs, Hn. destruct (isnan (seed i j)) eqn:En; cbn [negb] in *; [|destruct C as [-> ->]; auto].
  destruct (negb (win i j)); [destruct C as [-> ->]; auto|].
  destruct C as [l [a [[Hl Hc] [Hmin Hd]]]]. exists (map (h i j) l), a. split; [|split].
  - split; [rewrite map_length; exact Hl|]. intros q r Hq. destruct (Hc q r Hq) as [v [Hv1 Hv2]].
    exists (h i j v). split; [rewrite nth_error_map, Hv1; reflexivity|].
    unfold cand_is in *. destruct (Nat.leb_spec (r_di r) i), (Nat.leb_spec (r_dj r) j); cbn [andb] in *;
      try (rewrite Hn; exact Hv2).
    rewrite Hv2. symmetry. apply Hch; auto. eapply nth_error_In; exact Hq.
  - destruct Hmin as [[-> H]|[k [x [-> [Hk [G [H1 H2]]]]]]].
    + left. split; [reflexivity|]. intros k x Hk. rewrite nth_error_map in Hk.
      destruct (nth_error l k) as [y|] eqn:E; [|discriminate]. injection Hk as <-. rewrite Hg. eapply H; exact E.
    + right. exists k, (h i j x). split; [reflexivity|]. rewrite nth_error_map, Hk. split; [reflexivity|].
      split; [apply Hg; exact G|]. split; intros k' y.
      * rewrite nth_error_map. destruct (nth_error l k') as [z|] eqn:E; [|discriminate].
        intros Hy Gy. injection Hy as <-. rewrite Hle. eapply H1; [exact E|eapply Hg; exact Gy].
      * intros Hlt'. rewrite nth_error_map. destruct (nth_error l k') as [z|] eqn:E; [|discriminate].
        intros Hy Gy. injection Hy as <-. rewrite Hlt. eapply H2; [exact Hlt'|exact E|eapply Hg; exact Gy].
  - destruct Hd as [[-> [-> ->]]|[k [-> [Hk ->]]]]; [left; auto|]. right. exists k. split; [reflexivity|].
    rewrite nth_error_map, Hk. auto.
Qed.
Lemma nanargmin_map (h : N -> N) l : (forall x, isnan (h x) = isnan x) -> (forall x y, ltb (h x) (h y) = ltb x y) ->
  h pinf = pinf -> nanargmin (map h l) = nanargmin l.
Proof.
  intros Hn Hlt Hp. unfold nanargmin.
  assert (E : forallb isnan (map h l) = forallb isnan l).
  { induction l as [|x l IH]; [reflexivity|]. cbn [map forallb]. rewrite IH, Hn. reflexivity. }
  rewrite E. destruct (forallb isnan l); [reflexivity|].
  assert (E2 : map (fun x => if isnan x then pinf else x) (map h l) = map h (map (fun x => if isnan x then pinf else x) l)).
  { rewrite !map_map. apply map_ext. intros x. rewrite Hn. destruct (isnan x); [symmetry; exact Hp|reflexivity]. }
  rewrite E2. destruct (map (fun x => if isnan x then pinf else x) l) as [|v vs]; [reflexivity|]. cbn [map]. f_equal.
  clear E E2. assert (G : forall vs i b u, np_argmin_from (map h vs) i b (h u) = np_argmin_from vs i b u); [|apply G].
  clear vs v. induction vs as [|x vs IH]; intros i b u; [reflexivity|]. cbn [map np_argmin_from].
  rewrite Hlt. destruct (ltb x u); apply IH.
Qed.
End Map2.

(** ** Adding a constant *)
Definition xsh (q : Qc) (x : NumQ) : NumQ := xq_add x (XFin q).

Lemma xsh_nan q x : isnan (xsh q x) = isnan x.
Proof. destruct x; reflexivity. Qed.
Lemma xsh_lt q x y : @ltb NumQ (xsh q x) (xsh q y) = ltb x y.
Proof.
  destruct x as [| | |a], y as [| | |b]; try reflexivity. cbn.
  apply Bool.eq_iff_eq_true. rewrite !qc_ltb_lt. qc2q. split; intros; lra.
Qed.
Lemma xsh_eq q x y : @eqb NumQ (xsh q x) (xsh q y) = eqb x y.
Proof.
  destruct x as [| | |a], y as [| | |b]; try reflexivity. cbn.
  apply Bool.eq_iff_eq_true. rewrite !qc_eqb_eq. qc2q. split; intros; lra.
Qed.
Lemma xsh_le q x y : @leb NumQ (xsh q x) (xsh q y) = leb x y.
Proof.
  pose proof (xsh_lt q x y). pose proof (xsh_eq q x y). cbn [ltb eqb leb NumQ] in *. unfold xq_leb. congruence.
Qed.
Lemma xsh_good q x : @good NumQ (xsh q x) <-> @good NumQ x.
Proof. unfold good. destruct x; cbn; split; congruence. Qed.
Lemma xsh_macc p q w a x : @macc NumQ (xsh p a) (XFin w) (xsh q x) = xsh (p + w * q)%Qc (macc a (XFin w : NumQ) x).
Proof.
  cbn. destruct a as [| | |a], x as [| | |x]; cbn; try reflexivity;
    try (unfold xq_sgn_inf; destruct (Qccompare w (Q2Qc 0)); reflexivity).
  f_equal. ring.
Qed.


Lemma plus_cost_wf c lm : wf_mat lm -> wf_mat (plus_cost c lm).
Proof. unfold wf_mat, plus_cost. cbn [nr nc dat]. rewrite map_length. auto. Qed.
Lemma plus_cost_cell c lm i j : cell (plus_cost c lm) i j = xsh c (cell lm i j).
Proof.
  unfold cell, mget, plus_cost. cbn [nr nc dat]. destruct (_ && _); [|reflexivity].
  rewrite nth_error_map. destruct (nth_error _ _); reflexivity.
Qed.

(** rows of the problem: in the padded problem row 0 keeps cost zero *)
Lemma plus_cost_p c o lm i j : wf_mat lm -> (o_open_begin o = true -> 1 <= i) ->
  i < nr (p_lm o lm) -> j < nc lm ->
  cell (p_lm o (plus_cost c lm)) i j = xsh c (cell (p_lm o lm) i j).
Proof.
  intros Hwf H Hi Hj. unfold p_lm in *. destruct (o_open_begin o); [|apply plus_cost_cell].
  specialize (H eq_refl). destruct i as [|i]; [lia|]. cbn [padded nr] in Hi.
  rewrite !padded_cell by (try apply plus_cost_wf; cbn [plus_cost nr nc]; auto; lia).
  cbn [Nat.eqb].
  apply plus_cost_cell.
Qed.

Lemma charges_shift l (cost cost' : nat -> nat -> NumQ) i j c p a : denoms l ->
  (forall b, In b l -> cost' (i - fst (fst b)) (j - snd (fst b)) = xsh c (cost (i - fst (fst b)) (j - snd (fst b)))) ->
  exists t, fold_left (fun c0 a => macc c0 (snd a) (cost' (i - fst (fst a)) (j - snd (fst a))))
      (map (fun a => (fst a, @weight NumQ (snd a))) l) (xsh p a) =
    xsh t (fold_left (fun c0 a => macc c0 (snd a) (cost (i - fst (fst a)) (j - snd (fst a))))
      (map (fun a => (fst a, @weight NumQ (snd a))) l) a) /\ (this t == this p + wsum l * this c)%Q.
Proof.
  revert p a. induction l as [|b l IH]; intros p a D Hc.
  - exists p. split; [reflexivity|]. cbn. ring.
  - cbn [map fold_left fst snd]. rewrite Hc by (left; reflexivity).
    rewrite weight_q by (apply D; left; reflexivity). rewrite xsh_macc.
    destruct (IH (p + Q2Qc (fracq (snd b)) * c)%Qc (macc a (XFin (Q2Qc (fracq (snd b))) : NumQ) (cost (i - fst (fst b)) (j - snd (fst b))))) as [t [E1 E2]].
    { intros b' Hb'. apply D. right. exact Hb'. } { intros b' Hb'. apply Hc. right. exact Hb'. }
    exists t. split; [exact E1|]. rewrite E2, this_add, this_mul, this_ofQ. cbn [wsum fold_right]. fold (wsum l). ring.
Qed.

(** total weight of the walks to cell (i,j) of the problem that is solved *)
Definition wt (ob : bool) (al be i j : nat) : nat := (if ob then 0 else 1) + (al * i + be * j).
Definition hsh (ob : bool) (al be : nat) (c : Qc) (i j : nat) (x : NumQ) : NumQ :=
  xsh (qc_ofZ (Z.of_nat (wt ob al be i j)) * c)%Qc x.

Theorem plus_constant c cdist x y o (lm : mat NumQ) d k al be cdist' x' y' :
  costs_of cdist x y lm -> dtw cdist x y o = Ok d -> 0 < nr lm ->
  lookup k pattern_table = Some (r_stepPattern d) -> hint_law (hint (r_stepPattern d)) = Some (al, be) ->
  (o_open_end o = true -> hint (r_stepPattern d) = "N") ->
  costs_of cdist' x' y' (plus_cost c lm) -> (o_open_begin o = true \/ native_array x' y') ->
  exists d', dtw cdist' x' y' o = Ok d' /\
    r_distance d' = add (r_distance d)
       (mul (ofZ (Z.of_nat (if o_open_begin o then nr lm else 1 + (al * (nr lm - 1) + be * r_jmin d)))) (XFin c : NumQ)) /\
    r_jmin d' = r_jmin d /\ r_map d' = r_map d /\ r_directionMatrix d' = r_directionMatrix d /\
    r_stepPattern d' = r_stepPattern d.
Proof.
  intros HC Hd Hq Hk Hh Hoe HC' Hn'.
  destruct (predefined_rules NumQ_laws _ _ Hk) as [l [Hl Hp]].
  destruct (hint_weighs _ _ _ _ _ Hk Hl Hh) as [Hw [_ Hlr]].
  pose proof (ok_well_posed NumQ_laws _ _ _ _ _ _ _ HC Hd Hp Hq) as WP.
  pose proof WP as WP0. destruct WP0 as [w1 w2 w3 w4 w5 w6 w7 w8 w9 w10].
  pose proof (costs_of_wf _ _ _ _ w1) as Hwf.
  set (sp := r_stepPattern d) in *. set (w := r_windowFunction d) in *.
  assert (WP' : well_posed cdist' x' y' o (plus_cost c lm) sp (productions l) w).
  { constructor; auto. }
  destruct (wp_finish_any NumQ_laws _ _ _ _ _ _ _ _ WP) as [cm [dm [cmf [smf [win [E [Rc [Rs [Hwi HB]]]]]]]]].
  destruct (wp_finish_any NumQ_laws _ _ _ _ _ _ _ _ WP') as [cm' [dm' [cmf' [smf' [win' [E' [Rc' [Rs' [Hwi' HB']]]]]]]]].
  assert (En : nr (p_lm o (plus_cost c lm)) = nr (p_lm o lm)).
  { unfold p_lm. destruct (o_open_begin o); reflexivity. }
  rewrite En in *. change (nc (plus_cost c lm)) with (nc lm) in *. change (nr (plus_cost c lm)) with (nr lm) in *.
  assert (Hob : o_open_begin o = true -> al = 1 /\ be = 0).
  { intros Ho. destruct (w9 Ho) as [Hh1 _]. rewrite Hh1 in Hh. injection Hh as <- <-. auto. }
  assert (EQ : forall i j, i < nr (p_lm o lm) -> j < nc lm ->
     cmf' i j = hsh (o_open_begin o) al be c i j (cmf i j) /\ smf' i j = smf i j).
  { intros i j Hi Hj.
    apply (bellman_unique NumQ_laws (productions l) (nr (p_lm o lm)) (nc lm) (cell (p_lm o (plus_cost c lm))) (p_seed o (plus_cost c lm)) win' cmf' smf'
       (cell (p_lm o (plus_cost c lm))) (fun a b => hsh (o_open_begin o) al be c a b (p_seed o lm a b)) win
       (fun a b => hsh (o_open_begin o) al be c a b (cmf a b)) smf);
      auto; [apply w4| |].
    - intros a b Ha Hb0. split; [reflexivity|]. split.
      + unfold p_seed, hsh, wt. destruct (o_open_begin o) eqn:Eo.
        * destruct (Hob eq_refl) as [-> ->]. unfold pseed. destruct (Nat.eqb_spec a 0) as [->|]; [|reflexivity].
          cbn [Nat.add Nat.mul]. unfold xsh. cbn [xq_add ofZ NumQ]. f_equal; try (change (qc_ofZ (Z.of_nat 0)) with (Q2Qc 0); ring).
        * unfold seed0. destruct (Nat.eqb_spec a 0) as [->|]; [|reflexivity]. destruct (Nat.eqb_spec b 0) as [->|]; [|reflexivity].
          cbn [andb]. rewrite plus_cost_cell. rewrite !Nat.mul_0_r. cbn [Nat.add]. unfold xsh. f_equal. f_equal; try (change (qc_ofZ (Z.of_nat 1)) with (Q2Qc 1); ring).
      + apply Bool.eq_iff_eq_true. rewrite (Hwi a b Ha Hb0), (Hwi' a b Ha Hb0). reflexivity.
    - apply (bellman_map2 (hsh (o_open_begin o) al be c) (productions l) (nr (p_lm o lm)) (nc lm) (cell (p_lm o lm))
         (cell (p_lm o (plus_cost c lm))) (p_seed o lm)); auto.
      + intros; apply xsh_nan.
      + intros; apply xsh_lt.
      + intros; apply xsh_le.
      + intros; apply xsh_good.
      + intros r a b v Hr Ha Hb0 Hra Hrb Hse.
        apply in_map_iff in Hr. destruct Hr as [wr [<- Hwr]]. destruct (Hw wr Hwr) as [Dn Ew].
        unfold hsh at 1, charge. cbn [production r_add r_di r_dj] in *.
        edestruct (charges_shift (w_add wr) (cell (p_lm o lm)) (cell (p_lm o (plus_cost c lm))) a b c) as [t [-> Et]]; [exact Dn| |].
        { intros ad Had. apply plus_cost_p; auto; try lia.
          intros Ho. assert (Hin : In (fst ad, @weight NumQ (snd ad)) (r_add (production wr))).
          { cbn. apply in_map_iff. exists ad. auto. }
          assert (Hgd : fst (fst ad) <= w_di wr).
          { destruct w4 as [_ [_ [Hv _]]]. rewrite forallb_forall in Hv. specialize (Hv (production wr) ltac:(apply in_map; exact Hwr)).
            unfold valid_rule in Hv. apply andb_prop in Hv. destruct Hv as [Hv _]. apply andb_prop in Hv. destruct Hv as [_ Hg].
            apply (going_down_le _ _ _ _ Hg Hin). }
          assert (1 <= a). { unfold p_seed in Hse. rewrite Ho in Hse. unfold pseed in Hse. destruct (Nat.eqb_spec a 0); [discriminate Hse|lia]. }
          destruct (Nat.eq_dec (w_di wr) 0) as [E0|E0]; [lia|].
          specialize (Hlr (production wr) _ ltac:(apply in_map; exact Hwr) Hin ltac:(cbn; lia)). cbn in Hlr. lia. }
        unfold hsh. f_equal. apply Qc_is_canon. rewrite Et, Ew, !this_mul. unfold wt.
        rewrite !this_ofZ.
        setoid_replace (inject_Z (Z.of_nat ((if o_open_begin o then 0 else 1) + (al * a + be * b)))) with
          (inject_Z (Z.of_nat ((if o_open_begin o then 0 else 1) + (al * (a - w_di wr) + be * (b - w_dj wr)))) +
           inject_Z (Z.of_nat (al * w_di wr + be * w_dj wr)))%Q; [ring|].
        rewrite <- inject_Z_plus. apply inject_Z_injective. nia. }
  assert (Hpos : 0 < nr (p_lm o lm) /\ 0 < nc lm) by (rewrite rows_used_p in w8; split; apply w8).
  assert (Edm : dm' = dm).
  { eapply reps_inj; [exact Rs'|exact Rs|]. intros a b Ha Hb0. apply EQ; assumption. }
  subst dm'. rewrite E in Hd. rewrite E'. unfold finish_any in *. change (nc (plus_cost c lm)) with (nc lm). change (nr (plus_cost c lm)) with (nr lm).
  set (last := cmf (nr (p_lm o lm) - 1)) in *. set (last' := cmf' (nr (p_lm o lm) - 1)) in *.
  assert (Ec : choose o (hint sp) (nr lm) (nc lm) last' = choose o (hint sp) (nr lm) (nc lm) last).
  { unfold choose. destruct (o_open_end o) eqn:Eo; [|reflexivity]. specialize (Hoe eq_refl). rewrite Hoe.
    rewrite Hoe in Hh. injection Hh as <- <-. change (String.eqb "N" "NA") with false. cbv iota.
    rewrite <- (nanargmin_map (xsh (Q2Qc (inject_Z (Z.of_nat (wt (o_open_begin o) 1 0 (nr (p_lm o lm) - 1) 0)) / inject_Z (Z.of_nat (nr lm))) * c)%Qc)
       (map (fun j => nrm "N" (nr lm) j (last j)) (seq 0 (nc lm)))) by (try apply xsh_nan; try apply xsh_lt; reflexivity).
    f_equal. rewrite map_map. apply map_ext_in. intros j Hj. apply in_seq in Hj.
    unfold last'. rewrite (proj1 (EQ (nr (p_lm o lm) - 1) j ltac:(lia) ltac:(lia))). fold last. unfold nrm, normalized, hsh.
    change (String.eqb "N" "NA") with false. change (String.eqb "N" "N+M") with false. change (String.eqb "N" "N") with true. cbv iota.
    assert (Hz : qc_eqb (qc_ofZ (Z.of_nat (nr lm))) (Q2Qc 0) = false).
    { apply Bool.not_true_is_false. intros Ez. apply qc_eqb_eq in Ez. apply Qc_eq_this in Ez. rewrite this_ofZ, this_ofQ in Ez.
      change (inject_Z (Z.of_nat (nr lm)) == inject_Z 0)%Q in Ez. apply (proj1 (inject_Z_injective _ _)) in Ez. lia. }
    assert (Hlz : qc_ltb (qc_ofZ (Z.of_nat (nr lm))) (Q2Qc 0) = false).
    { apply qc_ltb_false. unfold Qcle. rewrite this_ofZ, this_ofQ.
      change (inject_Z 0 <= inject_Z (Z.of_nat (nr lm)))%Q. rewrite <- Zle_Qle. lia. }
    destruct (last j) as [| | |v]; cbn [xsh xq_add div NumQ ofZ xq_div]; rewrite ?Hz, ?Hlz; try reflexivity.
    unfold xsh. cbn [xq_add]. f_equal. unfold Qcdiv. apply Qc_is_canon. rewrite !this_mul, !this_add, !this_mul, !this_inv, !this_ofZ, !this_ofQ.
    replace (wt (o_open_begin o) 1 0 (nr (p_lm o lm) - 1) j) with (wt (o_open_begin o) 1 0 (nr (p_lm o lm) - 1) 0) by (unfold wt; lia).
    field. change (~ inject_Z (Z.of_nat (nr lm)) == inject_Z 0)%Q. intros Ez. apply (proj1 (inject_Z_injective _ _)) in Ez. lia. }
  rewrite Ec. destruct (choose o (hint sp) (nr lm) (nc lm) last) as [jm|e| | |] eqn:Ej; cbn [bind] in *; try discriminate.
  assert (Hjm : jm < nc lm) by (eapply choose_bound; [apply Hpos|exact Ej]).
  assert (El : last' jm = hsh (o_open_begin o) al be c (nr (p_lm o lm) - 1) jm (last jm)) by (apply EQ; lia).
  rewrite El. unfold hsh at 1. rewrite xsh_nan.
  destruct (isnan _); [discriminate|].
  destruct (if o_distance_only o then _ else _) as [mp|e| | |]; cbn [bind] in *; try discriminate.
  destruct (o_open_begin o && o_distance_only o); [discriminate|].
  clearbody sp w. injection Hd as <-. eexists. split; [reflexivity|]. unfold result.
  cbn [r_distance r_jmin r_map r_directionMatrix r_stepPattern].
  split; [|repeat split; reflexivity].
  unfold hsh, xsh. cbn [add mul ofZ NumQ xq_mul]. f_equal. f_equal. f_equal. f_equal. f_equal. unfold wt, p_lm.
  destruct (o_open_begin o); [|reflexivity]. destruct (Hob eq_refl) as [-> ->]. cbn [padded nr]. lia.
Qed.

(** For patterns normalized by the query length the normalized distance moves by the
    same constant. *)
Theorem plus_constant_N c cdist x y o (lm : mat NumQ) d k cdist' x' y' :
  costs_of cdist x y lm -> dtw cdist x y o = Ok d -> 0 < nr lm ->
  lookup k pattern_table = Some (r_stepPattern d) -> hint (r_stepPattern d) = "N" ->
  costs_of cdist' x' y' (plus_cost c lm) -> (o_open_begin o = true \/ native_array x' y') ->
  exists d', dtw cdist' x' y' o = Ok d' /\
    r_normalizedDistance d' = add (r_normalizedDistance d) (XFin c : NumQ) /\ r_map d' = r_map d.
Proof.
  intros HC Hd Hq Hk Hh HC' Hn'. destruct (predefined_rules NumQ_laws _ _ Hk) as [l [Hl Hp]].
  destruct (plus_constant c _ _ _ _ _ _ _ 1 0 _ _ _ HC Hd Hq Hk ltac:(rewrite Hh; reflexivity) (fun _ => Hh) HC' Hn')
    as [d' [Hd' [Ed [Ej [Em [_ Es]]]]]].
  exists d'. split; [exact Hd'|]. split; [|exact Em].
  destruct (normalization_rule NumQ_laws _ _ _ _ _ _ _ HC Hd Hp) as [_ [E1 _]].
  destruct (normalization_rule NumQ_laws _ _ _ _ _ d' (productions l) HC' Hd') as [_ [E2 _]]; [rewrite Es; exact Hp|].
  rewrite E1 by exact Hh. rewrite E2 by (rewrite Es; exact Hh). rewrite Ed. change (nr (plus_cost c lm)) with (nr lm).
  replace (if o_open_begin o then nr lm else 1 + (1 * (nr lm - 1) + 0 * r_jmin d)) with (nr lm) by (destruct (o_open_begin o); lia).
  assert (Hz : qc_eqb (qc_ofZ (Z.of_nat (nr lm))) (Q2Qc 0) = false).
  { apply Bool.not_true_is_false. intros Ez. apply qc_eqb_eq in Ez. apply Qc_eq_this in Ez. rewrite this_ofZ, this_ofQ in Ez.
    change (inject_Z (Z.of_nat (nr lm)) == inject_Z 0)%Q in Ez. apply (proj1 (inject_Z_injective _ _)) in Ez. lia. }
  assert (Hlz : qc_ltb (qc_ofZ (Z.of_nat (nr lm))) (Q2Qc 0) = false).
  { apply qc_ltb_false. unfold Qcle. rewrite this_ofZ, this_ofQ.
    change (inject_Z 0 <= inject_Z (Z.of_nat (nr lm)))%Q. rewrite <- Zle_Qle. lia. }
  destruct (r_distance d) as [| | |v]; cbn [xq_add xq_mul div add mul NumQ ofZ xq_div]; rewrite ?Hz, ?Hlz; try reflexivity.
  cbn [xq_add]. f_equal. unfold Qcdiv. apply Qc_is_canon. rewrite !this_mul, !this_add, !this_mul, !this_inv, !this_ofZ.
  field. change (~ inject_Z (Z.of_nat (nr lm)) == inject_Z 0)%Q. intros Ez. apply (proj1 (inject_Z_injective _ _)) in Ez. lia.
Qed.

Lemma plus_minus c lm : plus_cost (- c) (plus_cost c lm) = lm.
Proof.
  destruct lm as [n m l]. unfold plus_cost. cbn [nr nc dat]. f_equal. rewrite map_map. rewrite <- (map_id l) at 2.
  apply map_ext. intros [| | |v]; try reflexivity. cbn. f_equal. ring.
Qed.

(** A call fails for the raised costs exactly when it fails for the original ones. *)
Theorem plus_constant_fails c cdist x y o (lm : mat NumQ) sp rules w k al be cdist' x' y' :
  well_posed cdist x y o lm sp rules w ->
  lookup k pattern_table = Some sp -> hint_law (hint sp) = Some (al, be) ->
  (o_open_end o = true -> hint sp = "N") ->
  costs_of cdist' x' y' (plus_cost c lm) -> (o_open_begin o = true \/ native_array x' y') ->
  forall e, dtw cdist x y o = Raise e -> dtw cdist' x' y' o = Raise e.
Proof.
  intros WP Hk Hh Hoe HC' Hn' e He. pose proof WP as WP0. destruct WP0 as [w1 w2 w3 w4 w5 w6 w7 w8 w9 w10].
  assert (WP' : well_posed cdist' x' y' o (plus_cost c lm) sp rules w) by (constructor; auto).
  assert (F : forall d', dtw cdist' x' y' o = Ok d' -> r_stepPattern d' = sp -> False).
  { intros d' Hd' Es. destruct (plus_constant (- c) cdist' x' y' o (plus_cost c lm) d' k al be cdist x y HC' Hd')
      as [d [Hd _]]; rewrite ?Es; auto.
    - rewrite plus_minus. exact w1.
    - congruence. }
  destruct (o_open_end o) eqn:Eo.
  - destruct (dtw_open_end_iff NumQ_laws _ _ _ _ _ _ _ _ WP' Eo) as [[E _]|[d' [E [Es _]]]]; [|destruct (F _ E Es)].
    destruct (dtw_open_end_iff NumQ_laws _ _ _ _ _ _ _ _ WP Eo) as [[E2 _]|[d' [E2 _]]]; congruence.
  - destruct (dtw_closed_end_iff NumQ_laws _ _ _ _ _ _ _ _ WP' Eo) as [[E _]|[d' [E [Es _]]]]; [|destruct (F _ E Es)].
    destruct (dtw_closed_end_iff NumQ_laws _ _ _ _ _ _ _ _ WP Eo) as [[E2 _]|[d' [E2 _]]]; congruence.
Qed.
