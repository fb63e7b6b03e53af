(** Thm11.v - results in exact arithmetic: total weights and averages (C19),
    rescaling (C23), slanted band (C11). *)
From Coq Require Import ZifyBool ZifyNat QArith Qcanon Lqa.
From Verif Require Import Base Num StepPattern Window Core Backtrack Dtw Spec Api Tables
  NumQ NumQLaws DPProof DtwProof ApiProof ApiThms WalkGeom Vocab Thm1 Thm2 Thm3 Thm7 Thm8 Thm9 Terms.
Open Scope string_scope.
Open Scope list_scope.
Open Scope nat_scope.

(** ** Total weight of a path *)


Definition fracq (q : Z * Z) : Q := (fst q # Z.to_pos (snd q))%Q.
Definition wsum (l : list (nat * nat * (Z * Z))) : Q := fold_right (fun a s => (fracq (snd a) + s)%Q) 0%Q l.

Lemma weight_q q : (1 <= snd q)%Z -> @weight NumQ q = XFin (Q2Qc (fracq q)).
Proof.
  destruct q as [a k]. unfold weight, fracq. cbn [fst snd]. intros H. destruct (Z.eqb_spec k 1).
  - subst. reflexivity.
  - cbn [div ofZ NumQ]. apply frac_q. exact H.
Qed.

Definition denoms (l : list (nat * nat * (Z * Z))) : Prop := forall a, In a l -> (1 <= snd (snd a))%Z.
Lemma fold_weights l s : denoms l ->
  exists t, fold_left (@add NumQ) (map snd (map (fun a => (fst a, @weight NumQ (snd a))) l)) (XFin s) = XFin t /\
    (this t == this s + wsum l)%Q.
Proof.
  revert s. induction l as [|a l IH]; intros s D.
  - exists s. split; [reflexivity|]. cbn. ring.
  - cbn [map fold_left snd]. rewrite weight_q by (apply D; left; reflexivity).
    cbn [add NumQ xq_add]. destruct (IH (s + Q2Qc (fracq (snd a)))%Qc) as [t [E1 E2]].
    { intros b Hb. apply D. right. exact Hb. }
    exists t. split; [exact E1|]. rewrite E2, this_add, this_ofQ. cbn [wsum fold_right]. fold (wsum l). ring.
Qed.

(** every rule of the list weighs al*di + be*dj *)
Definition weighs (al be : nat) (l : list wrule) : Prop :=
  forall r, In r l -> denoms (w_add r) /\
    (wsum (w_add r) == inject_Z (Z.of_nat (al * w_di r + be * w_dj r)))%Q.

Lemma prod_rule l k (r : rule NumQ) : rule_no (productions l) k = Some r -> exists w, In w l /\ r = production w.
Proof.
  destruct k as [|k]; [discriminate|]. cbn [rule_no]. unfold productions. rewrite nth_error_map.
  destruct (nth_error l k) as [w|] eqn:E; [|discriminate]. intros H. injection H as <-.
  exists w. split; [eapply nth_error_In; exact E|reflexivity].
Qed.

Lemma total_weight_known l al be i j ks s : weighs al be l -> known (@productions NumQ l) ks ->
  exists t, total_weight (productions l) (XFin s) ks = XFin t /\
   (this t == this s + inject_Z (Z.of_nat (al * (fst (target (@productions NumQ l) i j ks) - i) +
                                           be * (snd (target (@productions NumQ l) i j ks) - j))))%Q /\
   i <= fst (target (@productions NumQ l) i j ks) /\ j <= snd (target (@productions NumQ l) i j ks).
Proof.
  intros Hw. revert i j s. induction ks as [|k ks IH]; intros i j s Hk.
  - exists s. split; [reflexivity|]. cbn [target fst snd]. rewrite !Nat.sub_diag, !Nat.mul_0_r. split; [cbn; ring|lia].
  - destruct (Hk k (or_introl eq_refl)) as [r Er]. cbn [total_weight target]. rewrite Er.
    destruct (prod_rule _ _ _ Er) as [w [Hin Er']]. destruct (Hw w Hin) as [D Ew]. subst r.
    destruct (fold_weights (w_add w) s D) as [t [E1 E2]].
    cbn [production r_add r_di r_dj]. cbn [production] in E1. rewrite E1.
    destruct (IH (i + w_di w) (j + w_dj w) t) as [u [F1 [F2 [F3 F4]]]].
    { intros k' Hk'. apply Hk. right. exact Hk'. }
    exists u. split; [exact F1|]. split; [|lia]. rewrite F2, E2, Ew.
    rewrite <- Qplus_assoc, <- inject_Z_plus. apply Qplus_comp; [reflexivity|].
    set (q := target _ _ _ _) in *.
    assert (E : (Z.of_nat (al * w_di w + be * w_dj w) + Z.of_nat (al * (fst q - (i + w_di w)) + be * (snd q - (j + w_dj w))) =
                Z.of_nat (al * (fst q - i) + be * (snd q - j)))%Z) by nia.
    rewrite E. reflexivity.
Qed.

Definition wweighs (al be : nat) (l : list wrule) : bool :=
  forallb (fun r => forallb (fun a => (1 <=? snd (snd a))%Z) (w_add r) &&
     Qeq_bool (wsum (w_add r)) (inject_Z (Z.of_nat (al * w_di r + be * w_dj r)))) l.
Lemma wweighs_ok al be l : wweighs al be l = true -> weighs al be l.
Proof.
  intros H r Hr. unfold wweighs in H. rewrite forallb_forall in H. specialize (H r Hr).
  apply andb_prop in H. destruct H as [H1 H2]. split; [|apply Qeq_bool_iff; exact H2].
  intros a Ha. rewrite forallb_forall in H1. specialize (H1 a Ha). lia.
Qed.

Lemma hint_weighs k (sp : steppat NumQ) l al be : lookup k pattern_table = Some sp -> lookup k predefined = Some l ->
  hint_law (hint sp) = Some (al, be) ->
  weighs al be l /\ forallb wnonneg l = true /\ @leaves_row NumQ (productions l).
Proof.
  intros Hk Hl Hh.
  assert (G : forallb (fun kl => match lookup (fst kl) (@pattern_table NumQ) with
     | Some sp => match hint_law (hint sp) with
                  | Some (a, b) => wweighs a b (snd kl) && forallb wnonneg (snd kl) &&
                      forallb (fun r => forallb (fun a => (w_di r =? 0) || (fst (fst a) <? w_di r)) (w_add r)) (snd kl)
                  | None => true end
     | None => false end) predefined = true) by (vm_compute; reflexivity).
  rewrite forallb_forall in G. specialize (G (k, l) (lookup_In _ _ _ Hl)).
  cbn beta in G. cbn [fst snd] in G. rewrite Hk, Hh in G.
  apply andb_prop in G. destruct G as [G G3]. apply andb_prop in G. destruct G as [G1 G2].
  split; [apply wweighs_ok; exact G1|]. split; [exact G2|].
  intros r a Hr Ha Hd. apply in_map_iff in Hr. destruct Hr as [w [<- Hw]].
  rewrite forallb_forall in G3. specialize (G3 w Hw). cbn [production r_add r_di] in *.
  apply in_map_iff in Ha. destruct Ha as [b [<- Hb]]. rewrite forallb_forall in G3. specialize (G3 b Hb).
  cbn [fst]. lia.
Qed.

Lemma XFin_eq (t : Qc) z : (this t == inject_Z z)%Q -> XFin t = @ofZ NumQ z.
Proof. intros H. cbn [ofZ NumQ]. f_equal. apply Qc_is_canon. rewrite H. unfold qc_ofZ. rewrite this_ofQ. reflexivity. Qed.

(** For closed-begin paths the first cell counts with weight 1. *)
Theorem path_weight k (sp : steppat NumQ) l al be (lm : mat NumQ) w kw ks vs ts i j c :
  lookup k pattern_table = Some sp -> lookup k predefined = Some l -> hint_law (hint sp) = Some (al, be) ->
  closed_walk (productions l) lm w kw ks vs ts (i, j) c ->
  total_weight (productions l) (ofZ 1) ks = ofZ (1 + Z.of_nat (al * i + be * j)).
Proof.
  intros Hk Hl Hh W. destruct (hint_weighs _ _ _ _ _ Hk Hl Hh) as [Hw _].
  destruct (walk_replay _ _ _ _ _ _ _ _ _ _ _ W) as [i0 [j0 [c0 [Hs [_ [_ [K [Eq _]]]]]]]].
  unfold closed_source in Hs. destruct (Nat.eqb_spec i0 0); [|discriminate]. destruct (Nat.eqb_spec j0 0); [|discriminate]. subst i0 j0.
  destruct (total_weight_known l al be 0 0 ks (qc_ofZ 1) Hw K) as [t [E1 [E2 _]]].
  rewrite <- Eq in E2. cbn [fst snd] in E2. rewrite !Nat.sub_0_r in E2.
  change (@ofZ NumQ 1) with (XFin (qc_ofZ 1)). rewrite E1. apply XFin_eq. rewrite E2, this_ofZ, <- inject_Z_plus. reflexivity.
Qed.

(** ** Bounds on the cost of a path *)
Section Bounds.
Variables (l : list wrule) (al be : nat) (cost : nat -> nat -> NumQ) (n m low : nat)
          (source : nat -> nat -> option NumQ) (allowed : nat -> nat -> Prop) (lo hi : Qc).
Hypothesis Hw : weighs al be l.
Hypothesis Hnn : forallb wnonneg l = true.
Hypothesis Hc : forall i j, low <= i < n -> j < m -> exists x, cost i j = XFin x /\ (lo <= x)%Qc /\ (x <= hi)%Qc.
Hypothesis Hlow : low = 0 \/ (low = 1 /\ @leaves_row NumQ (productions l) /\
  (forall w, In w l -> wvalid w = true) /\ forall i j, allowed i j -> 1 <= i).

Lemma charges_bound i j adds q : (forall a, In a adds -> low <= i - fst (fst a)) -> i < n -> j < m ->
  denoms adds -> forallb (fun a => (0 <=? fst (snd a))%Z) adds = true ->
  exists t, fold_left (fun c (a : nat * nat * NumQ) => macc c (snd a) (cost (i - fst (fst a)) (j - snd (fst a))))
      (map (fun a => (fst a, @weight NumQ (snd a))) adds) (XFin q) = XFin t /\
   (this q + this lo * wsum adds <= this t)%Q /\ (this t <= this q + this hi * wsum adds)%Q.
Proof.
  intros Hrow Hi Hj. revert q Hrow. induction adds as [|a adds IH]; intros q Hrow D P.
  - exists q. split; [reflexivity|]. cbn [wsum fold_right]. split; apply Qle_lteq; right; ring.
  - cbn [map fold_left fst snd]. cbn [forallb] in P. apply andb_prop in P. destruct P as [P1 P2].
    rewrite weight_q by (apply D; left; reflexivity).
    assert (Ra : low <= i - fst (fst a)) by (apply Hrow; left; reflexivity).
    destruct (Hc (i - fst (fst a)) (j - snd (fst a)) ltac:(lia) ltac:(lia)) as [x [Ex [X1 X2]]].
    rewrite Ex. cbn [macc NumQ xq_add xq_mul].
    destruct (IH (q + Q2Qc (fracq (snd a)) * x)%Qc) as [t [E1 [E2 E3]]]; auto.
    { intros b Hb. apply Hrow. right. exact Hb. } { intros b Hb. apply D. right. exact Hb. }
    exists t. split; [exact E1|]. rewrite this_add, this_mul, this_ofQ in E2, E3.
    unfold Qcle in X1, X2. cbn [wsum fold_right]. fold (wsum adds).
    assert (F : (0 <= fracq (snd a))%Q) by (unfold fracq, Qle; cbn [Qnum Qden]; lia).
    set (f := fracq (snd a)) in *. set (s := wsum adds) in *. split; nra.
Qed.

Lemma walk_bounds ks vs ts p c : walk (productions l) cost n m source allowed ks vs ts p c ->
  forall i0 j0 c0 c0', vs = (i0, j0) :: tl vs -> source i0 j0 = Some c0 -> c0 = XFin c0' ->
  exists t, c = XFin t /\ i0 <= fst p /\ j0 <= snd p /\
   (this c0' + this lo * inject_Z (Z.of_nat (al * (fst p - i0) + be * (snd p - j0))) <= this t)%Q /\
   (this t <= this c0' + this hi * inject_Z (Z.of_nat (al * (fst p - i0) + be * (snd p - j0))))%Q.
Proof.
  intros W. induction W as [i j c Hso Hi Hj | ks vs ts i1 j1 c k r Hwk IH Hk Hi Hj Ha]; intros i0 j0 c0 c0' Ev Es Ec.
  - injection Ev as -> ->. rewrite Hso in Es. injection Es as ->. exists c0'. split; [exact Ec|]. cbn [fst snd].
    rewrite !Nat.sub_diag, !Nat.mul_0_r. split; [lia|]. split; [lia|]. split; apply Qle_lteq; right; cbn; ring.
  - destruct vs as [|v vs']; [inversion Hwk; subst; try discriminate; destruct vs; discriminate|].
    cbn [tl app] in Ev. injection Ev as Ev. subst v.
    destruct (IH i0 j0 c0 c0' eq_refl Es Ec) as [t [E1 [L1 [L2 [E2 E3]]]]]. subst c.
    destruct (prod_rule _ _ _ Hk) as [w [Hin ->]]. destruct (Hw w Hin) as [D Ew].
    pose proof Hnn as Hn'. rewrite forallb_forall in Hn'. specialize (Hn' w Hin).
    cbn [production r_di r_dj] in *.
    destruct (charges_bound (i1 + w_di w) (j1 + w_dj w) (w_add w) t) as [u [F1 [F2 F3]]]; auto.
    { intros a Hina. destruct Hlow as [E|[E [Lv [V Al]]]]; [lia|]. subst low.
      specialize (Al _ _ Ha). destruct (Nat.eq_dec (w_di w) 0) as [Z0|Z0].
      - specialize (V w Hin). unfold wvalid in V. do 3 (apply andb_prop in V; destruct V as [V _]). apply andb_prop in V. destruct V as [_ V].
        clear -V Hina Z0 Al.
        assert (G : forall adds di dj, wdown di dj adds = true -> In a adds -> fst (fst a) <= di).
        { induction adds as [|[[oi oj] q] adds IH]; intros di0 dj0 V3 Hin0; [destruct Hin0|].
          cbn [wdown] in V3. apply andb_prop in V3. destruct V3 as [V1 V2]. destruct Hin0 as [<-|Hin0]; [cbn; lia|].
          specialize (IH _ _ V2 Hin0). lia. }
        specialize (G _ _ _ V Hina). lia.
      - assert (G : fst (fst a) < w_di w); [|lia].
        apply (Lv (production w) (fst a, weight (snd a))); [apply in_map; exact Hin| |cbn; lia].
        cbn [production r_add]. apply (in_map (fun a => (fst a, weight (snd a))) _ a Hina). }
    exists u. split; [exact F1|]. cbn [fst snd] in *. split; [lia|]. split; [lia|].
    rewrite Ew in F2, F3.
    assert (E : (Z.of_nat (al * (i1 + w_di w - i0) + be * (j1 + w_dj w - j0)) =
       Z.of_nat (al * (i1 - i0) + be * (j1 - j0)) + Z.of_nat (al * w_di w + be * w_dj w))%Z) by nia.
    rewrite E, inject_Z_plus. set (A := inject_Z (Z.of_nat (al * (i1 - i0) + be * (j1 - j0)))) in *.
    set (B := inject_Z (Z.of_nat (al * w_di w + be * w_dj w))) in *. split; lra.
Qed.
End Bounds.


Lemma between_fin lo hi lm : isfin lo = true -> isfin hi = true -> costs_between lo hi lm ->
  exists a b, lo = XFin a /\ hi = XFin b /\ forall i j, i < nr lm -> j < nc lm ->
    exists x, cell lm i j = XFin x /\ (a <= x)%Qc /\ (x <= b)%Qc.
Proof.
  intros F1 F2 H. destruct lo as [| | |a]; try discriminate. destruct hi as [| | |b]; try discriminate.
  exists a, b. split; [reflexivity|]. split; [reflexivity|]. intros i j Hi Hj. destruct (H i j Hi Hj) as [G1 G2].
  destruct (cell lm i j) as [| | |x]; cbn in G1, G2; try discriminate.
  exists x. split; [reflexivity|]. split; apply xq_leb_fin; assumption.
Qed.

(** The distance of a closed-begin call with a predefined, normalizable pattern. *)
Theorem distance_bounds cdist x y o (lm : mat NumQ) d k al be lo hi :
  costs_of cdist x y lm -> dtw cdist x y o = Ok d -> 0 < nr lm ->
  lookup k pattern_table = Some (r_stepPattern d) -> hint_law (hint (r_stepPattern d)) = Some (al, be) ->
  o_open_begin o = false -> isfin lo = true -> isfin hi = true -> costs_between lo hi lm ->
  leb (mul lo (ofZ (1 + Z.of_nat (al * (nr lm - 1) + be * r_jmin d)))) (r_distance d) = true /\
  leb (r_distance d) (mul hi (ofZ (1 + Z.of_nat (al * (nr lm - 1) + be * r_jmin d)))) = true.
Proof.
  intros HC H Hn Hk Hh Hb F1 F2 HB.
  destruct (predefined_rules NumQ_laws _ _ Hk) as [l [Hl Hp]].
  destruct (hint_weighs _ _ _ _ _ Hk Hl Hh) as [Hw [Hnn _]].
  destruct (dtw_best NumQ_laws _ _ _ _ _ _ _ HC H Hp) as [[ks [vs [ts [W U]]]] _].
  rewrite Hb in W. unfold admissible, end_cell, closed_walk in W.
  destruct (between_fin _ _ _ F1 F2 HB) as [a [b [-> [-> G]]]].
  destruct (walk_first _ _ _ _ _ _ _ _ _ _ _ W) as [p [c0 [vs' [ts' [E1 [E2 [Hs [P1 P2]]]]]]]].
  unfold closed_source in Hs. destruct (Nat.eqb_spec (fst p) 0) as [Ep1|]; [|discriminate].
  destruct (Nat.eqb_spec (snd p) 0) as [Ep2|]; [|discriminate]. destruct p as [i0 j0]. cbn [fst snd] in *. subst i0 j0.
  destruct (G 0 0 P1 P2) as [c0' [Ec [C1 C2]]].
  assert (Hcc : forall i j, 0 <= i < nr lm -> j < nc lm -> exists x, cell lm i j = XFin x /\ (a <= x)%Qc /\ (x <= b)%Qc).
  { intros i j Hi Hj. apply G; lia. }
  destruct (walk_bounds l al be (cell lm) (nr lm) (nc lm) 0 _ _ a b Hw Hnn Hcc (or_introl eq_refl) _ _ _ _ _ W 0 0 (cell lm 0 0) c0')
    as [t [Et [_ [_ [B1 B2]]]]]; [rewrite E1; reflexivity|reflexivity|exact Ec|].
  rewrite Et. cbn [fst snd] in *. rewrite !Nat.sub_0_r in *. cbn [mul ofZ NumQ xq_mul].
  change (leb (n := NumQ)) with xq_leb. rewrite !xq_leb_fin. unfold Qcle in *. rewrite !this_mul, !this_ofZ.
  rewrite inject_Z_plus. set (A := inject_Z (Z.of_nat _)) in *.
  assert (inject_Z 1 == 1)%Q by reflexivity. split; nra.
Qed.

Lemma div_between (lo hi v : NumQ) z : (1 <= z)%Z -> isfin lo = true -> isfin hi = true ->
  leb (mul lo (ofZ z)) v = true -> leb v (mul hi (ofZ z)) = true ->
  leb lo (div v (ofZ z)) = true /\ leb (div v (ofZ z)) hi = true.
Proof.
  intros Hz F1 F2. destruct lo as [| | |a]; try discriminate. destruct hi as [| | |b]; try discriminate.
  cbn [mul ofZ NumQ xq_mul]. change (leb (n := NumQ)) with xq_leb.
  intros H1 H2. destruct v as [| | |v]; try (cbn in H1, H2; discriminate).
  rewrite xq_leb_fin in *. cbn [div NumQ xq_div].
  assert (E2 : qc_eqb (qc_ofZ z) (Q2Qc 0) = false).
  { apply Bool.not_true_is_false. intros E. apply qc_eqb_eq in E. rewrite <- ofZ_0 in E. apply ofZ_inj in E. lia. }
  rewrite E2, !xq_leb_fin. unfold Qcle, Qcdiv in *. rewrite !this_mul, this_inv in *. rewrite this_ofZ in *.
  assert (P : (0 < inject_Z z)%Q) by (unfold Qlt, inject_Z; cbn; lia).
  split.
  - apply Qle_shift_div_l; assumption.
  - apply Qle_shift_div_r; assumption.
Qed.

(** Hint "N", closed or open begin: the normalized distance is an average. *)
Theorem average_N cdist x y o (lm : mat NumQ) d k lo hi :
  costs_of cdist x y lm -> dtw cdist x y o = Ok d -> 0 < nr lm ->
  lookup k pattern_table = Some (r_stepPattern d) -> hint (r_stepPattern d) = "N" ->
  isfin lo = true -> isfin hi = true -> costs_between lo hi lm ->
  leb lo (r_normalizedDistance d) = true /\ leb (r_normalizedDistance d) hi = true.
Proof.
  intros HC H Hn Hk Hh F1 F2 HB.
  destruct (predefined_rules NumQ_laws _ _ Hk) as [l [Hl Hp]].
  destruct (dtw_fields NumQ_laws _ _ _ _ _ _ _ HC H Hp) as [EN [_ [_ [_ [_ [_ [_ [_ [_ [END _]]]]]]]]]].
  rewrite END, EN, Hh. change (String.eqb "N" "NA") with false. unfold normalized.
  change (String.eqb "N" "N+M") with false. change (String.eqb "N" "N") with true. cbv iota.
  apply div_between; auto; try lia;
  (destruct (o_open_begin o) eqn:Hb;
   [|destruct (distance_bounds _ _ _ _ _ _ k 1 0 lo hi HC H Hn Hk ltac:(rewrite Hh; reflexivity) Hb F1 F2 HB) as [G1 G2];
     replace (1 + Z.of_nat (1 * (nr lm - 1) + 0 * r_jmin d))%Z with (Z.of_nat (nr lm)) in G1, G2 by lia; assumption]).
  all: destruct (hint_weighs _ _ _ 1 0 Hk Hl ltac:(rewrite Hh; reflexivity)) as [Hw [Hnn Hlv]];
    destruct (dtw_best NumQ_laws _ _ _ _ _ _ _ HC H Hp) as [[ks [vs [ts [W U]]]] _];
    rewrite Hb in W; unfold admissible, end_cell, open_walk in W;
    destruct (between_fin _ _ _ F1 F2 HB) as [a [b [-> [-> G]]]];
    destruct (walk_first _ _ _ _ _ _ _ _ _ _ _ W) as [[i0 j0] [c0 [vs' [ts' [E1 [E2 [Hs [P1 P2]]]]]]]];
    cbn [fst snd] in *; unfold open_source in Hs; destruct (Nat.eqb_spec i0 0) as [->|]; [|discriminate]; injection Hs as <-;
    pose proof (costs_of_wf _ _ _ _ HC) as Wf;
    assert (Hcc : forall i j, 1 <= i < nr lm + 1 -> j < nc lm -> exists x, cell (padded lm) i j = XFin x /\ (a <= x)%Qc /\ (x <= b)%Qc)
     by (intros i j Hi Hj; rewrite (padded_cell lm i j Wf) by lia; destruct (Nat.eqb_spec i 0); [lia|]; apply G; lia);
    destruct (walk_bounds l 1 0 (cell (padded lm)) (nr lm + 1) (nc lm) 1 open_source
       (fun i j => 1 <= i /\ in_window (r_windowFunction d) (r_windowArgs d) (nr lm + 1) (nc lm) i j) a b Hw Hnn Hcc)
       with (ks := ks) (vs := vs) (ts := ts) (p := (nr lm, r_jmin d)) (c := r_distance d) (i0 := 0) (j0 := j0) (c0 := @ofZ NumQ 0) (c0' := qc_ofZ 0)
      as [t [Et [_ [_ [B1 B2]]]]];
    [ right; split; [reflexivity|]; split; [exact Hlv|]; split;
      [ destruct (predefined_good _ _ Hl) as [_ [V _]]; rewrite forallb_forall in V; exact V | intros i j [A _]; exact A ]
    | exact W | rewrite E1; reflexivity | reflexivity | reflexivity |].
  all: rewrite Et; cbn [fst snd] in *; rewrite !Nat.sub_0_r in *; cbn [mul ofZ NumQ xq_mul];
    change (leb (n := NumQ)) with xq_leb; rewrite !xq_leb_fin; unfold Qcle in *; rewrite !this_mul, !this_ofZ in *;
    replace (Z.of_nat (1 * nr lm + 0 * (r_jmin d - j0))) with (Z.of_nat (nr lm)) in * by lia;
    assert (inject_Z 0 == 0)%Q by reflexivity; lra.
Qed.

(** Constant local cost. *)
Lemma leb_antisym_fin (a b : NumQ) : leb a b = true -> leb b a = true -> a = b.
Proof.
  intros H1 H2. pose proof (law_le_antisym _ NumQ_laws _ _ H1 H2) as E.
  destruct a, b; cbn in E; try discriminate; try reflexivity. apply qc_eqb_eq in E. congruence.
Qed.
Theorem constant_cost cdist x y o (lm : mat NumQ) d k al be c :
  costs_of cdist x y lm -> dtw cdist x y o = Ok d -> 0 < nr lm ->
  lookup k pattern_table = Some (r_stepPattern d) -> hint_law (hint (r_stepPattern d)) = Some (al, be) ->
  o_open_begin o = false -> isfin c = true -> (forall i j, i < nr lm -> j < nc lm -> cell lm i j = c) ->
  r_distance d = mul c (ofZ (1 + Z.of_nat (al * (nr lm - 1) + be * r_jmin d))).
Proof.
  intros HC H Hn Hk Hh Hb F HB.
  destruct (distance_bounds _ _ _ _ _ _ k al be c c HC H Hn Hk Hh Hb F F) as [G1 G2].
  { intros i j Hi Hj. rewrite (HB i j Hi Hj).
    assert (leb c c = true) by (apply (law_le_refl _ NumQ_laws), (law_fin_not_nan _ NumQ_laws), F). auto. }
  apply leb_antisym_fin; assumption.
Qed.

(** ** Rescaling *)
Definition xscale (c : Qc) (x : NumQ) : NumQ :=
  match x with XFin q => XFin (c * q)%Qc | _ => x end.

Lemma xscale_mul c x : (Q2Qc 0 < c)%Qc -> xscale c x = mul (XFin c : NumQ) x.
Proof.
  intros Hc. destruct x; cbn; try reflexivity; destruct (sgn_inf_cases c true) as [[E ?]|[[E ?]|[E ?]]];
  destruct (sgn_inf_cases c false) as [[E' ?]|[[E' ?]|[E' ?]]]; rewrite ?E, ?E'; try reflexivity; exfalso; subst; qc2q; lra.
Qed.

Lemma xscale_rescaling c : (Q2Qc 0 < c)%Qc -> rescaling (xscale c).
Proof.
  intros Hc. constructor; unfold xscale; xcase.
  - intros []; reflexivity.
  - intros [| | | p] [| | | q]; try reflexivity. cbn. apply eq_true_iff_eq. rewrite !qc_ltb_lt. qc2q. nra.
  - intros [| | | p] [| | | q]; try reflexivity. apply eq_true_iff_eq. rewrite !xq_leb_fin. qc2q. nra.
  - intros a w x. destruct x as [| | |x], w as [| | |w]; destruct a as [| | |a]; cbn; try reflexivity;
    try (sgn; try reflexivity; exfalso; subst; qc2q; nra).
    f_equal. ring.
  - intros x k Hk. 
    assert (E1 : qc_ltb (qc_ofZ k) (Q2Qc 0) = false).
    { apply qc_ltb_false. rewrite <- ofZ_0. apply ofZ_le. lia. }
    assert (E2 : qc_eqb (qc_ofZ k) (Q2Qc 0) = false).
    { apply Bool.not_true_is_false. intros E. apply qc_eqb_eq in E. rewrite <- ofZ_0 in E. apply ofZ_inj in E. lia. }
    destruct x; cbn; rewrite ?E1, ?E2; try reflexivity. f_equal. unfold Qcdiv. ring.
  - reflexivity.
  - reflexivity.
  - cbn. f_equal. rewrite ofZ_0. ring.
Qed.

(** ** The slanted band at the final corner *)
Lemma slanted_corner (ws : NumQ) n m : 0 < n -> 0 < m ->
  (in_window SlantedBand (band ws) n m (n - 1) (m - 1) <->
   leb (vabs (sub (div (ofZ (Z.of_nat m)) (ofZ (Z.of_nat n))) (ofZ 1))) ws = true).
Proof.
  intros Hn Hm. rewrite in_slanted. cbn [sub div ofZ vabs NumQ]. rewrite !frac_q by lia. cbn [xq_opp xq_add xq_abs].
  set (u := (qc_ofZ (Z.of_nat (m - 1)) + - Q2Qc (Z.of_nat (n - 1) * Z.of_nat m # Z.to_pos (Z.of_nat n)))%Qc).
  set (v := (Q2Qc (Z.of_nat m # Z.to_pos (Z.of_nat n)) + - qc_ofZ 1)%Qc).
  assert (E : u = v); [|rewrite E; reflexivity].
  unfold u, v. apply Qc_is_canon. rewrite !this_add, !this_opp, !this_ofZ, !this_ofQ.
  unfold Qeq, Qplus, Qopp, inject_Z. cbn [Qnum Qden]. rewrite !Pos2Z.inj_mul, !Z2Pos.id by lia. nia.
Qed.

Theorem slanted_corner_excluded cdist x y o (lm : mat NumQ) sp rules ws :
  well_posed cdist x y o lm sp rules SlantedBand -> o_open_end o = false -> o_open_begin o = false ->
  o_window_args o = band ws -> ~ (nr lm = 1 /\ nc lm = 1) ->
  leb (vabs (sub (div (ofZ (Z.of_nat (nc lm))) (ofZ (Z.of_nat (nr lm)))) (ofZ 1))) ws = false ->
  dtw cdist x y o = Raise no_path.
Proof.
  intros WP He Hb Ha Hn1 Hc. eapply (corner_excluded NumQ_laws); eauto.
  rewrite Ha. pose proof (wp_query _ _ _ _ _ _ _ _ WP). pose proof (wp_size _ _ _ _ _ _ _ _ WP) as [_ [Q _]].
  rewrite slanted_corner by assumption. rewrite Hc. discriminate.
Qed.
