(** Hold.v - holding samples never shortens the distance (proofs for C65). *)
From Coq Require Import ZifyBool ZifyNat.
From Verif Require Import Base Num StepPattern Window Core Backtrack Dtw Spec Api Tables Vocab Terms SeriesSpec
  NumQ NumQLaws NumF NumFLaws CoreProof DPProof DtwProof ApiProof ApiThms Uniq Thm2 Thm5 WalkGeom ZeroSum Thm24 Derived HoldSpec.
Open Scope string_scope.
Open Scope list_scope.
Open Scope nat_scope.

Lemma holds_range f n n' : holds_samples f n n' -> forall t, t < n' -> f t <= t /\ f t <= n - 1.
Proof.
  intros [H0 [H1 H2]].
  assert (A : forall t, t < n' -> f t <= t).
  { induction t as [|t IH]; intros Ht; [lia|]. destruct (H2 t Ht) as [E|E]; rewrite E; specialize (IH ltac:(lia)); lia. }
  assert (B : forall k t, t + k < n' -> f t <= f (t + k)).
  { induction k as [|k IH]; intros t Ht; [replace (t + 0) with t by lia; lia|].
    specialize (IH t ltac:(lia)). replace (t + S k) with (S (t + k)) in * by lia. destruct (H2 (t + k) Ht); lia. }
  intros t Ht. split; [auto|]. rewrite <- H1. specialize (B (n' - 1 - t) t). replace (t + (n' - 1 - t)) with (n' - 1) in B by lia. apply B. lia.
Qed.
Lemma holds_gap f n n' : holds_samples f n n' -> forall k t, t + k < n' -> exists a, a <= k /\ f (t + k) = f t + a.
Proof.
  intros [_ [_ H2]]. induction k as [|k IH]; intros t Ht.
  - exists 0. split; [lia|]. replace (t + 0) with t by lia. lia.
  - destruct (IH t ltac:(lia)) as [a [A1 A2]]. replace (t + S k) with (S (t + k)) in * by lia.
    destruct (H2 (t + k) Ht) as [E|E]; [exists a|exists (S a)]; split; lia.
Qed.

Lemma src_inv {N : Num} (lm : mat N) i j c : closed_source lm i j = Some c -> i = 0 /\ j = 0 /\ c = cell lm 0 0.
Proof. unfold closed_source. destruct (Nat.eqb_spec i 0); [|discriminate]. destruct (Nat.eqb_spec j 0); [|discriminate]. intros H. injection H as <-. auto. Qed.
Section H.
Context {N : Num} (L : NumLaws N) (G : growing N).
Lemma mono_macc2 (a b x : N) k k' : (k = 1 \/ k = 2)%Z -> (k' = 1 \/ k' = k)%Z -> leb a b = true -> leb (ofZ 0) x = true ->
  good (macc b (ofZ k) x) -> leb (macc a (ofZ k') x) (macc b (ofZ k) x) = true.
Proof.
  intros Hk Hk' Hab Hx Hg.
  assert (E : k' = k \/ (k' = 1 /\ k = 2)%Z) by lia. destruct E as [->|[-> ->]].
  - apply (law_macc_mono _ L); assumption.
  - assert (G2 : leb (macc a (ofZ 2) x) (macc b (ofZ 2) x) = true) by (apply (law_macc_mono _ L); assumption).
    eapply (law_le_trans _ L); [|exact G2]. apply (proj2 G); [exact Hx|]. unfold good in *. eapply (law_le_lt_trans _ L); eassumption.
Qed.
Lemma in_rule_no (rules : list (rule N)) r : In r rules -> exists k, rule_no rules k = Some r.
Proof.
  intros H. apply In_nth_error in H. destruct H as [n Hn]. exists (S n). unfold rule_no. exact Hn.
Qed.

Lemma shorten_walk q r rules f h (lm lm' : mat N) (al al' : nat -> nat -> Prop) ks vs ts p c :
  can_shorten q r rules -> held f h lm lm' -> nonneg_costs lm ->
  (q = false -> forall t, t < nr lm' -> f t = t) -> (r = false -> forall t, t < nc lm' -> h t = t) ->
  (forall i j, i < nr lm' -> j < nc lm' -> al' i j -> al (f i) (h j)) ->
  0 < nr lm -> 0 < nc lm ->
  walk rules (cell lm') (nr lm') (nc lm') (closed_source lm') al' ks vs ts p c -> usable ks c ->
  exists ks' vs' ts' c', walk rules (cell lm) (nr lm) (nc lm) (closed_source lm) al ks' vs' ts' (f (fst p), h (snd p)) c' /\
    usable ks' c' /\ leb c' c = true /\ fst p < nr lm' /\ snd p < nc lm'.
Proof.
  intros Hs [Hf [Hh Hcell]] Hnn Hq Hr Hal Hn Hm W. induction W as [i j c Hso Hi Hj | ks vs ts i1 j1 c k rl Hwk IH Hk Hi Hj Ha]; intros [U1 U2].
  - destruct (src_inv _ _ _ _ Hso) as [-> [-> ->]]. cbn [fst snd].
    pose proof (proj1 Hf) as F0. pose proof (proj1 Hh) as H0. rewrite F0, H0.
    eexists [], _, _, (cell lm 0 0). split; [apply walk_start; [reflexivity|exact Hn|exact Hm]|].
    rewrite (Hcell 0 0 Hi Hj), F0, H0 in U1 |- *. split; [split; [exact U1|intros C; contradiction]|].
    split; [apply (law_le_refl _ L); exact U1|]. split; assumption.
  - cbn [fst snd]. assert (Hg : good (charge (cell lm') rl (i1 + r_di rl) (j1 + r_dj rl) c)) by (apply U2; destruct ks; discriminate).
    destruct (Hs rl (rule_no_in _ _ _ Hk)) as [w [Hw [Ead Hsh]]].
    unfold charge in Hg |- *. rewrite Ead in Hg |- *. cbn [fold_left fst snd] in Hg |- *. rewrite !Nat.sub_0_r in Hg |- *.
    rewrite (Hcell _ _ Hi Hj) in Hg |- *.
    assert (Hc : good c) by (eapply (law_macc_good _ L); exact Hg).
    destruct IH as [ks' [vs' [ts' [c' [W' [V [LE [I1 J1]]]]]]]].
    { split; [apply (law_good_not_nan _ L); exact Hc|intros _; exact Hc]. }
    cbn [fst snd] in W', I1, J1.
    destruct (holds_gap _ _ _ Hf (r_di rl) i1 Hi) as [a [A1 A2]]. destruct (holds_gap _ _ _ Hh (r_dj rl) j1 Hj) as [b [B1 B2]].
    destruct (holds_range _ _ _ Hf _ Hi) as [_ Fi]. destruct (holds_range _ _ _ Hh _ Hj) as [_ Hj'].
    assert (Fi' : f (i1 + r_di rl) < nr lm) by lia. assert (Hj'' : h (j1 + r_dj rl) < nc lm) by lia.
    assert (X0 : leb (ofZ 0) (cell lm (f (i1 + r_di rl)) (h (j1 + r_dj rl))) = true).
    { destruct (Hnn _ _ Fi' Hj'') as [X|X]; [exact X|]. exfalso.
      assert (Gx : good (cell lm (f (i1 + r_di rl)) (h (j1 + r_dj rl)))).
      { eapply (law_macc_obstacle _ L); [|exact Hg]. rewrite (law_le_ofZ _ L) by lia. lia. }
      apply (law_good_not_nan _ L) in Gx. congruence. }
    assert (Gc' : good c') by (unfold good in *; eapply (law_le_lt_trans _ L); eassumption).
    assert (Qa : q = false -> a = r_di rl) by (intros E; rewrite !(Hq E) in A2 by lia; lia).
    assert (Rb : r = false -> b = r_dj rl) by (intros E; rewrite !(Hr E) in B2 by lia; lia).
    destruct (Hsh a b A1 Qa B1 Rb) as [[-> ->]|[p' [k' [Pin [Pi [Pj [Pk Pad]]]]]]].
    + exists ks', vs', ts', c'. rewrite A2, B2, !Nat.add_0_r in *. split; [exact W'|]. split; [exact V|]. split; [|lia].
      eapply (law_le_trans _ L); [exact LE|]. apply (proj1 G); assumption.
    + destruct (in_rule_no _ _ Pin) as [n Hn'].
      assert (LE2 : leb (macc c' (ofZ k') (cell lm (f (i1 + r_di rl)) (h (j1 + r_dj rl)))) (macc c (ofZ w) (cell lm (f (i1 + r_di rl)) (h (j1 + r_dj rl)))) = true).
      { apply mono_macc2; assumption. }
      eexists (ks' ++ [n]), _, _, (charge (cell lm) p' (f i1 + r_di p') (h j1 + r_dj p') c'). split; [|split; [|split]].
      * rewrite A2, B2, <- Pi, <- Pj. apply walk_step; [exact W'|exact Hn'| | |].
        { rewrite Pi, <- A2. exact Fi'. } { rewrite Pj, <- B2. exact Hj''. } { rewrite Pi, Pj, <- A2, <- B2. apply Hal; [exact Hi|exact Hj|exact Ha]. }
      * unfold charge. rewrite Pad. cbn [fold_left fst snd]. rewrite !Nat.sub_0_r, Pi, Pj, <- A2, <- B2.
        assert (Gg : good (macc c' (ofZ k') (cell lm (f (i1 + r_di rl)) (h (j1 + r_dj rl))))) by (unfold good in *; eapply (law_le_lt_trans _ L); eassumption).
        split; [apply (law_good_not_nan _ L); exact Gg|intros _; exact Gg].
      * unfold charge. rewrite Pad. cbn [fold_left fst snd]. rewrite !Nat.sub_0_r, Pi, Pj, <- A2, <- B2. exact LE2.
      * lia.
Qed.
End H.

Lemma holds_len f n n' : holds_samples f n n' -> 0 < n -> 0 < n' -> n <= n'.
Proof. intros H Hn Hn'. destruct (holds_range _ _ _ H (n' - 1) ltac:(lia)) as [A _]. destruct H as [_ [H1 _]]. lia. Qed.

Section H2.
Context {N : Num} (L : NumLaws N) (G : growing N).
Theorem held_distance q r f h cdist x y cdist' x' y' o (lm lm' : mat N) d' rules t2 kw2 w2 :
  costs_of cdist' x' y' lm' -> dtw cdist' x' y' o = Ok d' -> pattern_rules (r_stepPattern d') rules ->
  can_shorten q r rules ->
  (q = false -> forall t, t < nr lm' -> f t = t) -> (r = false -> forall t, t < nc lm' -> h t = t) ->
  o_open_begin o = false -> o_open_end o = false ->
  costs_of cdist x y lm -> native_array x y -> 0 < nr lm -> 0 < nc lm -> nr lm' <> 0 -> held f h lm lm' -> nonneg_costs lm ->
  window_of t2 w2 -> window_total w2 kw2 (nr lm) (nc lm) ->
  (forall i j, i < nr lm' -> j < nc lm' -> in_window (r_windowFunction d') (o_window_args o) (nr lm') (nc lm') i j ->
     in_window w2 kw2 (nr lm) (nc lm) (f i) (h j)) ->
  exists d, dtw cdist x y (set_window o t2 kw2) = Ok d /\ leb (r_distance d) (r_distance d') = true.
Proof.
  intros HC' Hd' Hp Hs Hq Hr Hob Hoe HC Hn H0 H1 H0' Hh Hnn Hw2 Ht Hal.
  pose proof (ok_well_posed L _ _ _ _ _ _ _ HC' Hd' Hp ltac:(lia)) as [A1 A2 A3 A4 A5 A6 A7 A8 A9 A10].
  unfold rows_used in *. rewrite Hob in *.
  assert (M0 : 0 < nc lm') by apply A8.
  assert (LN : nr lm <= nr lm') by (eapply holds_len; [apply Hh|assumption|lia]).
  assert (LM : nc lm <= nc lm') by (eapply holds_len; [apply Hh|assumption|lia]).
  assert (WP : well_posed cdist x y (set_window o t2 kw2) lm (r_stepPattern d') rules w2).
  { constructor; cbn [set_window o_open_begin o_open_end o_step_pattern o_window_type o_window_args o_distance_only]; auto.
    - unfold rows_used. rewrite Hob. exact Ht.
    - unfold rows_used. rewrite Hob. destruct A8 as [_ [_ A8]]. split; [exact H0|]. split; [exact H1|].
      clear - A8 LN LM. nia.
    - intros E. congruence. }
  pose proof (dtw_best L _ _ _ _ _ _ _ HC' Hd' Hp) as [[ks [vs [ts [W U]]]] _].
  destruct (dtw_fields L _ _ _ _ _ _ _ HC' Hd' Hp) as [_ [_ [_ [_ [_ [Ea [_ [_ [Hj _]]]]]]]]].
  rewrite Hob, Ea, (Hj Hoe) in W. cbn [admissible end_cell] in W.
  destruct (shorten_walk L G q r rules f h lm lm' (in_window w2 kw2 (nr lm) (nc lm)) _ _ _ _ _ _ Hs Hh Hnn Hq Hr Hal H0 H1 W U) as [ks' [vs' [ts' [c' [W' [U' [LE _]]]]]]].
  unfold end_cell in W'. cbn [fst snd] in W'. rewrite (proj1 (proj2 (proj1 Hh))), (proj1 (proj2 (proj1 (proj2 Hh)))) in W'.
  destruct (dtw_closed_end_iff L _ _ _ _ _ _ _ _ WP Hoe) as [[_ F]|[d [E [S1 [S2 _]]]]].
  - exfalso. cbn [set_window o_open_begin o_window_args] in F. rewrite Hob in F. exact (F _ _ _ _ W' U').
  - exists d. split; [exact E|].
    assert (Hp2 : pattern_rules (r_stepPattern d) rules) by (rewrite S1; exact Hp).
    destruct (dtw_fields L _ _ _ _ _ _ _ HC E Hp2) as [_ [_ [_ [_ [_ [Ea2 [_ [_ [Hj2 _]]]]]]]]].
    pose proof (dtw_best L _ _ _ _ _ _ _ HC E Hp2) as [_ B]. cbn [set_window o_open_begin] in B.
    rewrite Hob, Ea2, (Hj2 Hoe), S2 in B. cbn [admissible end_cell set_window o_window_args] in B.
    eapply (law_le_trans _ L); [exact (B _ _ _ _ W' U')|exact LE].
Qed.
End H2.

Lemma modelled_growing N : modelled N -> growing N.
Proof. intros [->|[->| ->]]; [exact growing_Q|exact growing_F|exact growing_FMA]. Qed.

(** The patterns that can be shortened. *)
Lemma sym_shorten {N : Num} k : (k = 1 \/ k = 2)%Z -> can_shorten true true (@sym_rules N (ofZ k)).
Proof.
  intros Hk p Hp. cbn [In sym_rules] in Hp.
  assert (R : forall a b, a <= 1 -> b <= 1 -> (a = 0 /\ b = 0) \/ exists p' k', In p' (@sym_rules N (ofZ k)) /\ r_di p' = a /\ r_dj p' = b /\
     ((k' = 1)%Z \/ (k' = k /\ a = 1 /\ b = 1)) /\ r_add p' = [(0, 0, ofZ k')]).
  { intros a b Ha Hb. destruct a as [|[|a]]; [| |lia]; (destruct b as [|[|b]]; [| |lia]).
    - left; auto.
    - right. eexists _, 1%Z. split; [right; left; reflexivity|]. cbn [r_di r_dj r_add]. repeat split; auto.
    - right. eexists _, 1%Z. split; [right; right; left; reflexivity|]. cbn [r_di r_dj r_add]. repeat split; auto.
    - right. eexists _, k. split; [left; reflexivity|]. cbn [r_di r_dj r_add]. repeat split; auto. }
  destruct Hp as [<-|[<-|[<-|[]]]]; cbn [r_di r_dj r_add].
  - exists k. split; [exact Hk|]. split; [reflexivity|]. intros a b Ha _ Hb _. destruct (R a b Ha Hb) as [?|[p' [k' [P1 [P2 [P3 [P4 P5]]]]]]]; [left; assumption|right; exists p', k'; repeat split; auto; tauto].
  - exists 1%Z. split; [auto|]. split; [reflexivity|]. intros a b Ha _ Hb _. destruct (R a b ltac:(lia) Hb) as [?|[p' [k' [P1 [P2 [P3 [P4 P5]]]]]]]; [left; assumption|right; exists p', k'; repeat split; auto; lia].
  - exists 1%Z. split; [auto|]. split; [reflexivity|]. intros a b Ha _ Hb _. destruct (R a b Ha ltac:(lia)) as [?|[p' [k' [P1 [P2 [P3 [P4 P5]]]]]]]; [left; assumption|right; exists p', k'; repeat split; auto; lia].
Qed.
Definition asym_rules {N : Num} : list (rule N) :=
  [Rule 1 0 [(0, 0, ofZ 1)]; Rule 1 1 [(0, 0, ofZ 1)]; Rule 1 2 [(0, 0, ofZ 1)]].
Lemma asym_shorten {N : Num} : can_shorten false true (@asym_rules N).
Proof.
  intros p Hp. cbn [In asym_rules] in Hp. exists 1%Z. split; [auto|].
  assert (E : r_di p = 1 /\ r_dj p <= 2 /\ r_add p = [(0, 0, ofZ 1)]) by (destruct Hp as [<-|[<-|[<-|[]]]]; cbn; auto).
  destruct E as [E1 [E2 E3]]. split; [exact E3|]. intros a b _ Ha Hb _. rewrite (Ha eq_refl), E1. right.
  exists (Rule 1 b [(0, 0, ofZ 1)]), 1%Z. cbn [r_di r_dj r_add]. repeat split; auto.
  destruct b as [|[|[|b]]]; [| | |lia]; cbn [In asym_rules]; auto.
Qed.
Lemma asym_lookup {N : Num} l : lookup "asymmetric" predefined = Some l -> @productions N l = asym_rules.
Proof. intros H. vm_compute in H. injection H as <-. reflexivity. Qed.

Theorem held_named (N : Num) f h cdist x y cdist' x' y' o (lm lm' : mat N) d' nm :
  modelled N -> costs_of cdist' x' y' lm' -> dtw cdist' x' y' o = Ok d' -> 0 < nr lm' ->
  lookup nm pattern_table = Some (r_stepPattern d') ->
  nm = "symmetric1" \/ nm = "symmetric2" \/ (nm = "asymmetric" /\ forall t, t < nr lm' -> f t = t) ->
  r_windowFunction d' = NoWindow -> o_open_begin o = false -> o_open_end o = false ->
  costs_of cdist x y lm -> native_array x y -> 0 < nr lm -> 0 < nc lm ->
  held f h lm lm' -> nonneg_costs lm ->
  exists d, dtw cdist x y o = Ok d /\ leb (r_distance d) (r_distance d') = true.
Proof.
  intros HN HC' Hd' Hq Hk Hnm Hw Hob Hoe HC Hn H0 H1 Hh Hnn. destruct (modelled_laws N HN) as [L _].
  pose proof (modelled_growing N HN) as G.
  destruct (predefined_rules L _ _ Hk) as [l [Hl Hp]].
  destruct (dtw_fields L _ _ _ _ _ _ _ HC' Hd' Hp) as [_ [_ [_ [_ [HW _]]]]]. rewrite Hw in HW.
  assert (EO : set_window o (o_window_type o) (o_window_args o) = o) by (destruct o; reflexivity).
  assert (X : exists q, can_shorten q true (@productions N l) /\ (q = false -> forall t, t < nr lm' -> f t = t)).
  { destruct Hnm as [E|[E|[E F]]].
    - destruct (sym_lookup (N := N) nm l (or_introl E) Hl) as [k [K El]]. exists true. rewrite El. split; [apply sym_shorten; exact K|discriminate].
    - destruct (sym_lookup (N := N) nm l (or_intror E) Hl) as [k [K El]]. exists true. rewrite El. split; [apply sym_shorten; exact K|discriminate].
    - subst nm. exists false. rewrite (asym_lookup l Hl). split; [exact asym_shorten|intros _; exact F]. }
  destruct X as [q [S Hf]].
  destruct (held_distance L G q true f h cdist x y cdist' x' y' o lm lm' d' _ (o_window_type o) (o_window_args o) NoWindow HC' Hd' Hp S Hf) as [d D]; auto.
  - discriminate.
  - lia.
  - exact I.
  - intros; exact I.
  - rewrite EO in D. exists d. exact D.
Qed.

Theorem held_any (N : Num) q r f h cdist x y cdist' x' y' o (lm lm' : mat N) d' rules t2 kw2 w2 :
  modelled N ->
  costs_of cdist' x' y' lm' -> dtw cdist' x' y' o = Ok d' -> pattern_rules (r_stepPattern d') rules ->
  can_shorten q r rules ->
  (q = false -> forall t, t < nr lm' -> f t = t) -> (r = false -> forall t, t < nc lm' -> h t = t) ->
  o_open_begin o = false -> o_open_end o = false ->
  costs_of cdist x y lm -> native_array x y -> 0 < nr lm -> 0 < nc lm -> nr lm' <> 0 -> held f h lm lm' -> nonneg_costs lm ->
  window_of t2 w2 -> window_total w2 kw2 (nr lm) (nc lm) ->
  (forall i j, i < nr lm' -> j < nc lm' -> in_window (r_windowFunction d') (o_window_args o) (nr lm') (nc lm') i j ->
     in_window w2 kw2 (nr lm) (nc lm) (f i) (h j)) ->
  exists d, dtw cdist x y (set_window o t2 kw2) = Ok d /\ leb (r_distance d) (r_distance d') = true.
Proof. intros HN. exact (held_distance (proj1 (modelled_laws N HN)) (modelled_growing N HN) q r f h cdist x y cdist' x' y' o lm lm' d' rules t2 kw2 w2). Qed.
