(** Looser.v - looser step patterns give smaller distances (C74). *)
From Coq Require Import Reals ZifyBool ZifyNat.
From Flocq Require Import Core Calc.Operations IEEE754.BinarySingleNaN.
From Verif Require Import Base Num NumF NumFLaws NumQ NumQLaws StepPattern Window Core Backtrack Dtw Spec Api ApiProof ApiThms Vocab Thm2 Thm5 SeriesSpec ZeroSum Thm9 Thm10 Thm31 Thm23 Thm24 Hold Derived Tables Terms StepPattern PatSpec.
Import ListNotations.
Open Scope string_scope.
Open Scope list_scope.
Open Scope nat_scope.

(** Weight and cost are interchangeable, and adding w * 0 does not decrease a sum. *)
Definition swaps (N : Num) : Prop :=
  (forall a w x : N, macc a w x = macc a x w) /\
  (forall a w : N, isnan a = false -> isfin w = true -> leb a (macc a w (ofZ 0)) = true).

Lemma f_mul_comm (x y : f64) : f_mul x y = f_mul y x.
Proof.
  unfold f_mul, Bmult. destruct x as [a|a| |a mx ex Hx], y as [b|b| |b my ey Hy]; try reflexivity; try (rewrite xorb_comm; reflexivity).
  apply B2SF_inj. rewrite !B2SF_SF2B.
  rewrite (xorb_comm a b), (Pos.mul_comm mx my), (Z.add_comm ex ey). try rewrite S. reflexivity.
Qed.
Lemma f_fma_comm (x y z : f64) : Bfma mode_NE x y z = Bfma mode_NE y x z.
Proof.
  assert (S : Bfma_szero _ _ mode_NE x y z = Bfma_szero _ _ mode_NE y x z).
  { unfold Bfma_szero. rewrite (xorb_comm (Bsign x) (Bsign y)). reflexivity. }
  unfold Bfma. destruct x as [a|a| |a mx ex Hx], y as [b|b| |b my ey Hy]; try reflexivity; try (rewrite S; reflexivity); try (rewrite (xorb_comm a b); reflexivity).
  destruct z as [c|c| |c mz ez Hz]; try reflexivity.
  - unfold Fmult. rewrite (Z.mul_comm (cond_Zopp a _)), (Z.add_comm ex ey). try rewrite S. reflexivity.
  - unfold Fmult. rewrite (Z.mul_comm (cond_Zopp a _)), (Z.add_comm ex ey). try rewrite S. reflexivity.
Qed.

Lemma swaps_F : swaps NumF.
Proof.
  split; [intros a w x; cbn [NumF macc V]; rewrite f_mul_comm; reflexivity|].
  intros a w Ha Hw. cbn [NumF V leb macc ofZ isnan isfin] in *.
  assert (E : exists s, f_mul w (f_ofZ 0) = B754_zero s).
  { destruct w as [b|b| |b m e H]; try discriminate; eexists; reflexivity. }
  destruct E as [s ->]. apply gr_add_zero. exact Ha.
Qed.
Lemma swaps_FMA : swaps NumFMA.
Proof.
  split; [intros a w x; apply f_fma_comm|]. intros a w Ha Hw. apply gr_fma_zero; assumption.
Qed.
Lemma swaps_Q : swaps NumQ.
Proof.
  split.
  - intros a w x. cbn [NumQ V macc]. f_equal. destruct w, x; cbn [xq_mul]; try reflexivity. rewrite Qcanon.Qcmult_comm. reflexivity.
  - intros a w Ha Hw. cbn [NumQ V leb macc ofZ isnan isfin] in *. destruct w as [| | |q]; try discriminate.
    destruct a as [| | |p]; try discriminate; try reflexivity. cbn [xq_mul xq_add]. apply xq_leb_fin. rewrite ofZ_0.
    rewrite Qcanon.Qcmult_comm, Qcanon.Qcmult_0_l, Qcanon.Qcplus_0_r. apply Qcanon.Qcle_refl.
Qed.
Lemma modelled_swaps N : modelled N -> swaps N.
Proof. intros [-> | [-> | ->]]; [apply swaps_Q|apply swaps_F|apply swaps_FMA]. Qed.

Section L.
Context {N : Num} (L : NumLaws N) (S : swaps N).

Lemma macc_weight (a w w' x : N) : leb (ofZ 0) w' = true -> leb w' w = true -> leb (ofZ 0) x = true ->
  good (macc a w x) -> leb (macc a w' x) (macc a w x) = true.
Proof.
  intros H0 Hw Hx G. rewrite !(proj1 S a _ x) in *. apply (law_macc_mono_x _ L); assumption.
Qed.
Lemma macc_grows (a w x : N) : isfin w = true -> leb (ofZ 0) w = true -> leb (ofZ 0) x = true ->
  good (macc a w x) -> leb a (macc a w x) = true.
Proof.
  intros Hf Hw Hx G. pose proof (law_good_not_nan _ L _ (law_macc_good _ L _ _ _ G)) as Ha.
  eapply (law_le_trans _ L); [apply (proj2 S a w Ha Hf)|].
  apply (law_macc_mono_x _ L); auto. apply (law_le_refl _ L), (law_fin_not_nan _ L), (law_fin_ofZ _ L). lia.
Qed.

Definition pay (cost : nat -> nat -> N) (i j : nat) (l : list (nat * nat * N)) (c : N) : N :=
  fold_left (fun c a => macc c (snd a) (cost (i - fst (fst a)) (j - snd (fst a)))) l c.
Lemma pay_good cost i j l c : good (pay cost i j l c) -> good c.
Proof.
  revert c. induction l as [|a l IH]; intros c H; [exact H|]. cbn [pay fold_left] in H.
  apply IH in H. eapply (law_macc_good _ L); exact H.
Qed.
Lemma pay_cheaper cost i j l' l : (forall a b, leb (ofZ 0) (cost (i - a) (j - b)) = true \/ isnan (cost (i - a) (j - b)) = true) ->
  cheaper l' l -> forall c' c, leb c' c = true -> good (pay cost i j l c) -> leb (pay cost i j l' c') (pay cost i j l c) = true.
Proof.
  intros Hn H. induction H as [|p w' w l' l H0 Hw H IH|a l' l Hf H0 H IH]; intros c' c Hc G.
  - exact Hc.
  - cbn [pay fold_left fst snd] in *. apply IH; [|exact G]. apply pay_good in G.
    assert (Hx : leb (ofZ 0) (cost (i - fst p) (j - snd p)) = true).
    { destruct (Hn (fst p) (snd p)) as [X|X]; [exact X|]. exfalso.
      assert (G' : good (cost (i - fst p) (j - snd p))).
      { eapply (law_macc_obstacle _ L); [|exact G]. eapply (law_le_trans _ L); eassumption. }
      apply (law_good_not_nan _ L) in G'. congruence. }
    eapply (law_le_trans _ L); [apply (law_macc_mono _ L _ c); [exact Hc|]|].
    + pose proof (macc_weight c w w' _ H0 Hw Hx G) as M. unfold good in *. eapply (law_le_lt_trans _ L); eassumption.
    + apply macc_weight; assumption.
  - cbn [pay fold_left fst snd] in *. apply IH; [|exact G]. apply pay_good in G.
    eapply (law_le_trans _ L); [exact Hc|]. apply macc_grows; auto.
    destruct (Hn (fst (fst a)) (snd (fst a))) as [X|X]; [exact X|]. exfalso.
    assert (G' : good (cost (i - fst (fst a)) (j - snd (fst a)))) by (eapply (law_macc_obstacle _ L); [|exact G]; exact H0).
    apply (law_good_not_nan _ L) in G'. congruence.
Qed.

(** Productions applied one after the other. *)
Lemma pay_app cost i j l1 l2 c : pay cost i j (l1 ++ l2) c = pay cost i j l2 (pay cost i j l1 c).
Proof. unfold pay. apply fold_left_app. Qed.
Lemma pay_shift cost i j a b l c : pay cost (i + a) (j + b) (map (fun x => (fst (fst x) + a, snd (fst x) + b, snd x)) l) c = pay cost i j l c.
Proof.
  revert c. induction l as [|x l IH]; intros c; [reflexivity|]. cbn [map pay fold_left fst snd].
  replace (i + a - (fst (fst x) + a)) with (i - fst (fst x)) by lia. replace (j + b - (snd (fst x) + b)) with (j - snd (fst x)) by lia.
  apply IH.
Qed.

Lemma walk_parts rules cost n m src al parts : (forall q, In q parts -> In q rules) ->
  forall ks vs ts i0 j0 c, walk rules cost n m src al ks vs ts (i0, j0) c ->
  i0 + r_di (one_after_other parts) < n -> j0 + r_dj (one_after_other parts) < m ->
  (forall p q, parts = p ++ q -> p <> [] -> al (i0 + r_di (one_after_other p)) (j0 + r_dj (one_after_other p))) ->
  exists ks' vs' ts', walk rules cost n m src al (ks ++ ks') vs' ts' (i0 + r_di (one_after_other parts), j0 + r_dj (one_after_other parts))
    (pay cost (i0 + r_di (one_after_other parts)) (j0 + r_dj (one_after_other parts)) (r_add (one_after_other parts)) c) /\ (parts <> [] -> ks' <> []).
Proof.
  induction parts as [|r rest IH]; intros Hin ks vs ts i0 j0 c W Hi Hj Hal.
  - exists [], vs, ts. cbn [one_after_other r_di r_dj r_add pay fold_left]. rewrite app_nil_r, !Nat.add_0_r. split; [exact W|auto].
  - cbn [one_after_other r_di r_dj r_add] in Hi, Hj |- *.
    destruct (in_rule_no rules r (Hin r (or_introl eq_refl))) as [k Hk].
    assert (W1 : walk rules cost n m src al (ks ++ [k]) (vs ++ [(i0 + r_di r, j0 + r_dj r)])
         (ts ++ inner_points r (i0 + r_di r) (j0 + r_dj r) ++ [(i0 + r_di r, j0 + r_dj r)])
         (i0 + r_di r, j0 + r_dj r) (charge cost r (i0 + r_di r) (j0 + r_dj r) c)).
    { apply walk_step; auto; try lia. specialize (Hal [r] rest eq_refl ltac:(discriminate)).
      cbn [one_after_other r_di r_dj] in Hal. rewrite !Nat.add_0_r in Hal. exact Hal. }
    destruct (IH ltac:(intros q Hq; apply Hin; right; exact Hq) _ _ _ _ _ _ W1 ltac:(lia) ltac:(lia)) as [ks' [vs' [ts' [W2 _]]]].
    { intros p q E Hp. specialize (Hal (r :: p) q ltac:(rewrite E; reflexivity) ltac:(discriminate)).
      cbn [one_after_other r_di r_dj] in Hal. rewrite <- !Nat.add_assoc. exact Hal. }
    exists ([k] ++ ks'), vs', ts'. split; [|discriminate].
    rewrite app_assoc, !Nat.add_assoc. rewrite pay_app, pay_shift. exact W2.
Qed.

(** A walk with productions [rules] as a walk with productions [rules']. *)
Lemma finer_walk rules rules' (cost : nat -> nat -> N) n m src (al : nat -> nat -> Prop) :
  (forall i j, i < n -> j < m -> leb (ofZ 0) (cost i j) = true \/ isnan (cost i j) = true) ->
  (forall r, In r rules -> exists parts, parts <> [] /\ (forall q, In q parts -> In q rules') /\
     r_di (one_after_other parts) = r_di r /\ r_dj (one_after_other parts) = r_dj r /\ cheaper (r_add (one_after_other parts)) (r_add r) /\
     (forall i0 j0 p q, i0 + r_di r < n -> j0 + r_dj r < m -> al (i0 + r_di r) (j0 + r_dj r) ->
        parts = p ++ q -> p <> [] -> al (i0 + r_di (one_after_other p)) (j0 + r_dj (one_after_other p)))) ->
  forall ks vs ts p c, walk rules cost n m src al ks vs ts p c -> usable ks c ->
  exists ks' vs' ts' c', walk rules' cost n m src al ks' vs' ts' p c' /\ usable ks' c' /\ leb c' c = true.
Proof.
  intros Hnn Hr ks vs ts p c W. induction W as [i j c Hs Hi Hj|ks vs ts i0 j0 c k r W IH Hk Hi Hj Ha]; intros [U1 U2].
  - exists [], [(i, j)], [(i, j)], c. split; [apply walk_start; assumption|]. split; [split; [exact U1|intros C; contradiction]|].
    apply (law_le_refl _ L); exact U1.
  - assert (G : good (charge cost r (i0 + r_di r) (j0 + r_dj r) c)) by (apply U2; destruct ks; discriminate).
    change (charge cost r (i0 + r_di r) (j0 + r_dj r) c) with (pay cost (i0 + r_di r) (j0 + r_dj r) (r_add r) c) in G |- *.
    assert (Gc : good c) by (eapply pay_good; exact G).
    destruct IH as [ks' [vs' [ts' [c' [W' [V LE]]]]]].
    { split; [apply (law_good_not_nan _ L); exact Gc|intros _; exact Gc]. }
    destruct (Hr r (rule_no_in _ _ _ Hk)) as [parts [Hne [Hin [E1 [E2 [Hch Hpass]]]]]].
    destruct (walk_parts rules' cost n m src al parts Hin ks' vs' ts' i0 j0 c' W') as [ks2 [vs2 [ts2 [W2 Hks]]]].
    { rewrite E1. exact Hi. } { rewrite E2. exact Hj. } { intros p q. apply Hpass; assumption. }
    rewrite E1, E2 in W2.
    assert (LE2 : leb (pay cost (i0 + r_di r) (j0 + r_dj r) (r_add (one_after_other parts)) c') (pay cost (i0 + r_di r) (j0 + r_dj r) (r_add r) c) = true).
    { apply pay_cheaper; auto. intros a b. apply Hnn; lia. }
    assert (G2 : good (pay cost (i0 + r_di r) (j0 + r_dj r) (r_add (one_after_other parts)) c')) by (unfold good in *; eapply (law_le_lt_trans _ L); eassumption).
    exists (ks' ++ ks2), vs2, ts2, (pay cost (i0 + r_di r) (j0 + r_dj r) (r_add (one_after_other parts)) c').
    split; [exact W2|]. split; [split; [apply (law_good_not_nan _ L); exact G2|intros _; exact G2]|exact LE2].
Qed.
End L.

Section A.
Context {N : Num} (L : NumLaws N) (S : swaps N).

Lemma cell_padded_nonneg (lm : mat N) : nonneg_costs lm -> wf_mat lm -> forall i j, i < nr lm + 1 -> j < nc lm ->
  leb (ofZ 0) (cell (padded lm) i j) = true \/ isnan (cell (padded lm) i j) = true.
Proof.
  intros Hnn Hwf i j Hi Hj. rewrite padded_cell by assumption. destruct (Nat.eqb_spec i 0) as [E|E].
  - left. apply (law_le_refl _ L), (law_fin_not_nan _ L), (law_fin_ofZ _ L). lia.
  - apply Hnn; lia.
Qed.

Lemma finer_dominates ob rules rules' (lm : mat N) w kw : wf_mat lm -> nonneg_costs lm ->
  cheaper_steps rules' rules \/ (w = NoWindow /\ finer_steps rules' rules /\ (ob = true -> forall r, In r rules' -> 1 <= r_di r)) ->
  dominates ob rules rules' lm lm w w kw kw.
Proof.
  intros Hwf Hnn H. split; [reflexivity|]. split; [reflexivity|]. intros j ks vs ts c.
  unfold admissible, open_walk, closed_walk, end_cell. destruct ob.
  - apply (finer_walk L S).
    + apply cell_padded_nonneg; assumption.
    + intros r Hr. destruct H as [H|[-> [H Hob]]].
      * destruct (H r Hr) as [r' [Hin [E1 [E2 Hc]]]]. exists [r']. cbn [one_after_other r_di r_dj r_add]. rewrite !Nat.add_0_r.
        split; [discriminate|]. split; [intros q [<-|[]]; exact Hin|]. split; [exact E1|]. split; [exact E2|]. split.
        { rewrite app_nil_r. erewrite map_ext, map_id; [exact Hc|]. intros [[a b] v]. cbn [fst snd]. rewrite !Nat.add_0_r. reflexivity. }
        intros i0 j0 p q _ _ Ha Hp Hn. destruct p as [|x [|? ?]]; [contradiction| |discriminate Hp].
        injection Hp as <- _. cbn [one_after_other r_di r_dj]. rewrite !Nat.add_0_r, E1, E2. exact Ha.
      * destruct (H r Hr) as [parts [Hne [Hin [E1 [E2 Hc]]]]]. exists parts. split; [exact Hne|]. split; [exact Hin|].
        split; [exact E1|]. split; [exact E2|]. split; [exact Hc|].
        intros i0 j0 p q _ _ [Ha _] Hp Hn. split; [|exact I]. destruct p as [|x p]; [contradiction|].
        cbn [one_after_other r_di]. specialize (Hob eq_refl x (Hin x ltac:(rewrite Hp; left; reflexivity))). lia.
  - apply (finer_walk L S).
    + exact Hnn.
    + intros r Hr. destruct H as [H|[-> [H _]]].
      * destruct (H r Hr) as [r' [Hin [E1 [E2 Hc]]]]. exists [r']. cbn [one_after_other r_di r_dj r_add]. rewrite !Nat.add_0_r.
        split; [discriminate|]. split; [intros q [<-|[]]; exact Hin|]. split; [exact E1|]. split; [exact E2|]. split.
        { rewrite app_nil_r. erewrite map_ext, map_id; [exact Hc|]. intros [[a b] v]. cbn [fst snd]. rewrite !Nat.add_0_r. reflexivity. }
        intros i0 j0 p q _ _ Ha Hp Hn. destruct p as [|x [|? ?]]; [contradiction| |discriminate Hp].
        injection Hp as <- _. cbn [one_after_other r_di r_dj]. rewrite !Nat.add_0_r, E1, E2. exact Ha.
      * destruct (H r Hr) as [parts [Hne [Hin [E1 [E2 Hc]]]]]. exists parts. split; [exact Hne|]. split; [exact Hin|].
        split; [exact E1|]. split; [exact E2|]. split; [exact Hc|]. intros i0 j0 p q _ _ _ _ _. exact I.
Qed.
End A.

(** ** A checker *)
Section C.
Context {N : Num}.

Fixpoint cheaperb (l' l : list (nat * nat * N)) : bool :=
  match l with
  | [] => match l' with [] => true | _ => false end
  | a :: l0 =>
      (match l' with
       | [] => false
       | a' :: l0' => (fst (fst a') =? fst (fst a)) && (snd (fst a') =? snd (fst a)) && leb (ofZ 0) (snd a') && leb (snd a') (snd a) && cheaperb l0' l0
       end) || (isfin (snd a) && leb (ofZ 0) (snd a) && cheaperb l' l0)
  end.
Lemma cheaperb_ok l' l : cheaperb l' l = true -> cheaper l' l.
Proof.
  revert l'. induction l as [|[[a b] w] l IH]; intros l' H.
  - destruct l'; [constructor|discriminate].
  - cbn [cheaperb fst snd] in H. apply orb_true_iff in H. destruct H as [H|H].
    + destruct l' as [|[[a' b'] w'] l']; [discriminate|]. cbn [fst snd] in H. rewrite !andb_true_iff in H.
      destruct H as [[[[H1 H2] H3] H4] H5]. apply Nat.eqb_eq in H1, H2. subst. apply cheaper_less; auto.
    + rewrite !andb_true_iff in H. destruct H as [[H1 H2] H3]. apply cheaper_none; auto.
Qed.
Fixpoint cuts (fuel : nat) (rules : list (rule N)) (di dj : nat) : list (list (rule N)) :=
  match fuel with
  | 0 => []
  | S f => if (di =? 0) && (dj =? 0) then [[]]
           else flat_map (fun r => if (r_di r <=? di) && (r_dj r <=? dj) then map (cons r) (cuts f rules (di - r_di r) (dj - r_dj r)) else []) rules
  end.
Lemma cuts_ok fuel rules : forall di dj p, In p (cuts fuel rules di dj) ->
  (forall q, In q p -> In q rules) /\ r_di (one_after_other p) = di /\ r_dj (one_after_other p) = dj.
Proof.
  induction fuel as [|f IH]; intros di dj p H; [destruct H|]. cbn [cuts] in H.
  destruct (Nat.eqb_spec di 0) as [Ei|Ei]; [destruct (Nat.eqb_spec dj 0) as [Ej|Ej]|]; cbn [andb] in H.
  1:{ destruct H as [<-|[]]. cbn [one_after_other r_di r_dj]. split; [intros q []|auto]. }
  all: apply in_flat_map in H; destruct H as [r [Hr H]];
    destruct (Nat.leb_spec (r_di r) di) as [Li|Li]; [|destruct H]; destruct (Nat.leb_spec (r_dj r) dj) as [Lj|Lj]; [|destruct H]; cbn [andb] in H;
    apply in_map_iff in H; destruct H as [p' [<- H]]; apply IH in H; destruct H as [H1 [H2 H3]]; cbn [one_after_other r_di r_dj];
    (split; [intros q [<-|Hq]; [exact Hr|apply H1; exact Hq]|lia]).
Qed.
Definition finerb (rules' rules : list (rule N)) : bool :=
  forallb (fun r => existsb (fun p => negb (match p with [] => true | _ => false end) && cheaperb (r_add (one_after_other p)) (r_add r))
                            (cuts 8 rules' (r_di r) (r_dj r))) rules.
Lemma finerb_ok rules' rules : finerb rules' rules = true -> finer_steps rules' rules.
Proof.
  intros H r Hr. unfold finerb in H. rewrite forallb_forall in H. specialize (H r Hr). apply existsb_exists in H.
  destruct H as [p [Hp H]]. apply andb_true_iff in H. destruct H as [H1 H2]. apply cuts_ok in Hp. destruct Hp as [P1 [P2 P3]].
  exists p. split; [destruct p; [discriminate|discriminate]|]. split; [exact P1|]. cbv zeta. split; [exact P2|]. split; [exact P3|].
  apply cheaperb_ok. exact H2.
Qed.
Definition cheaper_stepsb (rules' rules : list (rule N)) : bool :=
  forallb (fun r => existsb (fun r' => (r_di r' =? r_di r) && (r_dj r' =? r_dj r) && cheaperb (r_add r') (r_add r)) rules') rules.
Lemma cheaper_stepsb_ok rules' rules : cheaper_stepsb rules' rules = true -> cheaper_steps rules' rules.
Proof.
  intros H r Hr. unfold cheaper_stepsb in H. rewrite forallb_forall in H. specialize (H r Hr). apply existsb_exists in H.
  destruct H as [r' [Hin H]]. rewrite !andb_true_iff in H. destruct H as [[H1 H2] H3]. apply Nat.eqb_eq in H1, H2.
  exists r'. split; [exact Hin|]. split; [exact H1|]. split; [exact H2|]. apply cheaperb_ok. exact H3.
Qed.
Definition check (f : list (rule N) -> list (rule N) -> bool) (t : list (string * list string)) : bool :=
  forallb (fun e => match lookup (fst e) predefined with
                    | None => false
                    | Some l' => forallb (fun k => match lookup k predefined with None => false | Some l => f (productions l') (productions l) end) (snd e)
                    end) t.
Lemma check_ok f t k' k l' l : check f t = true -> listed t k' k -> lookup k' predefined = Some l' -> lookup k predefined = Some l ->
  f (productions l') (productions l) = true.
Proof.
  intros H [v [Hv Hk]] E' E. unfold check in H. rewrite forallb_forall in H. apply lookup_In in Hv. specialize (H _ Hv). cbn [fst snd] in H.
  rewrite E' in H. rewrite forallb_forall in H. specialize (H _ Hk). rewrite E in H. exact H.
Qed.
End C.

Lemma checked_any_window N : modelled N -> check (N := N) cheaper_stepsb looser_any_window = true.
Proof. intros [-> | [-> | ->]]; vm_compute; reflexivity. Qed.
Lemma checked_no_window N : modelled N -> check (N := N) finerb looser_no_window = true.
Proof. intros [-> | [-> | ->]]; vm_compute; reflexivity. Qed.

Lemma with_pattern_wp {N : Num} cdist x y (o : opts N) lm sp rules w s' sp' rules' :
  well_posed cdist x y o lm sp rules w -> pattern_of s' sp' -> pattern_rules sp' rules' ->
  (o_open_begin o = true -> hint sp' = "N") -> (o_open_end o = true -> hint sp' <> "NA") ->
  well_posed cdist x y (with_pattern o s') lm sp' rules' w.
Proof.
  intros [A1 A2 A3 A4 A5 A6 A7 A8 A9 A10] Hs Hr Hb He. constructor; try assumption.
  intros E. split; [apply Hb; exact E|apply A9; exact E].
Qed.

Section T.
Context {N : Num} (M : modelled N).
Let L : NumLaws N := proj1 (modelled_laws N M).
Let S : swaps N := modelled_swaps N M.

Theorem looser_closed_end cdist x y (o : opts N) lm d rules s' sp' rules' :
  costs_of cdist x y lm -> 0 < nr lm -> nonneg_costs lm ->
  dtw cdist x y o = Ok d -> pattern_rules (r_stepPattern d) rules -> o_open_end o = false ->
  pattern_of s' sp' -> pattern_rules sp' rules' -> (o_open_begin o = true -> hint sp' = "N") ->
  cheaper_steps rules' rules \/
    (window_of (o_window_type o) NoWindow /\ finer_steps rules' rules /\ (o_open_begin o = true -> forall r, In r rules' -> 1 <= r_di r)) ->
  exists d', dtw cdist x y (with_pattern o s') = Ok d' /\ r_stepPattern d' = sp' /\ leb (r_distance d') (r_distance d) = true.
Proof.
  intros HC Hn Hnn H Hp He Hs Hr Hb Hl. pose proof (ok_well_posed L _ _ _ _ _ _ _ HC H Hp Hn) as WP.
  pose proof (with_pattern_wp _ _ _ _ _ _ _ _ _ _ _ WP Hs Hr Hb ltac:(intros E; congruence)) as WP'.
  apply (dominates_closed_end L _ _ _ _ _ _ _ _ _ _ _ _ _ _ HC H Hp WP' He He eq_refl).
  apply (finer_dominates L S); [eapply costs_of_wf; exact HC|exact Hnn|].
  destruct Hl as [Hl|[Hw Hl]]; [left; exact Hl|right; split; [|exact Hl]].
  pose proof (window_of_canon _ _ (wp_window _ _ _ _ _ _ _ _ WP)) as E1. rewrite (window_of_canon _ _ Hw) in E1. symmetry. exact E1.
Qed.

Theorem looser_open_end cdist x y (o : opts N) lm d rules s' sp' rules' :
  costs_of cdist x y lm -> 0 < nr lm -> nonneg_costs lm ->
  dtw cdist x y o = Ok d -> pattern_rules (r_stepPattern d) rules -> o_open_end o = true ->
  pattern_of s' sp' -> pattern_rules sp' rules' -> hint sp' = hint (r_stepPattern d) ->
  cheaper_steps rules' rules \/
    (window_of (o_window_type o) NoWindow /\ finer_steps rules' rules /\ (o_open_begin o = true -> forall r, In r rules' -> 1 <= r_di r)) ->
  exists d', dtw cdist x y (with_pattern o s') = Ok d' /\ r_stepPattern d' = sp' /\
    leb (r_normalizedDistance d') (r_normalizedDistance d) = true.
Proof.
  intros HC Hn Hnn H Hp He Hs Hr Hh Hl. pose proof (ok_well_posed L _ _ _ _ _ _ _ HC H Hp Hn) as WP.
  assert (WP' : well_posed cdist x y (with_pattern o s') lm sp' rules' (r_windowFunction d)).
  { eapply with_pattern_wp; [exact WP|exact Hs|exact Hr| |]; rewrite Hh; intros E.
    - apply (wp_begin _ _ _ _ _ _ _ _ WP). exact E.
    - apply (wp_end _ _ _ _ _ _ _ _ WP). exact E. }
  apply (dominates_open_end L _ _ _ _ _ _ _ _ _ _ _ _ _ _ HC H Hp WP' He eq_refl (eq_sym Hh)).
  apply (finer_dominates L S); [eapply costs_of_wf; exact HC|exact Hnn|].
  destruct Hl as [Hl|[Hw Hl]]; [left; exact Hl|right; split; [|exact Hl]].
  pose proof (window_of_canon _ _ (wp_window _ _ _ _ _ _ _ _ WP)) as E1. rewrite (window_of_canon _ _ Hw) in E1. symmetry. exact E1.
Qed.

(** The predefined patterns *)
Lemma listed_cheaper k' k sp' sp : listed looser_any_window k' k ->
  lookup k' (@pattern_table N) = Some sp' -> lookup k (@pattern_table N) = Some sp ->
  exists rules' rules, pattern_rules sp' rules' /\ pattern_rules sp rules /\ cheaper_steps rules' rules.
Proof.
  intros Hl H' H. destruct (predefined_rules L _ _ H') as [l' [E' R']]. destruct (predefined_rules L _ _ H) as [l [E R]].
  exists (productions l'), (productions l). split; [exact R'|]. split; [exact R|].
  apply cheaper_stepsb_ok. eapply check_ok; [apply checked_any_window; exact M|exact Hl|exact E'|exact E].
Qed.
Lemma listed_finer k' k sp' sp : listed looser_no_window k' k ->
  lookup k' (@pattern_table N) = Some sp' -> lookup k (@pattern_table N) = Some sp ->
  exists rules' rules, pattern_rules sp' rules' /\ pattern_rules sp rules /\ finer_steps rules' rules /\
    (k' = "asymmetric" -> forall r, In r rules' -> 1 <= r_di r).
Proof.
  intros Hl H' H. destruct (predefined_rules L _ _ H') as [l' [E' R']]. destruct (predefined_rules L _ _ H) as [l [E R]].
  exists (productions l'), (productions l). split; [exact R'|]. split; [exact R|]. split.
  - apply finerb_ok. eapply check_ok; [apply checked_no_window; exact M|exact Hl|exact E'|exact E].
  - intros ->. injection E' as <-. intros r [<-|[<-|[<-|[]]]]; cbn; lia.
Qed.

Theorem looser_named cdist x y (o : opts N) lm d k' k sp' :
  costs_of cdist x y lm -> 0 < nr lm -> nonneg_costs lm ->
  o_step_pattern o = SPName k -> dtw cdist x y o = Ok d -> o_open_end o = false ->
  lookup k' (@pattern_table N) = Some sp' -> (o_open_begin o = true -> hint sp' = "N") ->
  listed looser_any_window k' k \/ (window_of (o_window_type o) NoWindow /\ listed looser_no_window k' k /\ (o_open_begin o = true -> k' = "asymmetric")) ->
  exists d', dtw cdist x y (with_pattern o (SPName k')) = Ok d' /\ leb (r_distance d') (r_distance d) = true.
Proof.
  intros HC Hn Hnn Hk H He Hk' Hb Hl.
  assert (Hsp : lookup k (@pattern_table N) = Some (r_stepPattern d)).
  { pose proof (ok_pattern _ _ _ _ _ _ HC H) as P. rewrite Hk in P. inversion P; subst. assumption. }
  assert (Q : exists rules' rules, pattern_rules sp' rules' /\ pattern_rules (r_stepPattern d) rules /\
    (cheaper_steps rules' rules \/ (window_of (o_window_type o) NoWindow /\ finer_steps rules' rules /\ (o_open_begin o = true -> forall r, In r rules' -> 1 <= r_di r)))).
  { destruct Hl as [Hl|[Hw [Hl Ho]]].
    - destruct (listed_cheaper _ _ _ _ Hl Hk' Hsp) as [r' [r [A [B C]]]]. exists r', r. auto.
    - destruct (listed_finer _ _ _ _ Hl Hk' Hsp) as [r' [r [A [B [C D]]]]]. exists r', r. auto 10. }
  destruct Q as [rules' [rules [R' [R C]]]].
  destruct (looser_closed_end cdist x y o lm d rules (SPName k') sp' rules' HC Hn Hnn H R He (pattern_name _ _ Hk') R' Hb C) as [d' [A [_ B]]].
  exists d'. auto.
Qed.

Theorem looser_mvm cdist x y (o : opts N) lm d e e' :
  costs_of cdist x y lm -> 0 < nr lm -> nonneg_costs lm ->
  o_step_pattern o = SPObj (mvmStepPattern e) -> dtw cdist x y o = Ok d -> o_open_end o = false ->
  1 <= e <= e' -> (8 * Z.of_nat e' <= INT_MAX)%Z ->
  exists d', dtw cdist x y (with_pattern o (SPObj (mvmStepPattern e'))) = Ok d' /\ leb (r_distance d') (r_distance d) = true.
Proof.
  intros HC Hn Hnn Hk H He Hee Hsz.
  assert (Hsp : mvmStepPattern e = r_stepPattern d).
  { pose proof (ok_pattern _ _ _ _ _ _ HC H) as P. rewrite Hk in P. inversion P; subst. reflexivity. }
  pose proof (mvm_rules L e ltac:(lia) ltac:(lia)) as R. pose proof (mvm_rules L e' ltac:(lia) ltac:(lia)) as R'. rewrite Hsp in R.
  destruct (looser_closed_end cdist x y o lm d _ (SPObj (mvmStepPattern e')) _ _ HC Hn Hnn H R He (pattern_obj _) R') as [d' [A [_ B]]].
  - reflexivity.
  - left. intros r Hr. unfold productions, mvm_productions in *. exists r. split.
    + apply in_map_iff in Hr. destruct Hr as [w [<- Hw]]. apply in_map. apply in_map_iff in Hw. destruct Hw as [q [<- Hq]].
      apply in_map_iff. exists q. split; [reflexivity|]. apply in_seq in Hq. apply in_seq. lia.
    + split; [reflexivity|]. split; [reflexivity|]. apply in_map_iff in Hr. destruct Hr as [w [<- Hw]]. apply in_map_iff in Hw. destruct Hw as [q [<- Hq]].
      apply (cheaper_less (N := N)); [change (leb (@ofZ N 0) (ofZ 1) = true); rewrite (law_le_ofZ _ L) by lia; reflexivity| |apply cheaper_nil].
      change (leb (@ofZ N 1) (ofZ 1) = true). apply (law_le_refl _ L), (law_fin_not_nan _ L), (law_fin_ofZ _ L). lia.
  - exists d'. auto.
Qed.
End T.
