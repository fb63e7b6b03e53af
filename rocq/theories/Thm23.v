(** Thm23.v - reversing time in both series (exact arithmetic; proofs for C52). *)
From Coq Require Import ZifyBool ZifyNat QArith Qcanon Lqa.
From Verif Require Import Base Num StepPattern Window Core Backtrack Dtw Spec Api Tables Vocab Terms
  NumQ NumQLaws CoreProof DPProof DtwProof ApiProof ApiThms WalkGeom Uniq Thm1 Thm2 Thm3 Thm4 Thm5 Thm7 Thm8 Thm9 Thm11 Derived Thm10 SeriesSpec.
Open Scope string_scope.
Open Scope list_scope.
Open Scope nat_scope.

(** ** Sums of costs *)
Lemma xq_add_comm a b : xq_add a b = xq_add b a.
Proof. destruct a, b; try reflexivity. cbn. f_equal. apply Qcplus_comm. Qed.
Lemma xq_add_assoc a b c : xq_add a (xq_add b c) = xq_add (xq_add a b) c.
Proof. destruct a, b, c; try reflexivity. cbn. f_equal. apply Qcplus_assoc. Qed.
Lemma xq_add_0 a : xq_add (XFin (qc_ofZ 0)) a = a.
Proof. destruct a; try reflexivity. cbn. f_equal. rewrite ofZ_0. apply Qcplus_0_l. Qed.
Lemma xq_mul_1 a : xq_mul (XFin (qc_ofZ 1)) a = a.
Proof. destruct a; try reflexivity. cbn. f_equal. change (qc_ofZ 1) with (Q2Qc 1). apply Qcmult_1_l. Qed.
Lemma macc_1 (c x : NumQ) : macc c (ofZ 1) x = add c x.
Proof. cbn [macc add ofZ NumQ]. rewrite xq_mul_1. reflexivity. Qed.
Lemma xq_eqb_true a b : xq_eqb a b = true -> a = b.
Proof. destruct a, b; cbn; try discriminate; try reflexivity. intros H. apply qc_eqb_eq in H. congruence. Qed.
Lemma leb_both (a b : NumQ) : leb a b = true -> leb b a = true -> a = b.
Proof. intros H1 H2. apply xq_eqb_true. exact (law_le_antisym _ NumQ_laws _ _ H1 H2). Qed.

(** Sum of the local costs of a list of cells *)
Definition sumc (lm : mat NumQ) (vs : list point) : NumQ :=
  fold_right (fun p c => add (cell lm (fst p) (snd p)) c) (ofZ 0) vs.
Lemma sumc_app lm a b : sumc lm (a ++ b) = add (sumc lm a) (sumc lm b).
Proof.
  induction a as [|p a IH]; cbn [sumc fold_right app].
  - symmetry. apply xq_add_0.
  - fold (sumc lm (a ++ b)). fold (sumc lm a). rewrite IH. apply xq_add_assoc.
Qed.
Lemma sumc_one lm p : sumc lm [p] = cell lm (fst p) (snd p).
Proof. cbn [sumc fold_right]. cbn [add ofZ NumQ]. rewrite xq_add_comm. apply xq_add_0. Qed.
Lemma sumc_rev lm vs : sumc lm (rev vs) = sumc lm vs.
Proof.
  induction vs as [|p vs IH]; [reflexivity|]. cbn [rev]. rewrite sumc_app, IH, sumc_one.
  change (p :: vs) with ([p] ++ vs). rewrite sumc_app, sumc_one. apply xq_add_comm.
Qed.

(** ** Routes: sequences of cells linked by productions *)
Section Links.
Context {A : Type}.
Fixpoint links (R : A -> A -> Prop) (l : list A) : Prop :=
  match l with a :: t => match t with b :: _ => R a b | [] => True end /\ links R t | [] => True end.
Lemma links_app R l1 a b l2 : links R (l1 ++ [a]) -> R a b -> links R (b :: l2) -> links R (l1 ++ a :: b :: l2).
Proof.
  induction l1 as [|c l1 IH]; cbn [app].
  - intros _ H1 H2. cbn [links]. auto.
  - intros [H H0] H1 H2. cbn [links]. split; [|apply IH; auto].
    destruct l1; cbn [app] in *; exact H.
Qed.
Lemma links_app_inv R l1 l2 : links R (l1 ++ l2) -> links R l1 /\ links R l2 /\
  (forall a b l1' l2', l1 = l1' ++ [a] -> l2 = b :: l2' -> R a b).
Proof.
  induction l1 as [|c l1 IH]; cbn [app].
  - intros H. split; [exact I|]. split; [exact H|]. intros a b l1' l2' E. destruct l1'; discriminate.
  - intros [H H0]. destruct (IH H0) as [I1 [I2 I3]]. split; [|split; [exact I2|]].
    + cbn [links]. split; [|exact I1]. destruct l1; [exact I|exact H].
    + intros a b l1' l2' E E2. destruct l1' as [|x l1']; cbn [app] in E.
      * injection E as -> ->. subst l2. exact H.
      * injection E as -> ->. eapply I3; [reflexivity|exact E2].
Qed.
Lemma links_rev R l : links R l -> links (fun a b => R b a) (rev l).
Proof.
  induction l as [|a l IH]; [auto|]. intros [H H0]. specialize (IH H0). destruct l as [|b l]; [cbn; auto|].
  cbn [rev] in *. rewrite <- app_assoc. cbn [app]. apply links_app; [exact IH|exact H|cbn; auto].
Qed.
End Links.
Lemma links_map {A B} (R : A -> A -> Prop) (S : B -> B -> Prop) (f : A -> B) l :
  (forall a b, In a l -> In b l -> R a b -> S (f a) (f b)) -> links R l -> links S (map f l).
Proof.
  induction l as [|a l IH]; [cbn; auto|]. intros HRS [H H0]. cbn [map]. split; [|apply IH; auto].
  - destruct l; cbn [map]; [exact I|]. apply HRS; cbn; auto.
  - intros x y Hx Hy. apply HRS; cbn; auto.
Qed.

Definition hop {N : Num} (rules : list (rule N)) (p p' : point) : Prop :=
  exists r, In r rules /\ fst p' = fst p + r_di r /\ snd p' = snd p + r_dj r.

Lemma rule_no_in {N : Num} (rules : list (rule N)) k r : rule_no rules k = Some r -> In r rules.
Proof. destruct k; cbn; [discriminate|]. apply nth_error_In. Qed.
Lemma in_rule_no {N : Num} (rules : list (rule N)) r : In r rules -> exists k, rule_no rules k = Some r.
Proof. intros H. apply In_nth_error in H. destruct H as [k H]. exists (S k). exact H. Qed.

Section Routes.
Variable rules : list (rule NumQ).
Hypothesis Hu : unit_rules rules.
Variable cost : mat NumQ.
Variable n m : nat.
Variable source : nat -> nat -> option NumQ.
Variable allowed : nat -> nat -> Prop.

Lemma unit_charge r i j c : In r rules -> charge (cell cost) r i j c = add c (cell cost i j).
Proof.
  intros Hr. unfold charge. rewrite (Hu r Hr). cbn [fold_left fst snd]. rewrite !Nat.sub_0_r. apply macc_1.
Qed.

Lemma walk_route ks vs ts q c : walk rules (cell cost) n m source allowed ks vs ts q c ->
  exists i j c0 (t : list point), vs = (i, j) :: t /\ source i j = Some c0 /\ c = add c0 (sumc cost t) /\
    links (hop rules) vs /\ (forall p, In p vs -> fst p < n /\ snd p < m) /\
    (forall p, In p t -> allowed (fst p) (snd p)) /\ List.length vs = S (List.length ks) /\
    last vs (0, 0) = q.
Proof.
  induction 1 as [i j c Hs Hi Hj|ks vs ts i0 j0 c k r W IH Hk Hi Hj Ha].
  - exists i, j, c, []. split; [reflexivity|]. split; [exact Hs|]. split.
    { cbn [sumc fold_right]. cbn [add ofZ NumQ]. rewrite xq_add_comm. symmetry. apply xq_add_0. }
    split; [cbn; auto|]. split; [intros p [<-|[]]; auto|]. split; [intros p []|]. split; reflexivity.
  - destruct IH as [i [j [c0 [t [-> [Hs [-> [Hl [Hb [Hal [Hlen Hlast]]]]]]]]]]].
    exists i, j, c0, (t ++ [(i0 + r_di r, j0 + r_dj r)]). apply rule_no_in in Hk.
    split; [reflexivity|]. split; [exact Hs|]. split.
    { rewrite (unit_charge r _ _ _ Hk), sumc_app, sumc_one. cbn [fst snd add NumQ]. symmetry. apply xq_add_assoc. }
    split.
    { destruct (@exists_last point ((i, j) :: t) ltac:(discriminate)) as [u [z Ez]]. rewrite Ez in *.
      rewrite last_last in Hlast. subst z. rewrite <- app_assoc. cbn [app]. apply links_app; [exact Hl| |cbn; auto].
      exists r. cbn [fst snd]. auto. }
    split.
    { intros p Hp. apply in_app_or in Hp. destruct Hp as [Hp|[<-|[]]]; [apply Hb; exact Hp|]. cbn [fst snd]. auto. }
    split.
    { intros p Hp. apply in_app_or in Hp. destruct Hp as [Hp|[<-|[]]]; [apply Hal; exact Hp|]. exact Ha. }
    split.
    { rewrite !app_length, Hlen. cbn. lia. }
    rewrite last_last. reflexivity.
Qed.

Lemma route_walk i j c0 (t : list point) : source i j = Some c0 -> links (hop rules) ((i, j) :: t) ->
  (forall p, In p ((i, j) :: t) -> fst p < n /\ snd p < m) ->
  (forall p, In p t -> allowed (fst p) (snd p)) ->
  exists ks ts, walk rules (cell cost) n m source allowed ks ((i, j) :: t) ts (last ((i, j) :: t) (0, 0)) (add c0 (sumc cost t)) /\
    List.length ks = List.length t.
Proof.
  intros Hs. induction t as [|p t IH] using rev_ind; intros Hl Hb Hal.
  - exists [], [(i, j)]. cbn [last sumc fold_right]. split; [|reflexivity].
    replace (add c0 (ofZ 0)) with c0 by (cbn [add ofZ NumQ]; rewrite xq_add_comm; symmetry; apply xq_add_0).
    destruct (Hb (i, j) (or_introl eq_refl)). apply walk_start; auto.
  - rewrite app_comm_cons in Hl. destruct (links_app_inv _ _ _ Hl) as [L1 [_ L3]].
    destruct IH as [ks [ts [W Hlen]]].
    + exact L1.
    + intros q Hq. apply Hb. rewrite app_comm_cons. apply in_or_app. auto.
    + intros q Hq. apply Hal. apply in_or_app. auto.
    + destruct (@exists_last point ((i, j) :: t) ltac:(discriminate)) as [u [z Ez]].
      rewrite Ez, last_last in W. destruct (L3 z p u [] Ez eq_refl) as [r [Hr [E1 E2]]].
      destruct (in_rule_no _ _ Hr) as [k Hk]. destruct z as [i0 j0], p as [i1 j1]. cbn [fst snd] in E1, E2. subst i1 j1.
      assert (Hin : In (i0 + r_di r, j0 + r_dj r) ((i, j) :: t ++ [(i0 + r_di r, j0 + r_dj r)])).
      { right. apply in_or_app. right. left. reflexivity. }
      destruct (Hb _ Hin) as [B1 B2]. cbn [fst snd] in B1, B2.
      eexists (ks ++ [k]), _. split; [|rewrite !app_length, Hlen; reflexivity].
      unfold point in *. rewrite app_comm_cons, last_last, Ez, sumc_app, sumc_one. cbn [fst snd].
      replace (add c0 (add (sumc cost t) (cell cost (i0 + r_di r) (j0 + r_dj r))))
        with (charge (cell cost) r (i0 + r_di r) (j0 + r_dj r) (add c0 (sumc cost t)))
        by (rewrite unit_charge by exact Hr; cbn [add NumQ]; symmetry; apply xq_add_assoc).
      eapply walk_step; [exact W|exact Hk|exact B1|exact B2|]. apply (Hal (i0 + r_di r, j0 + r_dj r)). apply in_or_app. right. left. reflexivity.
Qed.
End Routes.

(** ** The reversed cost matrix *)

(** Cell (i,j) of [rot lm] is cell (n-1-i, m-1-j) of [lm]. *)
Lemma rot_wf {N : Num} (lm : mat N) : wf_mat lm -> wf_mat (rot lm).
Proof. unfold wf_mat, rot. cbn. rewrite rev_length. auto. Qed.
Lemma rot_rot {N : Num} (lm : mat N) : rot (rot lm) = lm.
Proof. destruct lm as [a b l]. unfold rot. cbn [nr nc dat]. rewrite rev_involutive. reflexivity. Qed.
Lemma nth_error_rev {A} (l : list A) k : k < List.length l -> nth_error (rev l) k = nth_error l (List.length l - 1 - k).
Proof.
  intros H. destruct l as [|d l0] eqn:El; [cbn in H; lia|]. rewrite <- El in *. clear El l0.
  rewrite (nth_error_nth' (rev l) d) by (rewrite rev_length; exact H).
  rewrite (nth_error_nth' l d) by lia. rewrite rev_nth by exact H. do 2 f_equal. lia.
Qed.
Theorem rot_cell {N : Num} (lm : mat N) i j : wf_mat lm -> i < nr lm -> j < nc lm ->
  cell (rot lm) i j = cell lm (nr lm - 1 - i) (nc lm - 1 - j).
Proof.
  intros Hw Hi Hj. unfold cell, mget, rot. cbn [nr nc dat]. unfold wf_mat in Hw.
  replace ((i <? nr lm) && (j <? nc lm)) with true by lia.
  replace ((nr lm - 1 - i <? nr lm) && (nc lm - 1 - j <? nc lm)) with true by lia.
  rewrite nth_error_rev by nia. rewrite Hw. replace (nr lm * nc lm - 1 - (i * nc lm + j)) with ((nr lm - 1 - i) * nc lm + (nc lm - 1 - j)) by nia.
  reflexivity.
Qed.

(** ** Closed ends *)

Definition mirror (n m : nat) (p : point) : point := (n - 1 - fst p, m - 1 - snd p).
Lemma mirror_hop (rules : list (rule NumQ)) n m p p' : fst p' < n -> snd p' < m ->
  hop rules p p' -> hop rules (mirror n m p') (mirror n m p).
Proof. intros H1 H2 [r [Hr [E1 E2]]]. exists r. unfold mirror. cbn [fst snd]. split; [exact Hr|]. lia. Qed.
Lemma links_mirror (rules : list (rule NumQ)) n m vs : (forall p, In p vs -> fst p < n /\ snd p < m) ->
  links (hop rules) vs -> links (hop rules) (rev (map (mirror n m) vs)).
Proof.
  intros Hb Hl. rewrite <- map_rev. apply links_rev in Hl.
  refine (links_map _ _ (mirror n m) (rev vs) _ Hl).
  intros a b Ha Hb' H. apply in_rev in Ha. apply in_rev in Hb'. apply mirror_hop; [apply Hb; exact Ha|apply Hb; exact Ha|exact H].
Qed.
Lemma sumc_mirror (lm : mat NumQ) vs : wf_mat lm -> (forall p, In p vs -> fst p < nr lm /\ snd p < nc lm) ->
  sumc (rot lm) (rev (map (mirror (nr lm) (nc lm)) vs)) = sumc lm vs.
Proof.
  intros Hw Hb. rewrite sumc_rev. induction vs as [|p vs IH]; [reflexivity|].
  cbn [map sumc fold_right]. fold (sumc (rot lm) (map (mirror (nr lm) (nc lm)) vs)). fold (sumc lm vs).
  rewrite IH by (intros q Hq; apply Hb; right; exact Hq). f_equal.
  destruct (Hb p (or_introl eq_refl)) as [B1 B2]. unfold mirror. cbn [fst snd].
  rewrite rot_cell by (auto; lia). f_equal; lia.
Qed.

Lemma last_in {A} (l : list A) d : l <> [] -> In (last l d) l.
Proof.
  induction l as [|a l IH]; [congruence|]. intros _. destruct l as [|b l]; [left; reflexivity|].
  right. apply IH. discriminate.
Qed.
Lemma rev_cons_last {A} (a : A) l d : exists l', rev (a :: l) = last (a :: l) d :: l' /\ last (rev (a :: l)) d = a.
Proof.
  destruct (exists_last (l := a :: l) ltac:(discriminate)) as [u [z E]].
  exists (rev u). rewrite E at 1 2. rewrite rev_unit, last_last. split; [reflexivity|].
  cbn [rev]. apply last_last.
Qed.

Lemma closed_reversed (rules : list (rule NumQ)) (lm : mat NumQ) w kw ks vs ts c :
  unit_rules rules -> wf_mat lm -> 0 < nr lm -> 0 < nc lm -> window_reversible w kw (nr lm) (nc lm) ->
  closed_walk rules lm w kw ks vs ts (nr lm - 1, nc lm - 1) c ->
  exists ks' vs' ts', closed_walk rules (rot lm) w kw ks' vs' ts' (nr lm - 1, nc lm - 1) c /\
    List.length ks' = List.length ks.
Proof.
  intros Hu Hw Hn Hm [W0 Wr] H. unfold closed_walk in *.
  destruct (walk_route _ Hu _ _ _ _ _ _ _ _ _ _ H) as [i [j [c0 [t [-> [Hs [-> [Hl [Hb [Hal [Hlen Hlast]]]]]]]]]]].
  unfold closed_source in Hs. destruct ((i =? 0) && (j =? 0)) eqn:E0; [|discriminate]. assert (c0 = cell lm 0 0) by congruence. subst c0.
  assert (i = 0) by lia. assert (j = 0) by lia. subst i j.
  destruct (@rev_cons_last point (0, 0) t (0, 0)) as [l' [E0' _]].
  assert (E1 : @rev point (@cons point (0, 0) t) = (nr lm - 1, nc lm - 1) :: l') by (etransitivity; [exact E0'|]; apply (f_equal (fun z => z :: l')); exact Hlast).
  clear E0'. unfold point in *.
  pose proof (links_mirror _ _ _ _ Hb Hl) as Hl'. unfold point in *. rewrite <- map_rev, E1 in Hl'. cbn [map] in Hl'.
  pose proof (sumc_mirror lm _ Hw Hb) as Es. unfold point in *. rewrite <- map_rev, E1 in Es. cbn [map] in Es.
  assert (Em : mirror (nr lm) (nc lm) (nr lm - 1, nc lm - 1) = (0, 0)) by (unfold mirror; cbn [fst snd]; f_equal; lia).
  rewrite Em in *.
  assert (Hin : forall p, In p ((0, 0) :: map (mirror (nr lm) (nc lm)) l') -> exists q, In q ((0, 0) :: t) /\ p = mirror (nr lm) (nc lm) q).
  { intros p Hp. rewrite <- Em in Hp. change (mirror (nr lm) (nc lm) (nr lm - 1, nc lm - 1) :: map (mirror (nr lm) (nc lm)) l')
      with (map (mirror (nr lm) (nc lm)) ((nr lm - 1, nc lm - 1) :: l')) in Hp. rewrite <- E1 in Hp.
    apply in_map_iff in Hp. destruct Hp as [q [<- Hq]]. apply in_rev in Hq. eauto. }
  destruct (route_walk rules Hu (rot lm) (nr lm) (nc lm) (closed_source (rot lm)) (in_window w kw (nr lm) (nc lm))
              0 0 (cell (rot lm) 0 0) (map (mirror (nr lm) (nc lm)) l')) as [ks' [ts' [W' Hlen']]].
  - reflexivity.
  - exact Hl'.
  - intros p Hp. destruct (Hin p Hp) as [q [Hq ->]]. unfold mirror. cbn [fst snd]. lia.
  - intros p Hp. destruct (Hin p (or_intror Hp)) as [q [Hq ->]]. unfold mirror. cbn [fst snd].
    apply Wr; try (apply Hb; exact Hq). destruct Hq as [<-|Hq]; [exact W0|]. apply Hal. exact Hq.
  - exists ks', ((0, 0) :: map (mirror (nr lm) (nc lm)) l'), ts'. split.
    + replace (nr lm - 1, nc lm - 1) with (last ((0, 0) :: map (mirror (nr lm) (nc lm)) l') (0, 0)).
      * replace (add (cell lm 0 0) (sumc lm t)) with (add (cell (rot lm) 0 0) (sumc (rot lm) (map (mirror (nr lm) (nc lm)) l'))).
        { exact W'. }
      * rewrite <- Em at 1. change (mirror (nr lm) (nc lm) (nr lm - 1, nc lm - 1) :: map (mirror (nr lm) (nc lm)) l')
          with (map (mirror (nr lm) (nc lm)) ((nr lm - 1, nc lm - 1) :: l')). rewrite <- E1. cbn [rev]. rewrite map_app. cbn [map].
        rewrite last_last. unfold mirror. cbn [fst snd]. f_equal; lia.
    + rewrite Hlen', map_length. apply (f_equal (@List.length _)) in E1. rewrite rev_length in E1. cbn [List.length] in E1, Hlen. apply Nat.succ_inj in E1. apply Nat.succ_inj in Hlen.
      transitivity (List.length t); [symmetry; exact E1|exact Hlen].
Qed.

Lemma reversed_usable ks ks' (c : NumQ) : List.length ks' = List.length ks -> usable ks c -> usable ks' c.
Proof. intros E [H1 H2]. split; [exact H1|]. intros Hne. apply H2. intros ->. destruct ks'; [congruence|discriminate]. Qed.

Theorem reversed_closed cdist x y o (lm : mat NumQ) d rules cdist' x' y' :
  costs_of cdist x y lm -> dtw cdist x y o = Ok d -> pattern_rules (r_stepPattern d) rules -> 0 < nr lm ->
  unit_rules rules -> o_open_begin o = false -> o_open_end o = false ->
  window_reversible (r_windowFunction d) (r_windowArgs d) (nr lm) (nc lm) ->
  costs_of cdist' x' y' (rot lm) -> native_array x' y' ->
  exists d', dtw cdist' x' y' o = Ok d' /\ r_distance d' = r_distance d /\
    r_normalizedDistance d' = r_normalizedDistance d.
Proof.
  intros HC Hd Hp Hq Hu Hob Hoe Hwr HC' Hn'.
  pose proof (ok_well_posed NumQ_laws _ _ _ _ _ _ _ HC Hd Hp Hq) as WP. pose proof WP as WP0.
  destruct WP0 as [w1 w2 w3 w4 w5 w6 w7 w8 w9 w10].
  assert (Hw : wf_mat lm) by (destruct HC; assumption).
  assert (WP' : well_posed cdist' x' y' o (rot lm) (r_stepPattern d) rules (r_windowFunction d)) by (constructor; auto).
  destruct (dtw_fields NumQ_laws _ _ _ _ _ _ _ HC Hd Hp) as [F1 [F2 [_ [_ [_ [Fk [_ [_ [Fj [Fn _]]]]]]]]]]. specialize (Fj Hoe).
  rewrite Fk in Hwr.
  assert (Hm : 0 < nc lm) by (destruct w8 as [_ [K _]]; exact K).
  destruct (dtw_best NumQ_laws _ _ _ _ _ _ _ HC Hd Hp) as [[ks [vs [ts [W U]]]] Hmin].
  rewrite Fk, Fj, Hob in *. cbn [admissible end_cell] in *.
  destruct (closed_reversed _ _ _ _ _ _ _ _ Hu Hw Hq Hm Hwr W) as [ks' [vs' [ts' [W' E']]]].
  pose proof (reversed_usable _ _ _ E' U) as U'.
  destruct (dtw_closed_end_iff NumQ_laws _ _ _ _ _ _ _ _ WP' Hoe) as [[_ Hno]|[d' [Hd' [Es [Ew _]]]]].
  { exfalso. rewrite Hob in Hno. exact (Hno _ _ _ _ W' U'). }
  exists d'. split; [exact Hd'|].
  assert (Hp' : pattern_rules (r_stepPattern d') rules) by (rewrite Es; exact Hp).
  destruct (dtw_fields NumQ_laws _ _ _ _ _ _ _ HC' Hd' Hp') as [F1' [F2' [_ [_ [_ [Fk' [_ [_ [Fj' [Fn' _]]]]]]]]]]. specialize (Fj' Hoe).
  change (nr (rot lm)) with (nr lm) in *. change (nc (rot lm)) with (nc lm) in *.
  destruct (dtw_best NumQ_laws _ _ _ _ _ _ _ HC' Hd' Hp') as [[ks2 [vs2 [ts2 [W2 U2]]]] Hmin'].
  rewrite Fk', Fj', Hob, Ew in *. cbn [admissible end_cell] in *. change (nr (rot lm)) with (nr lm) in *.
  assert (ED : r_distance d' = r_distance d).
  { apply leb_both; [apply (Hmin' _ _ _ _ W' U')|].
    destruct (closed_reversed rules (rot lm) (r_windowFunction d) (o_window_args o) ks2 vs2 ts2 (r_distance d') Hu (rot_wf _ Hw) Hq Hm Hwr W2)
      as [ks3 [vs3 [ts3 [W3 E3]]]]. rewrite rot_rot in W3. change (nr (rot lm)) with (nr lm) in W3. change (nc (rot lm)) with (nc lm) in W3.
    apply (Hmin _ _ _ _ W3). exact (reversed_usable _ _ _ E3 U2). }
  split; [exact ED|]. rewrite Fn, Fn', Es, ED, F1, F1'. reflexivity.
Qed.

Theorem reversed_fails cdist x y o (lm : mat NumQ) sp rules w cdist' x' y' :
  well_posed cdist x y o lm sp rules w -> unit_rules rules -> o_open_begin o = false -> o_open_end o = false ->
  window_reversible w (o_window_args o) (nr lm) (nc lm) ->
  costs_of cdist' x' y' (rot lm) -> native_array x' y' ->
  forall e, dtw cdist x y o = Raise e -> dtw cdist' x' y' o = Raise e.
Proof.
  intros WP Hu Hob Hoe Hwr HC' Hn' e He. pose proof WP as WP0. destruct WP0 as [w1 w2 w3 w4 w5 w6 w7 w8 w9 w10].
  assert (WP' : well_posed cdist' x' y' o (rot lm) sp rules w) by (constructor; auto).
  destruct (dtw_closed_end_iff NumQ_laws _ _ _ _ _ _ _ _ WP' Hoe) as [[E _]|[d' [E [Es [Ew _]]]]].
  - destruct (dtw_closed_end_iff NumQ_laws _ _ _ _ _ _ _ _ WP Hoe) as [[E2 _]|[d' [E2 _]]]; congruence.
  - exfalso. destruct w2 as [w2|w2]; [congruence|].
    destruct (reversed_closed cdist' x' y' o (rot lm) d' rules cdist x y HC' E) as [d [Hd _]]; rewrite ?Es, ?Ew; auto.
    + destruct (dtw_fields NumQ_laws _ _ _ _ _ _ _ HC' E ltac:(rewrite Es; exact w4)) as [_ [_ [_ [_ [_ [Fk _]]]]]]. rewrite Fk. exact Hwr.
    + rewrite rot_rot. exact w1.
    + congruence.
Qed.

(** ** Open ends *)
Section Column.
Context {N : Num}.
Variable L : NumLaws N.
Lemma column_best cdist x y o (lm : mat N) sp rules w j ks vs ts c :
  well_posed cdist x y o lm sp rules w -> j < nc lm ->
  admissible (o_open_begin o) rules lm w (o_window_args o) ks vs ts (end_cell (o_open_begin o) lm j) c -> usable ks c ->
  exists c0, best_to (o_open_begin o) rules lm w (o_window_args o) j c0 /\ leb c0 c = true.
Proof.
  intros WP Hj W U. destruct (wp_run L _ _ _ _ _ _ _ _ WP) as [cmx [dmx [cmf [smf [win [S R]]]]]].
  pose proof (wp_size _ _ _ _ _ _ _ _ WP) as Hsz. rewrite rows_used_p in Hsz.
  destruct (wp_rules _ _ _ _ _ _ _ _ WP) as [_ [_ [Hv _]]].
  destruct (p_best L o lm rules w win ltac:(apply S) Hv sp cmx dmx cmf smf j Hsz S Hj) as [P1 P2].
  destruct (isnan (cmf (nr (p_lm o lm) - 1) j)) eqn:Ev.
  - exfalso. exact (P2 eq_refl _ _ _ _ W U).
  - exists (cmf (nr (p_lm o lm) - 1) j). split; [exact (P1 eq_refl)|]. destruct (P1 eq_refl) as [_ M]. exact (M _ _ _ _ W U).
Qed.
End Column.

Lemma div_leb_inv (a b : NumQ) k : (1 <= k)%Z -> leb (div a (ofZ k)) (div b (ofZ k)) = true -> leb a b = true.
Proof.
  intros Hk H. destruct (isnan a) eqn:Ea.
  { destruct a; discriminate. }
  destruct (isnan b) eqn:Eb.
  { destruct b; try discriminate. destruct (div a (ofZ k)); discriminate. }
  destruct (leb a b) eqn:E; [reflexivity|]. exfalso.
  assert (Hlt : ltb b a = true).
  { destruct (ltb b a) eqn:E2; [reflexivity|]. pose proof (law_not_lt_le _ NumQ_laws _ _ Eb Ea E2). congruence. }
  assert (Hz : qc_eqb (qc_ofZ k) (Q2Qc 0) = false).
  { apply Bool.not_true_is_false. intros Ez. apply qc_eqb_eq in Ez. apply Qc_eq_this in Ez. rewrite this_ofZ, this_ofQ in Ez.
    change (inject_Z k == inject_Z 0)%Q in Ez. apply (proj1 (inject_Z_injective _ _)) in Ez. lia. }
  assert (Hlz : qc_ltb (qc_ofZ k) (Q2Qc 0) = false).
  { apply qc_ltb_false. unfold Qcle. rewrite this_ofZ, this_ofQ. change (inject_Z 0 <= inject_Z k)%Q. rewrite <- Zle_Qle. lia. }
  destruct a as [| | |p], b as [| | |q]; cbn [div ofZ NumQ xq_div] in H; rewrite ?Hz, ?Hlz in H; try discriminate.
  cbn in Hlt. apply qc_ltb_lt in Hlt. apply xq_leb_fin in H. unfold Qclt, Qcle, Qcdiv in *. rewrite !this_mul, !this_inv, !this_ofZ in H.
  assert (Kp : (0 < / inject_Z k)%Q) by (apply Qinv_lt_0_compat; change (inject_Z 0 < inject_Z k)%Q; rewrite <- Zlt_Qlt; lia).
  apply (Qmult_lt_r _ _ _ Kp) in Hlt. apply (Qlt_not_le _ _ Hlt). exact H.
Qed.

Definition free_start (ob : bool) (p : point) : Prop := fst p = 0 /\ (ob = false -> snd p = 0).

Definition up (p : point) : point := (S (fst p), snd p).
Definition down (p : point) : point := (fst p - 1, snd p).
Lemma sumc_padded (lm : mat NumQ) vs : wf_mat lm -> (forall p, In p vs -> fst p < nr lm /\ snd p < nc lm) ->
  sumc (padded lm) (map up vs) = sumc lm vs.
Proof.
  intros Hw. induction vs as [|p vs IH]; intros Hb; [reflexivity|]. cbn [map sumc fold_right].
  fold (sumc (padded lm) (map up vs)). fold (sumc lm vs). rewrite IH by (intros q Hq; apply Hb; right; exact Hq). f_equal.
  destruct (Hb p (or_introl eq_refl)). unfold up. cbn [fst snd]. rewrite padded_cell by (auto; lia). cbn [Nat.eqb].
  f_equal. lia.
Qed.
Lemma up_down vs : (forall p, In p vs -> 1 <= fst p) -> map up (map down vs) = vs.
Proof.
  intros H. rewrite map_map. rewrite <- (map_id vs) at 2. apply map_ext_in. intros [a b] Hp. unfold up, down. cbn [fst snd].
  specialize (H _ Hp). cbn [fst] in H. f_equal. lia.
Qed.

Lemma adm_route ob (rules : list (rule NumQ)) (lm : mat NumQ) kw ks vs ts j c :
  strides rules -> wf_mat lm -> 0 < nr lm -> (ob = true \/ 2 <= nr lm) ->
  admissible ob rules lm NoWindow kw ks vs ts (end_cell ob lm j) c ->
  ks <> [] /\ exists p t, links (hop rules) (p :: t) /\ (forall q, In q (p :: t) -> fst q < nr lm /\ snd q < nc lm) /\
    free_start ob p /\ last (p :: t) (0, 0) = (nr lm - 1, j) /\ c = sumc lm (p :: t).
Proof.
  intros [Hu [H1 _]] Hw Hn Hcase H. destruct ob; cbn [admissible end_cell] in H.
  - unfold open_walk in H.
    destruct (walk_route _ Hu _ _ _ _ _ _ _ _ _ _ H) as [i [j0 [c0 [t [-> [Hs [-> [Hl [Hb [Hal [Hlen Hlast]]]]]]]]]]].
    unfold open_source in Hs. destruct (i =? 0) eqn:E0; [|discriminate]. assert (c0 = ofZ 0) as -> by congruence. assert (i = 0) by lia. subst i.
    destruct t as [|p t].
    { exfalso. apply (f_equal fst) in Hlast. cbn [fst last end_cell] in Hlast.
 lia. }
    split; [destruct ks; [discriminate|discriminate]|].
    assert (Hge : forall q, In q (p :: t) -> 1 <= fst q) by (intros q Hq; apply (Hal q Hq)).
    assert (Hbq : forall q, In q (map down (p :: t)) -> fst q < nr lm /\ snd q < nc lm).
    { intros q Hq. apply in_map_iff in Hq. destruct Hq as [z [<- Hz]]. specialize (Hge _ Hz). destruct (Hb z (or_intror Hz)).
      unfold down. cbn [fst snd]. lia. }
    exists (down p), (map down t). destruct Hl as [[r [Hr [E1 E2]]] Hl]. split.
    { change (down p :: map down t) with (map down (p :: t)). refine (links_map _ _ down _ _ Hl).
      intros a b Ha Hb' [r' [Hr' [E3 E4]]]. exists r'. unfold down. cbn [fst snd]. specialize (Hge _ Ha). split; [exact Hr'|]. lia. }
    split; [exact Hbq|]. split.
    { split; [|discriminate]. unfold down. cbn [fst snd] in *. rewrite (H1 r Hr) in E1. lia. }
    split.
    { change (last (map down (p :: t)) (0, 0) = (nr lm - 1, j)).
      destruct (@exists_last point (p :: t) ltac:(discriminate)) as [u [z Ez]]. unfold point in *. rewrite Ez in *.
      rewrite map_app. cbn [map]. rewrite last_last. change ((0, j0) :: u ++ [z]) with (((0, j0) :: u) ++ [z]) in Hlast.
      rewrite last_last in Hlast. subst z. unfold down. reflexivity. }
    rewrite <- (up_down (p :: t)) by exact Hge. rewrite sumc_padded by (auto; exact Hbq). apply xq_add_0.
  - destruct Hcase as [|Hn2]; [discriminate|]. unfold closed_walk in H.
    destruct (walk_route _ Hu _ _ _ _ _ _ _ _ _ _ H) as [i [j0 [c0 [t [-> [Hs [-> [Hl [Hb [Hal [Hlen Hlast]]]]]]]]]]].
    unfold closed_source in Hs. destruct ((i =? 0) && (j0 =? 0)) eqn:E0; [|discriminate]. assert (c0 = cell lm 0 0) as -> by congruence.
    assert (i = 0) by lia. assert (j0 = 0) by lia. subst i j0. split.
    { intros ->. destruct t; [|discriminate]. apply (f_equal fst) in Hlast. cbn [fst last end_cell] in Hlast. lia. }
    exists (0, 0), t. split; [exact Hl|]. split; [exact Hb|]. split; [split; auto|]. split; [exact Hlast|]. reflexivity.
Qed.

Lemma route_adm ob (rules : list (rule NumQ)) (lm : mat NumQ) kw p t j :
  strides rules -> wf_mat lm -> 0 < nr lm ->
  links (hop rules) (p :: t) -> (forall q, In q (p :: t) -> fst q < nr lm /\ snd q < nc lm) ->
  free_start ob p -> last (p :: t) (0, 0) = (nr lm - 1, j) ->
  exists ks vs ts, admissible ob rules lm NoWindow kw ks vs ts (end_cell ob lm j) (sumc lm (p :: t)).
Proof.
  intros [Hu [H1 [r0 [Hr0 E0]]]] Hw Hn Hl Hb [F1 F2] Hlast. destruct p as [i0 j0]. cbn [fst snd] in F1, F2. subst i0.
  destruct ob; cbn [admissible end_cell].
  - destruct (route_walk rules Hu (padded lm) (nr lm + 1) (nc lm) open_source
      (fun i j => 1 <= i /\ in_window NoWindow kw (nr lm + 1) (nc lm) i j) 0 j0 (ofZ 0) (map up ((0, j0) :: t))) as [ks [ts [W _]]].
    + reflexivity.
    + cbn [map]. split; [exists r0; split; [exact Hr0|]; unfold up; cbn [fst snd]; rewrite (H1 _ Hr0), E0; lia|].
      change (up (0, j0) :: map up t) with (map up ((0, j0) :: t)). refine (links_map _ _ up _ _ Hl).
      intros a b _ _ [r [Hr [E3 E4]]]. exists r. unfold up. cbn [fst snd]. split; [exact Hr|]. lia.
    + intros q [<-|Hq]; [cbn [fst snd]; destruct (Hb (0, j0) (or_introl eq_refl)) as [B1 B2]; cbn [fst snd] in *; lia|].
      apply in_map_iff in Hq. destruct Hq as [z [<- Hz]]. destruct (Hb z Hz). unfold up. cbn [fst snd]. lia.
    + intros q Hq. apply in_map_iff in Hq. destruct Hq as [z [<- Hz]]. split; [unfold up; cbn [fst]; lia|exact I].
    + rewrite sumc_padded in W by auto. eexists ks, _, ts. unfold open_walk.
      replace (add (ofZ 0) (sumc lm ((0, j0) :: t))) with (sumc lm ((0, j0) :: t)) in W by (symmetry; apply xq_add_0).
      unfold end_cell. replace (nr lm, j) with (last ((0, j0) :: map up ((0, j0) :: t)) (0, 0)); [exact W|].
      destruct (@exists_last point ((0, j0) :: t) ltac:(discriminate)) as [u [z Ez]]. unfold point in *. rewrite Ez in *.
      rewrite last_last in Hlast. subst z. rewrite map_app. cbn [map]. rewrite app_comm_cons, last_last. unfold up. cbn [fst snd]. f_equal. lia.
  - rewrite (F2 eq_refl) in *.
    destruct (route_walk rules Hu lm (nr lm) (nc lm) (closed_source lm) (in_window NoWindow kw (nr lm) (nc lm))
              0 0 (cell lm 0 0) t) as [ks [ts [W _]]]; auto.
    { intros; exact I. }
    eexists ks, _, ts. unfold closed_walk. unfold end_cell. replace (nr lm - 1, j) with (last ((0, 0) :: t) (0, 0)) by exact Hlast. exact W.
Qed.

(** [least ob oe lm v]: v is the least cost (below +infinity) of the alignments with the given
    open ends. *)
Definition aligned (rules : list (rule NumQ)) (ob oe : bool) (lm : mat NumQ) (p : point) (t : list point) : Prop :=
  links (hop rules) (p :: t) /\ (forall q, In q (p :: t) -> fst q < nr lm /\ snd q < nc lm) /\
  free_start ob p /\ fst (last (p :: t) (0, 0)) = nr lm - 1 /\ (oe = false -> snd (last (p :: t) (0, 0)) = nc lm - 1).
Definition least rules ob oe (lm : mat NumQ) (v : NumQ) : Prop :=
  (exists p t, aligned rules ob oe lm p t /\ v = sumc lm (p :: t) /\ good v) /\
  (forall p t, aligned rules ob oe lm p t -> good (sumc lm (p :: t)) -> leb v (sumc lm (p :: t)) = true).

Lemma aligned_rot rules ob oe (lm : mat NumQ) p t : wf_mat lm -> 0 < nr lm -> 0 < nc lm ->
  aligned rules ob oe lm p t ->
  exists p' t', aligned rules oe ob (rot lm) p' t' /\ sumc (rot lm) (p' :: t') = sumc lm (p :: t).
Proof.
  intros Hw Hn Hm [Hl [Hb [[F1 F2] [F3 F4]]]].
  destruct (@rev_cons_last point p t (0, 0)) as [l' [E1 _]].
  pose proof (links_mirror _ _ _ _ Hb Hl) as Hl'. pose proof (sumc_mirror lm _ Hw Hb) as Es.
  unfold point in *. rewrite <- map_rev, E1 in Hl', Es. cbn [map] in Hl', Es.
  set (z := last (p :: t) (0, 0)) in *. exists (mirror (nr lm) (nc lm) z), (map (mirror (nr lm) (nc lm)) l').
  split; [|exact Es].
  assert (Hin : forall q, In q (mirror (nr lm) (nc lm) z :: map (mirror (nr lm) (nc lm)) l') -> exists q0, In q0 (p :: t) /\ q = mirror (nr lm) (nc lm) q0).
  { intros q Hq. change (mirror (nr lm) (nc lm) z :: map (mirror (nr lm) (nc lm)) l') with (map (mirror (nr lm) (nc lm)) (z :: l')) in Hq.
    rewrite <- E1 in Hq. apply in_map_iff in Hq. destruct Hq as [q0 [<- Hq]]. apply in_rev in Hq. eauto. }
  assert (El : last (mirror (nr lm) (nc lm) z :: map (mirror (nr lm) (nc lm)) l') (0, 0) = mirror (nr lm) (nc lm) p).
  { change (mirror (nr lm) (nc lm) z :: map (mirror (nr lm) (nc lm)) l') with (map (mirror (nr lm) (nc lm)) (z :: l')).
    rewrite <- E1. cbn [rev]. rewrite map_app. cbn [map]. apply last_last. }
  assert (Hz : In z (p :: t)) by (apply last_in; discriminate). destruct (Hb _ Hz). destruct (Hb p (or_introl eq_refl)).
  split; [exact Hl'|]. split.
  { intros q Hq. destruct (Hin q Hq) as [q0 [Hq0 ->]]. destruct (Hb _ Hq0). unfold mirror. cbn [fst snd rot nr nc]. lia. }
  rewrite El. unfold free_start, mirror. cbn [fst snd rot nr nc]. split; [|split].
  - split; [lia|]. intros E. specialize (F4 E). lia.
  - lia.
  - intros E. specialize (F2 E). lia.
Qed.

Lemma least_rot rules ob oe (lm : mat NumQ) v : wf_mat lm -> 0 < nr lm -> 0 < nc lm ->
  least rules ob oe lm v -> least rules oe ob (rot lm) v.
Proof.
  intros Hw Hn Hm [[p [t [A [Ev G]]]] M]. split.
  - destruct (aligned_rot _ _ _ _ _ _ Hw Hn Hm A) as [p' [t' [A' E']]]. exists p', t'. split; [exact A'|]. split; [congruence|exact G].
  - intros p' t' A' G'. destruct (aligned_rot _ _ _ (rot lm) p' t' (rot_wf _ Hw) Hn Hm A') as [p2 [t2 [A2 E2]]].
    rewrite rot_rot in *. rewrite <- E2. apply M; [exact A2|]. rewrite E2. exact G'.
Qed.
Lemma least_unique rules ob oe lm v v' : least rules ob oe lm v -> least rules ob oe lm v' -> v = v'.
Proof.
  intros [[p [t [A [E G]]]] M] [[p' [t' [A' [E' G']]]] M']. subst. apply leb_both; auto.
Qed.

(** The result of a call is the least cost of its alignments. *)
Lemma call_least cdist x y o (lm : mat NumQ) d rules :
  costs_of cdist x y lm -> dtw cdist x y o = Ok d -> pattern_rules (r_stepPattern d) rules ->
  strides rules -> hint (r_stepPattern d) = "N" -> r_windowFunction d = NoWindow -> 2 <= nr lm ->
  least rules (o_open_begin o) (o_open_end o) lm (r_distance d).
Proof.
  intros HC Hd Hp Hs Hh Hnw Hn.
  pose proof (ok_well_posed NumQ_laws _ _ _ _ _ _ _ HC Hd Hp ltac:(lia)) as WP.
  assert (Hw : wf_mat lm) by (destruct HC; assumption).
  destruct (dtw_fields NumQ_laws _ _ _ _ _ _ _ HC Hd Hp) as [F1 [F2 [_ [_ [_ [Fk [_ [Fj0 [Fj [Fn _]]]]]]]]]].
  destruct (dtw_best NumQ_laws _ _ _ _ _ _ _ HC Hd Hp) as [[ks [vs [ts [W U]]]] Hmin].
  rewrite Hnw in W, Hmin, WP. rewrite Fk in W, Hmin.
  destruct (adm_route _ _ _ _ _ _ _ _ _ Hs Hw ltac:(lia) (or_intror Hn) W) as [Hne [p [t [Hl [Hb [Hf [Hlast Ec]]]]]]].
  split.
  - exists p, t. split; [|split; [exact Ec|apply U; exact Hne]]. split; [exact Hl|]. split; [exact Hb|]. split; [exact Hf|].
    unfold point in *. rewrite Hlast. cbn [fst snd]. split; [reflexivity|exact Fj].
  - intros p' t' [Al [Ab [Af [Ae Ae2]]]] G.
    set (z := last (p' :: t') (0, 0)) in *.
    assert (Hz : In z (p' :: t')) by (apply last_in; discriminate). destruct (Ab _ Hz) as [Z1 Z2].
    assert (Ez : last (p' :: t') (0, 0) = (nr lm - 1, snd z)) by (unfold point in *; fold z; destruct z; cbn [fst snd] in *; congruence).
    destruct (route_adm (o_open_begin o) rules lm (o_window_args o) p' t' (snd z) Hs Hw ltac:(lia) Al Ab Af Ez) as [ks' [vs' [ts' W']]].
    assert (U' : usable ks' (sumc lm (p' :: t'))).
    { split; [apply (law_good_not_nan _ NumQ_laws); exact G|]. intros _. exact G. }
    destruct (o_open_end o) eqn:Eo.
    + destruct (column_best NumQ_laws _ _ _ _ _ _ _ _ _ _ _ _ _ WP Z2 W' U') as [c0 [B0 L0]].
      destruct (open_end_choice NumQ_laws _ _ _ _ _ _ _ HC Hd Hp Eo ltac:(lia)) as [_ [_ [En Hch]]].
      rewrite Hnw, Fk in Hch. destruct (Hch _ _ Z2 B0) as [Hle _]. rewrite En in Hle. unfold normalized in Hle. rewrite Hh in Hle.
      change (String.eqb "N" "N+M") with false in Hle. change (String.eqb "N" "N") with true in Hle. cbn iota in Hle.
      apply div_leb_inv in Hle; [|lia]. exact (law_le_trans _ NumQ_laws _ _ _ Hle L0).
    + specialize (Ae2 eq_refl). rewrite Ae2, <- (Fj eq_refl) in W'. exact (Hmin _ _ _ _ W' U').
Qed.

(** Exchanging the open ends and reading both series backwards. *)
Theorem reversed_open cdist x y o (lm : mat NumQ) d rules cdist' x' y' o' :
  costs_of cdist x y lm -> dtw cdist x y o = Ok d -> pattern_rules (r_stepPattern d) rules ->
  strides rules -> hint (r_stepPattern d) = "N" -> r_windowFunction d = NoWindow -> 2 <= nr lm ->
  costs_of cdist' x' y' (rot lm) -> (o_open_begin o' = true \/ native_array x' y') ->
  (Z.of_nat (nr lm + 1) * Z.of_nat (nc lm) <= INT_MAX)%Z ->
  o_step_pattern o' = o_step_pattern o -> o_window_type o' = o_window_type o ->
  o_open_begin o' = o_open_end o -> o_open_end o' = o_open_begin o -> o_distance_only o' = false ->
  exists d', dtw cdist' x' y' o' = Ok d' /\ r_distance d' = r_distance d /\
    r_normalizedDistance d' = r_normalizedDistance d.
Proof.
  intros HC Hd Hp Hs Hh Hnw Hn HC' Hn' Hsz Es Ew Eb Ee Edo.
  pose proof (call_least _ _ _ _ _ _ _ HC Hd Hp Hs Hh Hnw Hn) as Hleast.
  pose proof (ok_well_posed NumQ_laws _ _ _ _ _ _ _ HC Hd Hp ltac:(lia)) as WP.
  destruct WP as [w1 w2 w3 w4 w5 w6 w7 w8 w9 w10]. rewrite Hnw in *.
  assert (Hw : wf_mat lm) by (destruct HC; assumption).
  assert (Hm : 0 < nc lm) by (destruct w8 as [_ [K _]]; exact K).
  assert (WP' : well_posed cdist' x' y' o' (rot lm) (r_stepPattern d) rules NoWindow).
  { constructor; auto; try congruence.
    - unfold size_ok, rows_used. change (nr (rot lm)) with (nr lm). change (nc (rot lm)) with (nc lm).
      destruct (o_open_begin o'); [lia|]. split; [lia|]. split; [lia|]. nia. }
  apply (least_rot _ _ _ _ _ Hw ltac:(lia) Hm) in Hleast.
  assert (Hok : exists d', dtw cdist' x' y' o' = Ok d' /\ r_stepPattern d' = r_stepPattern d /\ r_windowFunction d' = NoWindow).
  { destruct Hleast as [[p [t [[Al [Ab [Af [Ae Ae2]]]] [Ev G]]]] _].
    set (z := last (p :: t) (0, 0)) in *.
    assert (Hz : In z (p :: t)) by (apply last_in; discriminate). destruct (Ab _ Hz) as [Z1 Z2].
    assert (Ez : last (p :: t) (0, 0) = (nr (rot lm) - 1, snd z)) by (unfold point in *; fold z; destruct z; cbn [fst snd] in *; congruence).
    rewrite <- Eb in Af.
    destruct (route_adm (o_open_begin o') rules (rot lm) (o_window_args o') p t (snd z) Hs (rot_wf _ Hw) ltac:(cbn [rot nr]; lia) Al Ab Af Ez) as [ks' [vs' [ts' W']]].
    assert (U' : usable ks' (sumc (rot lm) (p :: t))).
    { rewrite <- Ev. split; [apply (law_good_not_nan _ NumQ_laws); exact G|]. intros _. exact G. }
    destruct (o_open_end o') eqn:Eo.
    - destruct (dtw_open_end_iff NumQ_laws _ _ _ _ _ _ _ _ WP' Eo) as [[_ Hno]|[d' [Hd' [Es' [Ew' _]]]]]; [|exists d'; auto].
      exfalso. exact (Hno _ Z2 _ _ _ _ W' U').
    - destruct (dtw_closed_end_iff NumQ_laws _ _ _ _ _ _ _ _ WP' Eo) as [[_ Hno]|[d' [Hd' [Es' [Ew' _]]]]]; [|exists d'; auto].
      exfalso. rewrite (Ae2 ltac:(congruence)) in W'. exact (Hno _ _ _ _ W' U'). }
  destruct Hok as [d' [Hd' [Es' Ew']]]. exists d'. split; [exact Hd'|].
  assert (Hp' : pattern_rules (r_stepPattern d') rules) by (rewrite Es'; exact Hp).
  pose proof (call_least _ _ _ _ (rot lm) _ _ HC' Hd' Hp' Hs ltac:(congruence) Ew' Hn) as Hleast'.
  rewrite Eb, Ee in Hleast'. pose proof (least_unique _ _ _ _ _ _ Hleast' Hleast) as ED. split; [exact ED|].
  destruct (dtw_fields NumQ_laws _ _ _ _ _ _ _ HC Hd Hp) as [F1 [_ [_ [_ [_ [_ [_ [_ [_ [Fn _]]]]]]]]]].
  destruct (dtw_fields NumQ_laws _ _ _ _ _ _ _ HC' Hd' Hp') as [F1' [_ [_ [_ [_ [_ [_ [_ [_ [Fn' _]]]]]]]]]].
  rewrite Fn, Fn', Es', Hh, ED, F1, F1'. reflexivity.
Qed.

(** Which predefined patterns these theorems are about *)
Lemma unit_of_table l : forallb (fun r => match w_add r with [(0, 0, (1, 1)%Z)] => true | _ => false end) l = true ->
  unit_rules (@productions NumQ l).
Proof.
  intros H r Hr. apply in_map_iff in Hr. destruct Hr as [w [<- Hw]]. rewrite forallb_forall in H. specialize (H w Hw).
  unfold production. cbn [r_add]. destruct (w_add w) as [|[[[|] [|]] [[|[| |]|] [|[| |]|]]] [|]]; try discriminate. reflexivity.
Qed.
Theorem unit_predefined : forall k l,
  In k ["symmetric1"; "asymmetric"; "typeIIa"; "rigid"] -> lookup k predefined = Some l -> unit_rules (@productions NumQ l).
Proof.
  intros k l Hk Hl. apply unit_of_table. revert l Hl.
  repeat (destruct Hk as [<-|Hk]; [intros l Hl; vm_compute in Hl; injection Hl as <-; reflexivity|]). destruct Hk.
Qed.
Theorem strides_asymmetric l : lookup "asymmetric" predefined = Some l -> strides (@productions NumQ l).
Proof.
  intros Hl. split; [apply (unit_predefined "asymmetric"); [cbn; auto|exact Hl]|].
  vm_compute in Hl. injection Hl as <-. split.
  - intros r Hr. cbn in Hr. destruct Hr as [<-|[<-|[<-|[]]]]; reflexivity.
  - eexists. split; [left; reflexivity|reflexivity].
Qed.
Theorem unit_mvm e : unit_rules (@productions NumQ (mvm_productions e)).
Proof.
  apply unit_of_table. apply forallb_forall. intros r Hr. apply in_map_iff in Hr. destruct Hr as [k [<- _]]. reflexivity.
Qed.

(** ** Windows that read the same backwards *)
Theorem reversible_none {N : Num} (kw : kwargs N) n m : window_reversible NoWindow kw n m.
Proof. split; [exact I|intros; exact I]. Qed.
Theorem reversible_sakoe {N : Num} (ws : N) n : leb (ofZ 0) ws = true ->
  window_reversible SakoeChiba [("window_size", ws)] n n.
Proof.
  intros H. unfold window_reversible, in_window, call_window. cbn [String.eqb Ascii.eqb Bool.eqb]. unfold sakoeChibaWindow. split.
  - change (Z.abs (Z.of_nat 0 - Z.of_nat 0)) with 0%Z. rewrite H. reflexivity.
  - intros i j Hi Hj E. replace (Z.abs (Z.of_nat (n - 1 - j) - Z.of_nat (n - 1 - i))) with (Z.abs (Z.of_nat j - Z.of_nat i)) by lia. exact E.
Qed.

(** ** Series *)
Lemma mat_eq {N : Num} (a b : mat N) : wf_mat a -> wf_mat b -> nr a = nr b -> nc a = nc b ->
  (forall i j, i < nr a -> j < nc a -> cell a i j = cell b i j) -> a = b.
Proof.
  destruct a as [n m l], b as [n' m' l']. unfold wf_mat. cbn [nr nc dat]. intros Wa Wb -> -> H. f_equal.
  apply nth_error_ext. intros k. destruct (Nat.lt_ge_cases k (n' * m')) as [Hk|Hk].
  - assert (Hm : 0 < m') by nia. specialize (H (k / m') (k mod m')).
    assert (Hi : k / m' < n') by (apply Nat.div_lt_upper_bound; lia).
    assert (Hj : k mod m' < m') by (apply Nat.mod_upper_bound; lia). specialize (H Hi Hj).
    unfold cell, mget in H. cbn [nr nc dat] in H. replace ((k / m' <? n') && (k mod m' <? m')) with true in H by lia.
    replace (k / m' * m' + k mod m') with k in H by (rewrite (Nat.div_mod k m') at 1; lia).
    destruct (nth_error l k) as [v|] eqn:E1; [|apply nth_error_None in E1; lia].
    destruct (nth_error l' k) as [v'|] eqn:E2; [|apply nth_error_None in E2; lia]. congruence.
  - assert (E1 : nth_error l k = None) by (apply nth_error_None; lia).
    assert (E2 : nth_error l' k = None) by (apply nth_error_None; lia). congruence.
Qed.
Theorem backwards_costs {N : Num} (cdist : mat N -> mat N -> out (mat N)) f xm ym xm' ym' lm :
  entrywise cdist f -> wf_mat xm -> wf_mat ym -> nc xm = nc ym -> cdist xm ym = Ok lm ->
  wf_mat xm' -> wf_mat ym' -> backwards xm xm' -> backwards ym ym' ->
  cdist xm' ym' = Ok (rot lm).
Proof.
  intros He Hx Hy Hc Hl Hx' Hy' [X1 [X2 X3]] [Y1 [Y2 Y3]].
  destruct (He xm ym Hx Hy Hc) as [l1 [E1 [W1 [R1 [C1 G1]]]]]. assert (l1 = lm) by congruence. subst l1.
  destruct (He xm' ym' Hx' Hy' ltac:(congruence)) as [l2 [E2 [W2 [R2 [C2 G2]]]]]. rewrite E2. f_equal.
  apply mat_eq; [exact W2|apply rot_wf; exact W1|cbn [rot nr]; congruence|cbn [rot nc]; congruence|].
  intros i j Hi Hj. rewrite R2, X1 in Hi. rewrite C2, Y1 in Hj. rewrite rot_cell by (auto; lia).
  rewrite G2 by lia. rewrite G1 by lia. f_equal; unfold sample.
  - rewrite X2. apply map_ext_in. intros k Hk. apply in_seq in Hk. rewrite X3 by lia. rewrite R1. reflexivity.
  - rewrite Y2. apply map_ext_in. intros k Hk. apply in_seq in Hk. rewrite Y3 by lia. rewrite C1. reflexivity.
Qed.
