(** Reorder.v - the order of the rows of a step pattern (proofs for C86). *)
From Coq Require Import Permutation ZifyBool ZifyNat.
From Verif Require Import Base Num StepPattern Window Core Backtrack Dtw Spec Print CountPaths CoreProof DPProof RowSpec.
Open Scope Z_scope.

(** ** Same outcome, faults apart *)
Definition same {A} (o o' : out A) : Prop := (forall v, o = Ok v -> o' = Ok v) /\ (forall e, o = Raise e -> o' = Raise e).
Lemma same_refl {A} (o : out A) : same o o.
Proof. split; auto. Qed.
Lemma same_bind {A B} (o o' : out A) (f f' : A -> out B) : same o o' -> (forall v, o = Ok v -> same (f v) (f' v)) -> same (bind o f) (bind o' f').
Proof.
  intros [H1 H2] H. destruct o as [v|e| | |]; cbn [bind].
  - rewrite (H1 v eq_refl). cbn [bind]. apply H. reflexivity.
  - rewrite (H2 e eq_refl). apply same_refl.
  - split; discriminate.
  - split; discriminate.
  - split; discriminate.
Qed.
Lemma same_loop {S} (f f' : Z -> S -> out S) : (forall i s, same (f i s) (f' i s)) -> forall c i s, same (loop i c f s) (loop i c f' s).
Proof. intros H. induction c as [|c IH]; intros i s; [apply same_refl|]. cbn [loop]. apply same_bind; [apply H|]. intros v _. apply IH. Qed.
Definition quiet {A} (o : out A) : Prop := forall e, o <> Raise e.
Lemma quiet_ok {A} (v : A) : quiet (Ok v). Proof. discriminate. Qed.
Lemma quiet_bind {A B} (o : out A) (f : A -> out B) : quiet o -> (forall v, quiet (f v)) -> quiet (bind o f).
Proof. intros H1 H2. destruct o; cbn [bind]; try (intros e; discriminate); [apply H2|]. exfalso. eapply H1. reflexivity. Qed.
Lemma quiet_rd {A} (l : list A) i : quiet (rd l i).
Proof. unfold rd. destruct (i <? 0); [intros e; discriminate|]. destruct (nth_error l (Z.to_nat i)); intros e; discriminate. Qed.
Lemma quiet_wr {A} (l : list A) i v : quiet (wr l i v).
Proof. unfold wr. destruct (_ || _); intros e; discriminate. Qed.
Lemma quiet_i32 z : quiet (i32 z).
Proof. unfold i32. destruct (in_i32 z); intros e; discriminate. Qed.
Lemma quiet_foldM {A S} (f : A -> S -> out S) l : (forall a s, quiet (f a s)) -> forall s, quiet (foldM f l s).
Proof. intros H. induction l as [|a l IH]; intros s; [apply quiet_ok|]. cbn [foldM]. apply quiet_bind; auto. Qed.

Section R.
Context {N : Num}.

(** ** Swapping rows of different productions *)
Lemma do_step_form n (lm cm : list N) i j r cl c : do_step n lm cm i j r cl = Ok c ->
  (forall cl', do_step n lm cm i j r cl' = Ok cl') \/
  (exists f, forall cl', do_step n lm cm i j r cl' =
     if (pn r <? 0) || (Z.of_nat (List.length cl') <=? pn r) then UB else Ok (upd cl' (Z.to_nat (pn r)) (f (nth (Z.to_nat (pn r)) cl' nan)))).
Proof.
  unfold do_step. intros H. destruct (i32 (i - di r)) as [ii| | | |]; try discriminate. destruct (i32 (j - dj r)) as [jj| | | |]; try discriminate. cbn [bind] in *.
  destruct ((0 <=? ii) && (0 <=? jj)); [|left; reflexivity]. right. destruct (EM n ii jj) as [k| | | |]; try (destruct (eqb (sc r) (ofZ (-1))); discriminate). cbn [bind] in *.
  destruct (eqb (sc r) (ofZ (-1))).
  - destruct (rd cm k) as [v| | | |]; try discriminate. exists (fun _ => v). intros cl'. cbn [bind]. unfold wr. reflexivity.
  - destruct (rd lm k) as [l| | | |]; try discriminate. exists (fun old => macc old (sc r) l). intros cl'. cbn [bind]. unfold rd, wr.
    destruct (pn r <? 0) eqn:E0; [reflexivity|]. cbn [orb]. destruct (Z.of_nat (List.length cl') <=? pn r) eqn:E1.
    + destruct (nth_error cl' (Z.to_nat (pn r))) eqn:E; [|reflexivity]. exfalso. assert (Z.to_nat (pn r) < List.length cl')%nat by (apply nth_error_Some; congruence). lia.
    + rewrite (nth_error_nth' cl' nan) by lia. reflexivity.
Qed.
Lemma upd_swap {A} (l : list A) a b u v : a <> b -> upd (upd l a u) b v = upd (upd l b v) a u.
Proof.
  revert a b. induction l as [|x l IH]; intros [|a] [|b] H; try reflexivity; try congruence. cbn [upd]. f_equal. apply IH. congruence.
Qed.
Lemma nth_upd {A} (l : list A) a b v d : a <> b -> nth b (upd l a v) d = nth b l d.
Proof. revert a b. induction l as [|x l IH]; intros [|a] [|b] H; try reflexivity; try congruence. cbn [upd nth]. apply IH. congruence. Qed.
Lemma do_step_swap n (lm cm : list N) i j r r' cl v : pn r <> pn r' ->
  (c <- do_step n lm cm i j r cl ;; do_step n lm cm i j r' c) = Ok v -> (c <- do_step n lm cm i j r' cl ;; do_step n lm cm i j r c) = Ok v.
Proof.
  intros Hp H. destruct (do_step n lm cm i j r cl) as [c| | | |] eqn:E1; try discriminate. cbn [bind] in H.
  pose proof (do_step_form _ _ _ _ _ _ _ _ E1) as [F1|[f F1]]; pose proof (do_step_form _ _ _ _ _ _ _ _ H) as [F2|[g F2]].
  - rewrite F1 in E1. rewrite F2 in H. rewrite F2. cbn [bind]. rewrite F1. congruence.
  - rewrite F1 in E1. injection E1 as ->. rewrite H. cbn [bind]. apply F1.
  - rewrite F2 in H. injection H as ->. rewrite F2. cbn [bind]. exact E1.
  - rewrite F1 in E1. rewrite F2 in H. rewrite F2.
    destruct ((pn r <? 0) || (Z.of_nat (List.length cl) <=? pn r)) eqn:Q1; [discriminate|]. injection E1 as <-. rewrite upd_length in H.
    destruct ((pn r' <? 0) || (Z.of_nat (List.length cl) <=? pn r')) eqn:Q2; [discriminate|]. cbn [bind]. rewrite F1, upd_length, Q1.
    rewrite <- H. f_equal. assert (Z.to_nat (pn r) <> Z.to_nat (pn r')) by lia.
    rewrite !nth_upd by lia. apply upd_swap. lia.
Qed.
Lemma fold_move n (lm cm : list N) i j r pre post : (forall a, In a pre -> pn a <> pn r) -> forall cl v,
  foldM (do_step n lm cm i j) (r :: pre ++ post) cl = Ok v -> foldM (do_step n lm cm i j) (pre ++ r :: post) cl = Ok v.
Proof.
  induction pre as [|a pre IH]; intros Hp cl v H; [exact H|].
  assert (Q : (c <- do_step n lm cm i j r cl ;; c' <- do_step n lm cm i j a c ;; foldM (do_step n lm cm i j) (pre ++ post) c') = Ok v) by exact H.
  destruct (do_step n lm cm i j r cl) as [c| | | |] eqn:E1; try discriminate. cbn [bind] in Q.
  destruct (do_step n lm cm i j a c) as [c'| | | |] eqn:E2; try discriminate. cbn [bind] in Q.
  assert (S : (c <- do_step n lm cm i j a cl ;; do_step n lm cm i j r c) = Ok c').
  { apply do_step_swap; [apply not_eq_sym, Hp; left; reflexivity|]. rewrite E1. exact E2. }
  cbn [app foldM]. destruct (do_step n lm cm i j a cl) as [c1| | | |] eqn:E3; try discriminate. cbn [bind] in *.
  apply IH; [intros b Hb; apply Hp; right; exact Hb|]. cbn [foldM]. rewrite S. exact Q.
Qed.
Lemma filter_split {A} (f : A -> bool) l x t : List.filter f l = x :: t ->
  exists pre post, l = (pre ++ x :: post)%list /\ List.filter f pre = nil /\ List.filter f post = t.
Proof.
  induction l as [|a l IH]; [discriminate|]. cbn [List.filter]. destruct (f a) eqn:E; cbn [List.filter].
  - intros [= -> H]. exists nil, l. auto.
  - intros H. destruct (IH H) as [pre [post [-> [P Q]]]]. exists (a :: pre), post. cbn [List.filter]. rewrite E. auto.
Qed.
Lemma fold_reorder n (lm cm : list N) i j rows : forall rows', (forall p, List.filter (fun r => pn r =? p) rows' = List.filter (fun r => pn r =? p) rows) -> forall cl v,
  foldM (do_step n lm cm i j) rows cl = Ok v -> foldM (do_step n lm cm i j) rows' cl = Ok v.
Proof.
  induction rows as [|r rows IH]; intros rows' H cl v E.
  - destruct rows' as [|a l]; [exact E|]. specialize (H (pn a)). cbn [List.filter] in H. rewrite Z.eqb_refl in H. discriminate.
  - pose proof (H (pn r)) as Hr. cbn [List.filter] in Hr. rewrite Z.eqb_refl in Hr. destruct (filter_split _ _ _ _ Hr) as [pre [post [-> [Hp Hq]]]].
    assert (Hpre : forall a, In a pre -> pn a <> pn r).
    { intros a Ha Q. assert (In a (List.filter (fun r0 => pn r0 =? pn r) pre)) by (apply filter_In; split; [exact Ha|lia]). rewrite Hp in H0. contradiction. }
    apply fold_move; [exact Hpre|]. cbn [foldM] in *. destruct (do_step n lm cm i j r cl) as [c| | | |]; try discriminate. cbn [bind] in *.
    apply IH; [|exact E]. intros p. specialize (H p). rewrite filter_app in *. cbn [List.filter] in H. destruct (pn r =? p) eqn:Ep; [|exact H].
    assert (p = pn r) by lia. subst p. rewrite Hp in *. cbn [app] in *. injection H as H. exact H.
Qed.

Lemma quiet_do_step n (lm cm : list N) i j r cl : quiet (do_step n lm cm i j r cl).
Proof.
  unfold do_step, EM. repeat (first [apply quiet_bind; [first [apply quiet_i32|apply quiet_rd]|intros ?]|apply quiet_wr|apply quiet_ok|destruct (_ && _)|destruct (eqb _ _)]).
Qed.
Lemma same_fold n (lm cm : list N) i j rows rows' cl : (forall p, List.filter (fun r => pn r =? p) rows' = List.filter (fun r => pn r =? p) rows) ->
  same (foldM (do_step n lm cm i j) rows cl) (foldM (do_step n lm cm i j) rows' cl).
Proof.
  intros H. split; [intros v; apply fold_reorder, H|]. intros e E. exfalso. exact (quiet_foldM _ rows (fun a s => quiet_do_step n lm cm i j a s) cl e E).
Qed.

Lemma same_computeCM n m wm (lm : list N) ns dir dir' cm sm rows rows' r r' :
  copy_rows dir ns = Ok rows -> copy_rows dir' ns = Ok rows' -> (forall p, List.filter (fun r => pn r =? p) rows' = List.filter (fun r => pn r =? p) rows) ->
  rd rows (ns - 1) = Ok r -> rd rows' (ns - 1) = Ok r' -> pn r' = pn r ->
  same (computeCM n m wm lm ns dir cm sm) (computeCM n m wm lm ns dir' cm sm).
Proof.
  intros E E' H Er Er' Hp. unfold computeCM. rewrite E, E'. cbn [bind]. rewrite Er, Er'. cbn [bind]. rewrite Hp.
  apply same_bind; [apply same_refl|]. intros mn _. apply same_bind; [apply same_refl|]. intros sm0 _.
  apply same_loop. intros j st. apply same_loop. intros i [c d]. unfold do_cell.
  apply same_bind; [apply same_refl|]. intros k _. apply same_bind; [apply same_refl|]. intros w _. destruct (w =? 0); [apply same_refl|].
  apply same_bind; [apply same_refl|]. intros x _. destruct (negb (isnan x)); [apply same_refl|].
  apply same_bind; [apply same_fold, H|]. intros cl _. apply same_refl.
Qed.

(** ** Rows of a well-formed table *)
Variable L : NumLaws N.
Definition to_int (v : N) : Z := match c_int v with Ok z => z | _ => 0 end.
Definition conv (r : row N) : crow N := CRow (to_int (c0 r) - 1) (to_int (c2 r)) (to_int (c1 r)) (c3 r).
Lemma row_crow_conv ns r c : row_crow ns r c -> c = conv r /\ row_crow ns r (conv r).
Proof.
  intros [H0 [H1 [H2 [H3 H4]]]]. assert (E : c = conv r).
  { unfold conv, to_int. rewrite H0, H1, H2, H3. destruct c; cbn. f_equal. lia. }
  split; [exact E|]. rewrite <- E. repeat split; try assumption; apply H4.
Qed.
Definition num (r : row N) : nat := Z.to_nat (to_int (c0 r)).

Section W.
Variables (s : steppat N) (rules : list (rule N)).
Hypothesis W : pattern_rules s rules.
Let ns := Z.of_nat (List.length (mx s)).
Lemma rows_conv : crows rules = map conv (mx s) /\ (forall r, In r (mx s) -> row_crow ns r (conv r)).
Proof.
  destruct W as [Hm [Hn [Hv [Hf1 Hf2]]]].
  assert (F : Forall2 (row_crow ns) (mx s) (crows rules)).
  { subst ns. pose proof (table_length_ge 1 rules). unfold table in *. rewrite Hm. apply (table_crows_from L 0); auto; unfold INT_MAX in *; lia. }
  clear - F. revert F. generalize ns. intros z F. induction F as [|r c l l' H F [IH1 IH2]]; [split; [reflexivity|intros ? []]|]. destruct (row_crow_conv _ _ _ H) as [E1 E2].
  split; [cbn [map]; rewrite <- E1, <- IH1; reflexivity|]. intros x [<-|Hx]; [exact E2|apply IH2, Hx].
Qed.
Lemma table_num k (rs : list (rule N)) r : In r (table_from k rs) -> exists q, (k <= q < k + List.length rs)%nat /\ c0 r = ofN q.
Proof.
  revert k. induction rs as [|a rs IH]; intros k H; [destruct H|]. cbn [table_from List.length] in *. apply in_app_or in H. destruct H as [H|H].
  - exists k. split; [lia|]. destruct H as [<-|H]; [reflexivity|]. apply in_map_iff in H. destruct H as [x [<- _]]. reflexivity.
  - destruct (IH (S k) H) as [q [Hq E]]. exists q. split; [lia|exact E].
Qed.
Lemma row_num r : In r (mx s) -> (1 <= num r <= List.length rules)%nat /\ c0 r = ofN (num r) /\ pn (conv r) = Z.of_nat (num r) - 1.
Proof.
  destruct W as [Hm [Hn [Hv [Hf1 Hf2]]]]. rewrite Hm. intros H. unfold table in H. destruct (table_num 1 rules r H) as [q [Hq E]].
  pose proof (table_length_ge 1 rules). unfold table in *. unfold INT_MAX in *.
  assert (T : to_int (c0 r) = Z.of_nat q) by (unfold to_int; rewrite E, c_int_ofN; [reflexivity|exact L|unfold INT_MAX; lia]).
  unfold conv, num. cbn [pn]. rewrite T, Nat2Z.id. repeat split; [lia|lia|exact E].
Qed.
Lemma rules_rows : Z.of_nat (List.length rules) <= ns.
Proof. unfold ns. destruct W as [Hm _]. rewrite Hm. pose proof (table_length_ge 1 rules). unfold table. lia. Qed.
Lemma rules_small : Z.of_nat (List.length rules) < INT_MAX.
Proof.
  destruct W as [Hm [Hn [Hv [Hf1 Hf2]]]]. pose proof (table_length_ge 1 rules). unfold table in *. unfold INT_MAX in *. destruct rules; [congruence|]. cbn [List.length] in *. lia.
Qed.
Lemma filter_pn l p : (forall r, In r l -> In r (mx s)) -> List.filter (fun c => pn c =? p) (map conv l) =
  map conv (if (0 <=? p) && (p <? ns) then List.filter (fun r => eqb (c0 r) (ofZ (p + 1))) l else nil).
Proof.
  intros H. pose proof rules_small as RS. pose proof rules_rows as RR. assert (NS : ns <= INT_MAX) by (destruct W as [Hm [_ [_ [Hf _]]]]; unfold ns; rewrite Hm; unfold INT_MAX in *; lia).
  unfold INT_MAX in *. destruct ((0 <=? p) && (p <? ns)) eqn:E.
  - induction l as [|r l IH]; [reflexivity|]. cbn [map List.filter]. rewrite IH by (intros x Hx; apply H; right; exact Hx).
    destruct (row_num r (H r (or_introl eq_refl))) as [A [B C]]. rewrite C, B. unfold ofN. rewrite (law_eq_ofZ _ L) by lia.
    replace (Z.of_nat (num r) =? p + 1) with (Z.of_nat (num r) - 1 =? p) by lia. destruct (_ =? _); reflexivity.
  - induction l as [|r l IH]; [reflexivity|]. cbn [map List.filter] in *. rewrite IH by (intros x Hx; apply H; right; exact Hx).
    destruct (row_num r (H r (or_introl eq_refl))) as [A [B C]]. rewrite C. replace (Z.of_nat (num r) - 1 =? p) with false by lia. reflexivity.
Qed.
Lemma max_num ks a : (forall k, In k (a :: ks) -> Z.of_nat k <= INT_MAX) -> np_max_from (@ofN N a) (map ofN ks) = ofN (fold_left Nat.max ks a).
Proof.
  revert a. induction ks as [|k ks IH]; intros a H; [reflexivity|]. cbn [map np_max_from fold_left].
  pose proof (H a (or_introl eq_refl)). pose proof (H k (or_intror (or_introl eq_refl))).
  rewrite !(ofN_nan L) by assumption. rewrite (ofN_ltb L) by assumption. destruct (Nat.ltb_spec a k).
  - rewrite IH by (intros x [<-|Hx]; [assumption|apply H; right; right; exact Hx]). do 2 f_equal. lia.
  - rewrite IH by (intros x [<-|Hx]; [assumption|apply H; right; right; exact Hx]). do 2 f_equal. lia.
Qed.
Lemma fold_max ks : forall a, fold_left Nat.max ks a = Nat.max a (list_max ks).
Proof. induction ks as [|k ks IH]; intros a; cbn [fold_left list_max fold_right]; [lia|]. rewrite IH. unfold list_max. lia. Qed.
Lemma max_perm l l' : Permutation l l' -> list_max l = list_max l'.
Proof. unfold list_max. induction 1; cbn [fold_right]; lia. Qed.
Lemma np_max_nums l : (forall r, In r l -> In r (mx s)) -> l <> nil -> np_max (map c0 l) = Ok (ofN (list_max (map num l))).
Proof.
  intros H Hl. pose proof rules_small as RS. unfold INT_MAX in *.
  assert (E : map c0 l = map ofN (map num l)).
  { rewrite map_map. apply map_ext_in. intros r Hr. apply row_num, H, Hr. }
  rewrite E. destruct l as [|r l]; [congruence|]. cbn [map np_max]. rewrite max_num.
  - f_equal. f_equal. rewrite fold_max. reflexivity.
  - intros k Hk. change (In k (map num (r :: l))) in Hk. apply in_map_iff in Hk. destruct Hk as [x [<- Hx]]. destruct (row_num x (H x Hx)) as [A _]. unfold INT_MAX. lia.
Qed.

Variable s' : steppat N.
Hypothesis P : same_productions s s'.
Lemma in_s' r : In r (mx s') -> In r (mx s).
Proof. destruct P as [_ [H _]]. apply Permutation_in. apply Permutation_sym, H. Qed.
Lemma length_s' : List.length (mx s') = List.length (mx s).
Proof. destruct P as [_ [H _]]. symmetry. apply Permutation_length, H. Qed.
Lemma copy_s' : copy_rows (get_p s') ns = Ok (map conv (mx s')).
Proof.
  unfold ns. rewrite <- length_s'. apply copy_rows_ok; rewrite length_s'.
  - destruct W as [Hm [_ [_ [Hf _]]]]. rewrite Hm. exact Hf.
  - assert (G : forall l, (forall r, In r l -> row_crow ns r (conv r)) -> Forall2 (row_crow ns) l (map conv l)).
    { induction l as [|r l IH]; intros H; constructor; [apply H; left; reflexivity|apply IH; intros x Hx; apply H; right; exact Hx]. }
    apply G. intros r Hr. change (row_crow ns r (conv r)). apply rows_conv. apply in_s', Hr.
Qed.
Lemma copy_s : copy_rows (get_p s) ns = Ok (map conv (mx s)).
Proof. rewrite <- (proj1 rows_conv). apply copy_rows_rules; [exact L|exact W]. Qed.
Lemma mx_nil : (0 < List.length (mx s))%nat.
Proof. destruct W as [Hm [Hn _]]. rewrite Hm. pose proof (table_length_ge 1 rules). unfold table in *. destruct rules; [congruence|]. cbn [List.length] in *. lia. Qed.
Lemma same_gcm cbuf lm wf seed kw : same (globalCostMatrix cbuf lm s wf seed kw) (globalCostMatrix cbuf lm s' wf seed kw).
Proof.
  unfold globalCostMatrix. apply same_bind; [apply same_refl|]. intros wm _. apply same_bind; [apply same_refl|]. intros cm _.
  unfold computeCM_wrapper. destruct (negb cbuf); [apply same_refl|].
  assert (Lp : List.length (get_p s') = List.length (get_p s)) by (unfold get_p; rewrite !app_length, !map_length, length_s'; reflexivity).
  rewrite Lp. destruct (_ || _); [apply same_refl|]. apply same_bind; [apply same_refl|]. intros n _. apply same_bind; [apply same_refl|]. intros m _.
  apply same_bind; [|intros ? _; apply same_refl]. unfold get_n_rows. rewrite length_s'. fold ns. pose proof mx_nil as H0. pose proof length_s' as Ls.
  destruct P as [Ph [Pp [Pf Pl]]]. unfold last_number in Pl. rewrite Ls in Pl.
  destruct (nth_error (mx s) (List.length (mx s) - 1)) as [r|] eqn:E; [|apply nth_error_None in E; lia].
  destruct (nth_error (mx s') (List.length (mx s) - 1)) as [r'|] eqn:E'; [|apply nth_error_None in E'; lia]. cbn [option_map] in Pl. injection Pl as Pl.
  apply (same_computeCM _ _ _ _ _ _ _ _ _ (map conv (mx s)) (map conv (mx s')) (conv r) (conv r')).
  - exact copy_s.
  - exact copy_s'.
  - intros p. rewrite !filter_pn by (auto using in_s'). destruct ((0 <=? p) && (p <? ns)) eqn:Ep; [|reflexivity]. f_equal. apply Pf. fold ns. lia.
  - subst ns. replace (Z.of_nat (List.length (mx s)) - 1) with (Z.of_nat (List.length (mx s) - 1)) by lia. apply rd_nat. rewrite nth_error_map, E. reflexivity.
  - subst ns. replace (Z.of_nat (List.length (mx s)) - 1) with (Z.of_nat (List.length (mx s) - 1)) by lia. apply rd_nat. rewrite nth_error_map, E'. reflexivity.
  - unfold conv. cbn [pn]. rewrite Pl. reflexivity.
Qed.
Lemma npatterns_s' : get_n_patterns s' = get_n_patterns s.
Proof.
  unfold get_n_patterns. pose proof mx_nil as H0. pose proof length_s' as Ls. rewrite !np_max_nums; [|auto|destruct (mx s); cbn in *; [lia|discriminate]|apply in_s'|destruct (mx s'); cbn in *; [lia|discriminate]].
  destruct P as [_ [Pp _]]. rewrite (max_perm (map num (mx s)) (map num (mx s'))) by (apply Permutation_map, Pp). reflexivity.
Qed.
Lemma filter_comm {A} (f g : A -> bool) l : List.filter f (List.filter g l) = List.filter g (List.filter f l).
Proof. induction l as [|a l IH]; [reflexivity|]. cbn [List.filter]. destruct (f a) eqn:E, (g a) eqn:E'; cbn [List.filter]; rewrite ?E, ?E', ?IH; reflexivity. Qed.
Lemma stepsCache_s' npat q : npat <= ns -> stepsCache s' npat q = stepsCache s npat q.
Proof.
  intros Hn. unfold stepsCache. destruct ((1 <=? q) && (q <=? npat)) eqn:Eq; [|reflexivity]. unfold steps_of, drop_null. rewrite !(filter_comm (fun r => eqb (c0 r) (ofZ q))).
  destruct P as [_ [_ [Pf _]]]. specialize (Pf q). unfold rows_of_production in Pf. rewrite Pf by (fold ns; lia). reflexivity.
Qed.
Lemma loop_s' npat sm fuel : npat <= ns -> forall i j acc, backtrack_loop fuel s' npat sm i j acc = backtrack_loop fuel s npat sm i j acc.
Proof.
  intros Hn. induction fuel as [|fuel IH]; intros i j acc; [reflexivity|]. cbn [backtrack_loop]. destruct ((i =? 0) && (j =? 0)); [reflexivity|].
  destruct (py_get2 sm i j) as [v| | | |]; try reflexivity. cbn [bind]. destruct (v =? INT_MIN); [reflexivity|]. rewrite stepsCache_s' by exact Hn.
  destruct (stepsCache s npat v) as [steps| | | |]; try reflexivity. cbn [bind]. destruct (rev steps) as [|last l]; [reflexivity|]. apply IH.
Qed.
Lemma backtrack_s' sm j : backtrack s' sm j = backtrack s sm j.
Proof. unfold backtrack. rewrite npatterns_s', (n_patterns_rules L _ _ W). cbn [bind]. apply loop_s'. exact rules_rows. Qed.

(** Outcomes that differ in the stored step pattern only *)
Definition same' (o o' : out (DTW N)) : Prop := (forall d, o = Ok d -> o' = Ok (with_pattern s' d)) /\ (forall e, o = Raise e -> o' = Raise e).
Lemma same'_bind {A} (o o' : out A) (f f' : A -> out (DTW N)) : same o o' -> (forall v, same' (f v) (f' v)) -> same' (bind o f) (bind o' f').
Proof.
  intros [H1 H2] H. destruct o as [v|e| | |]; cbn [bind]; try (split; discriminate).
  - rewrite (H1 v eq_refl). cbn [bind]. apply H.
  - rewrite (H2 e eq_refl). split; [discriminate|]. cbn [bind]. auto.
Qed.
Lemma same'_raise e : same' (Raise e) (Raise e).
Proof. split; [discriminate|auto]. Qed.
Lemma same_lm cbuf lm qr wf o : same' (dtw_lm cbuf lm qr s wf o) (dtw_lm cbuf lm qr s' wf (use_pattern s' o)).
Proof.
  destruct P as [Ph _]. unfold dtw_lm. cbn [use_pattern o_open_begin o_open_end o_distance_only o_keep_internals o_window_args]. rewrite Ph.
  apply same'_bind; [apply same_refl|]. intros [[lm1 precm] cbuf1].
  apply same'_bind; [apply same_gcm|]. intros [cmx dmx]. cbv zeta.
  apply same'_bind; [apply same_refl|]. intros jmin.
  apply same'_bind; [apply same_refl|]. intros dist.
  destruct (isnan dist); [apply same'_raise|].
  apply same'_bind; [apply same_refl|]. intros nd.
  apply same'_bind; [rewrite backtrack_s'; apply same_refl|]. intros m0.
  apply same'_bind; [apply same_refl|]. intros [[[m1 lm2] cmx2] dmx2].
  split; [|discriminate]. intros d [= <-]. reflexivity.
Qed.
Theorem rows_reordered_ cdist x y o : canonicalizeStepPattern (o_step_pattern o) = Ok s ->
  same' (dtw cdist x y o) (dtw cdist x y (use_pattern s' o)).
Proof.
  intros Hs. unfold dtw. apply same'_bind; [apply same_refl|]. intros [[lm cbuf] qr]. cbv zeta. rewrite Hs.
  cbn [use_pattern o_step_pattern o_window_type canonicalizeStepPattern bind]. apply same_lm.
Qed.
End W.

Theorem rows_reordered cdist x y o (s s' : steppat N) rules : pattern_rules s rules -> same_productions s s' -> canonicalizeStepPattern (o_step_pattern o) = Ok s ->
  (forall d, dtw cdist x y o = Ok d -> dtw cdist x y (use_pattern s' o) = Ok (with_pattern s' d)) /\
  (forall e, dtw cdist x y o = Raise e -> dtw cdist x y (use_pattern s' o) = Raise e).
Proof. intros W P. apply (rows_reordered_ s rules W s' P). Qed.
Theorem rows_reordered_text fmt (s s' : steppat N) rules : pattern_rules s rules -> same_productions s s' -> str_pattern fmt s' = str_pattern fmt s.
Proof.
  intros W P. unfold str_pattern. rewrite (npatterns_s' s rules W s' P), (n_patterns_rules L _ _ W). cbn [bind].
  pose proof (rules_rows s rules W) as RR. pose proof P as [Ph [_ [Pf _]]]. rewrite Ph.
  replace (mapM (str_rule fmt s') (map (fun k => Z.of_nat k) (seq 1 (Z.to_nat (Z.of_nat (List.length rules)))))) with
          (mapM (str_rule fmt s) (map (fun k => Z.of_nat k) (seq 1 (Z.to_nat (Z.of_nat (List.length rules)))))); [reflexivity|].
  assert (G : forall k, In k (map (fun k => Z.of_nat k) (seq 1 (Z.to_nat (Z.of_nat (List.length rules))))) -> 1 <= k <= Z.of_nat (List.length (mx s))).
  { intros k Hk. apply in_map_iff in Hk. destruct Hk as [x [<- Hx]]. apply in_seq in Hx. lia. }
  revert G. generalize (map (fun k => Z.of_nat k) (seq 1 (Z.to_nat (Z.of_nat (List.length rules))))) as l. induction l as [|k l IH]; intros G; [reflexivity|].
  cbn [mapM]. rewrite IH by (intros x Hx; apply G; right; exact Hx).
  unfold str_rule, extractpattern. specialize (Pf k (G k (or_introl eq_refl))). unfold rows_of_production in Pf. rewrite Pf. reflexivity.
Qed.
Theorem rows_reordered_T (s s' : steppat N) : same_productions s s' -> same_productions (T s) (T s').
Proof.
  intros [Ph [Pp [Pf Pl]]]. split; [cbn; rewrite Ph; reflexivity|]. split; [apply (Permutation_map (@T_row N)), Pp|]. split.
  - assert (G : forall (z : steppat N) k, rows_of_production (T z) k = map (@T_row N) (rows_of_production z k)).
    { intros z k. unfold rows_of_production. cbn [T mx]. induction (mx z) as [|r l IH]; [reflexivity|]. cbn [map List.filter T_row c0]. rewrite IH. destruct (eqb (c0 r) (ofZ k)); reflexivity. }
    intros k Hk. cbn [T mx] in Hk. rewrite map_length in Hk. rewrite !G, Pf by exact Hk. reflexivity.
  - unfold last_number in *. cbn [T mx]. rewrite !map_length, !nth_error_map. 
    destruct (nth_error (mx s') _) as [a|], (nth_error (mx s) _) as [b|]; cbn [option_map T_row c0] in *; congruence.
Qed.
Theorem rows_reordered_count (s s' : steppat N) rules d : pattern_rules s rules -> same_productions s s' -> same_starts s s' -> r_stepPattern d = s ->
  countPaths (with_pattern s' d) = countPaths d.
Proof.
  intros W P S E. unfold countPaths. cbn [with_pattern r_N r_M r_openBegin r_stepPattern r_windowFunction r_windowArgs r_openEnd]. rewrite E.
  replace (countMatrix (r_N d) (r_M d) (r_openBegin d) s' (r_windowFunction d) (r_windowArgs d)) with
          (countMatrix (r_N d) (r_M d) (r_openBegin d) s (r_windowFunction d) (r_windowArgs d)); [reflexivity|].
  unfold countMatrix. rewrite (npatterns_s' s rules W s' P). unfold mkDirDeltas. rewrite S. reflexivity.
Qed.
End R.
