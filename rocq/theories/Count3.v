(** Count3.v - how the number of alignments changes with the problem (proofs for C80). *)
From Coq Require Import ZifyBool ZifyNat.
From Verif Require Import Base Num StepPattern Window Core Backtrack Dtw CountPaths Spec Api CountSpec Tables Vocab Terms
  CoreProof DPProof DtwProof ApiProof ApiThms CountProof CountThm WalkGeom Thm6 Thm8 Thm10 Thm23 Thm31.
Open Scope string_scope.
Open Scope list_scope.
Open Scope nat_scope.

Lemma numbers_le {A} (P Q : A -> Prop) p q : (forall x, P x -> Q x) -> numbers P p -> numbers Q q -> p <= q.
Proof.
  intros H [l [Hl [El <-]]] [l' [Hl' [El' <-]]]. apply NoDup_incl_length; [exact Hl|].
  intros x Hx. apply El', H, El. exact Hx.
Qed.

Section Count3.
Context {N : Num}.
Variable L : NumLaws N.

(** The costs of a walk do not matter for its being admitted. *)
Lemma walk_other (rules rules' : list (rule N)) cost cost' n m source source' (allowed allowed' : nat -> nat -> Prop) ks vs ts q c :
  walk rules cost n m source allowed ks vs ts q c ->
  (forall k r, rule_no rules k = Some r -> rule_no rules' k = Some r) ->
  (forall i j c, source i j = Some c -> exists c', source' i j = Some c') ->
  (forall i j, i < n -> j < m -> allowed i j -> allowed' i j) ->
  exists c', walk rules' cost' n m source' allowed' ks vs ts q c'.
Proof.
  intros W HR HS HA. induction W as [i j c Hs Hi Hj|ks vs ts i0 j0 c k r W IH Hk Hi Hj Ha].
  - destruct (HS _ _ _ Hs) as [c' Hc]. exists c'. constructor; auto.
  - destruct IH as [c' W']. eexists. eapply walk_step; eauto.
Qed.
Lemma admitted_other (rules rules' : list (rule N)) (lm lm' : mat N) w kw w' kw' q ks : nr lm' = nr lm -> nc lm' = nc lm ->
  (forall k r, rule_no rules k = Some r -> rule_no rules' k = Some r) ->
  window_within w kw w' kw' (nr lm) (nc lm) ->
  admitted rules lm w kw q ks -> admitted rules' lm' w' kw' q ks.
Proof.
  intros E1 E2 HR HW [vs [ts [c W]]]. unfold admitted, closed_walk in *. rewrite E1, E2.
  destruct (walk_other _ rules' _ (cell lm') _ _ _ (closed_source lm') _ (in_window w' kw' (nr lm) (nc lm)) _ _ _ _ _ W HR) as [c' W'].
  - intros i j c0. unfold closed_source. destruct (_ && _); [eauto|discriminate].
  - exact HW.
  - eauto.
Qed.

Lemma rule_no_T (rules : list (rule N)) k : rule_no (map T_rule rules) k = option_map T_rule (rule_no rules k).
Proof. destruct k; [reflexivity|]. cbn [rule_no]. apply nth_error_map. Qed.

Lemma walk_T (rules : list (rule N)) cost cost' n m source source' (allowed allowed' : nat -> nat -> Prop) ks vs ts q c :
  walk rules cost n m source allowed ks vs ts q c ->
  (forall i j c, source i j = Some c -> exists c', source' j i = Some c') ->
  (forall i j, i < n -> j < m -> allowed i j -> allowed' j i) ->
  exists vs' ts' c', walk (map T_rule rules) cost' m n source' allowed' ks vs' ts' (snd q, fst q) c'.
Proof.
  intros W HS HA. induction W as [i j c Hs Hi Hj|ks vs ts i0 j0 c k r W IH Hk Hi Hj Ha].
  - destruct (HS _ _ _ Hs) as [c' Hc]. exists [(j, i)], [(j, i)], c'. constructor; auto.
  - destruct IH as [vs' [ts' [c' W']]]. cbn [fst snd] in *. eexists _, _, _.
    apply (walk_step _ _ _ _ _ _ _ _ _ _ _ _ k (T_rule r) W'); auto.
    + rewrite rule_no_T, Hk. reflexivity.
Qed.
Lemma admitted_T (rules : list (rule N)) (lm lm' : mat N) w kw w' kw' i j ks : nr lm' = nc lm -> nc lm' = nr lm ->
  (forall i j, i < nr lm -> j < nc lm -> in_window w kw (nr lm) (nc lm) i j -> in_window w' kw' (nc lm) (nr lm) j i) ->
  admitted rules lm w kw (i, j) ks -> admitted (map T_rule rules) lm' w' kw' (j, i) ks.
Proof.
  intros E1 E2 HW [vs [ts [c W]]]. unfold admitted, closed_walk in *. rewrite E1, E2.
  apply (walk_T _ _ (cell lm') _ _ _ (closed_source lm') _ (in_window w' kw' (nc lm) (nr lm)) _ _ _ _ _ W).
  - intros a b c0. unfold closed_source. rewrite (Bool.andb_comm (b =? 0)). destruct (_ && _); [eauto|discriminate].
  - exact HW.
Qed.
Lemma T_rule_TT (rules : list (rule N)) : map T_rule (map T_rule rules) = rules.
Proof.
  rewrite map_map. rewrite <- (map_id rules) at 2. apply map_ext. intros [a b l]. unfold T_rule. cbn [r_di r_dj r_add]. f_equal.
  rewrite map_map. rewrite <- (map_id l) at 2. apply map_ext. intros [[p1 p2] v]. reflexivity.
Qed.

(** ** Results of dtw() *)
(** Only the sizes, the flags, the pattern and the window of a result matter. *)
Theorem count_congruence (d d' : DTW N) :
  r_N d' = r_N d -> r_M d' = r_M d -> r_openBegin d' = r_openBegin d -> r_openEnd d' = r_openEnd d ->
  r_stepPattern d' = r_stepPattern d -> r_windowFunction d' = r_windowFunction d -> r_windowArgs d' = r_windowArgs d ->
  countPaths d' = countPaths d.
Proof. intros E1 E2 E3 E4 E5 E6 E7. unfold countPaths. rewrite E1, E2, E3, E4, E5, E6, E7. reflexivity. Qed.

Theorem count_costs cdist cdist' x x' y y' (o : opts N) (lm lm' : mat N) d d' rules :
  costs_of cdist x y lm -> dtw cdist x y o = Ok d ->
  costs_of cdist' x' y' lm' -> dtw cdist' x' y' o = Ok d' ->
  pattern_rules (r_stepPattern d) rules -> nr lm' = nr lm -> nc lm' = nc lm ->
  countPaths d' = countPaths d.
Proof.
  intros HC H HC' H' Hp E1 E2.
  assert (S1 : r_stepPattern d' = r_stepPattern d).
  { pose proof (proj1 (pattern_of_ok _ _) (ok_pattern _ _ _ _ _ _ HC H)) as P. pose proof (proj1 (pattern_of_ok _ _) (ok_pattern _ _ _ _ _ _ HC' H')) as Q.
    congruence. }
  pose proof Hp as Hp'. rewrite <- S1 in Hp'.
  destruct (dtw_fields L _ _ _ _ _ _ _ HC H Hp) as [F1 [F2 [F3 [F4 [F5 [F6 _]]]]]].
  destruct (dtw_fields L _ _ _ _ _ _ _ HC' H' Hp') as [G1 [G2 [G3 [G4 [G5 [G6 _]]]]]].
  apply window_of_canon in F5. apply window_of_canon in G5.
  apply count_congruence; congruence.
Qed.

Theorem count_more cdist cdist' x x' y y' (o o' : opts N) (lm lm' : mat N) d d' rules rules' :
  costs_of cdist x y lm -> dtw cdist x y o = Ok d -> pattern_rules (r_stepPattern d) rules ->
  costs_of cdist' x' y' lm' -> dtw cdist' x' y' o' = Ok d' -> pattern_rules (r_stepPattern d') rules' ->
  o_open_begin o = false -> o_open_end o = false -> o_open_begin o' = false -> o_open_end o' = false ->
  (r_windowFunction d = NoWindow -> r_windowArgs d = []) -> (r_windowFunction d' = NoWindow -> r_windowArgs d' = []) ->
  nr lm' = nr lm -> nc lm' = nc lm ->
  (forall k r, rule_no rules k = Some r -> rule_no rules' k = Some r) ->
  window_within (r_windowFunction d) (r_windowArgs d) (r_windowFunction d') (r_windowArgs d') (nr lm) (nc lm) ->
  no_marker rules' -> counts_fit rules' lm' (r_windowFunction d') (r_windowArgs d') ->
  exists c c', countPaths d = Ok c /\ countPaths d' = Ok c' /\ (c <= c')%Z.
Proof.
  intros HC Hd Hp HC' Hd' Hp' Ob Oe Ob' Oe' Hw Hw' E1 E2 HR HW NM Fit.
  pose proof (dtw_callable L _ _ _ _ _ _ _ HC' Hd' Hp' Ob' Hw') as Call'.
  assert (Fit1 : counts_fit rules lm (r_windowFunction d) (r_windowArgs d)).
  { intros i j c Hi Hj Hc. pose proof (admitted_count rules' lm' _ _ i j (proj1 (proj2 (proj2 Hp'))) Call' ltac:(lia) ltac:(lia)) as K.
    pose proof (Fit i j _ ltac:(lia) ltac:(lia) K). 
    pose proof (numbers_le _ _ _ _ (fun ks => admitted_other rules rules' lm lm' _ _ _ _ (i, j) ks E1 E2 HR HW) Hc K). lia. }
  assert (NM1 : no_marker rules).
  { intros r a Hr. destruct (In_rule_no _ _ Hr) as [k Hk]. apply NM. eapply rule_no_in. apply HR. exact Hk. }
  destruct (count_closed L _ _ _ _ _ _ _ HC Hd Hp NM1 Ob Oe Hw Fit1) as [c [A B]].
  destruct (count_closed L _ _ _ _ _ _ _ HC' Hd' Hp' NM Ob' Oe' Hw' Fit) as [c' [A' B']].
  exists (Z.of_nat c), (Z.of_nat c'). split; [exact B|]. split; [exact B'|]. apply inj_le.
  rewrite E1, E2 in A'.
  exact (numbers_le _ _ _ _ (fun ks => admitted_other rules rules' lm lm' _ _ _ _ _ ks E1 E2 HR HW) A A').
Qed.

Theorem count_transposed cdist cdist' x x' y y' (o o' : opts N) (lm lm' : mat N) d d' rules :
  costs_of cdist x y lm -> dtw cdist x y o = Ok d -> pattern_rules (r_stepPattern d) rules ->
  costs_of cdist' x' y' lm' -> dtw cdist' x' y' o' = Ok d' -> pattern_rules (r_stepPattern d') (map T_rule rules) ->
  o_open_begin o = false -> o_open_end o = false -> o_open_begin o' = false -> o_open_end o' = false ->
  (r_windowFunction d = NoWindow -> r_windowArgs d = []) -> (r_windowFunction d' = NoWindow -> r_windowArgs d' = []) ->
  nr lm' = nc lm -> nc lm' = nr lm ->
  (forall i j, i < nr lm -> j < nc lm ->
     (in_window (r_windowFunction d) (r_windowArgs d) (nr lm) (nc lm) i j <->
      in_window (r_windowFunction d') (r_windowArgs d') (nc lm) (nr lm) j i)) ->
  no_marker rules -> counts_fit rules lm (r_windowFunction d) (r_windowArgs d) ->
  exists c, countPaths d = Ok c /\ countPaths d' = Ok c.
Proof.
  intros HC Hd Hp HC' Hd' Hp' Ob Oe Ob' Oe' Hw Hw' E1 E2 HW NM Fit.
  assert (HT : forall i j ks, admitted rules lm (r_windowFunction d) (r_windowArgs d) (i, j) ks <->
      admitted (map T_rule rules) lm' (r_windowFunction d') (r_windowArgs d') (j, i) ks).
  { intros i j ks. split.
    - apply admitted_T; auto. intros a b Ha Hb. apply HW; assumption.
    - intros A. rewrite <- (T_rule_TT rules). revert A. apply admitted_T; auto. rewrite E1, E2. intros a b Ha Hb. apply HW; assumption. }
  assert (Fit1 : counts_fit (map T_rule rules) lm' (r_windowFunction d') (r_windowArgs d')).
  { intros i j c Hi Hj Hc. apply (Fit j i c); [lia|lia|]. eapply numbers_ext; [|exact Hc]. intros ks. symmetry. apply HT. }
  assert (NM1 : no_marker (map (@T_rule N) rules)).
  { intros r a Hr Ha. apply in_map_iff in Hr. destruct Hr as [r0 [<- Hr]]. cbn [T_rule r_add] in Ha. apply in_map_iff in Ha.
    destruct Ha as [a0 [<- Ha]]. pose proof (NM r0 a0 Hr Ha) as K. destruct a0 as [[p1 p2] v]. exact K. }
  destruct (count_closed L _ _ _ _ _ _ _ HC Hd Hp NM Ob Oe Hw Fit) as [c [A B]].
  destruct (count_closed L _ _ _ _ _ _ _ HC' Hd' Hp' NM1 Ob' Oe' Hw' Fit1) as [c' [A' B']].
  exists (Z.of_nat c). split; [exact B|]. rewrite B'. do 2 f_equal. rewrite E1, E2 in A'.
  apply (numbers_unique _ _ _ A'). eapply numbers_ext; [|exact A]. intros ks. apply HT.
Qed.

(** A wider Sakoe-Chiba band, the step pattern being the same. *)
Theorem count_wider_band cdist cdist' x x' y y' (o o' : opts N) (lm lm' : mat N) d d' rules (ws ws' : N) :
  costs_of cdist x y lm -> dtw cdist x y o = Ok d -> pattern_rules (r_stepPattern d) rules ->
  costs_of cdist' x' y' lm' -> dtw cdist' x' y' o' = Ok d' -> r_stepPattern d' = r_stepPattern d ->
  o_open_begin o = false -> o_open_end o = false -> o_open_begin o' = false -> o_open_end o' = false ->
  r_windowFunction d = SakoeChiba -> r_windowArgs d = band ws -> r_windowFunction d' = SakoeChiba -> r_windowArgs d' = band ws' ->
  leb ws ws' = true -> nr lm' = nr lm -> nc lm' = nc lm ->
  no_marker rules -> counts_fit rules lm' SakoeChiba (band ws') ->
  exists c c', countPaths d = Ok c /\ countPaths d' = Ok c' /\ (c <= c')%Z.
Proof.
  intros HC Hd Hp HC' Hd' ES Ob Oe Ob' Oe' W1 W2 W3 W4 Le E1 E2 NM Fit.
  eapply (count_more _ _ _ _ _ _ _ _ _ _ d d' rules rules HC Hd Hp HC' Hd'); auto.
  - rewrite ES. exact Hp.
  - rewrite W1. discriminate.
  - rewrite W3. discriminate.
  - rewrite W1, W2, W3, W4. intros i j Hi Hj. rewrite !in_band. intros A. exact (law_le_trans _ L _ _ _ A Le).
  - rewrite W3, W4. exact Fit.
Qed.

(** A larger elasticity of mvmStepPattern(). *)
Lemma mvm_prefix e e' k r : e <= e' -> rule_no (@productions N (mvm_productions e)) k = Some r ->
  rule_no (productions (mvm_productions e')) k = Some r.
Proof.
  intros He. destruct k as [|k]; [discriminate|]. cbn [rule_no]. unfold productions, mvm_productions.
  rewrite !nth_error_map, !nth_error_seq. destruct (Nat.ltb_spec k e); [|discriminate].
  replace (k <? e') with true by (clear -He H; lia). auto.
Qed.
Theorem count_mvm cdist cdist' x x' y y' (o o' : opts N) (lm lm' : mat N) d d' e e' :
  costs_of cdist x y lm -> dtw cdist x y o = Ok d -> r_stepPattern d = mvmStepPattern e ->
  costs_of cdist' x' y' lm' -> dtw cdist' x' y' o' = Ok d' -> r_stepPattern d' = mvmStepPattern e' ->
  1 <= e -> e <= e' -> (8 * Z.of_nat e' <= INT_MAX)%Z ->
  o_open_begin o = false -> o_open_end o = false -> o_open_begin o' = false -> o_open_end o' = false ->
  r_windowFunction d = NoWindow -> r_windowArgs d = [] -> r_windowFunction d' = NoWindow -> r_windowArgs d' = [] ->
  nr lm' = nr lm -> nc lm' = nc lm -> counts_fit (productions (mvm_productions e')) lm' NoWindow [] ->
  exists c c', countPaths d = Ok c /\ countPaths d' = Ok c' /\ (c <= c')%Z.
Proof.
  intros HC Hd S1 HC' Hd' S2 He He' Hs Ob Oe Ob' Oe' W1 W2 W3 W4 E1 E2 Fit.
  assert (P1 : pattern_rules (r_stepPattern d) (productions (mvm_productions e))) by (rewrite S1; apply (mvm_rules L); lia).
  assert (P2 : pattern_rules (r_stepPattern d') (productions (mvm_productions e'))) by (rewrite S2; apply (mvm_rules L); lia).
  eapply (count_more _ _ _ _ _ _ _ _ _ _ d d' _ _ HC Hd P1 HC' Hd' P2); auto.
  - intros k r. apply mvm_prefix. exact He'.
  - rewrite W1, W2, W3, W4. intros i j _ _ A. exact A.
  - intros r a Hr Ha. apply in_map_iff in Hr. destruct Hr as [w [<- Hr]]. apply in_map_iff in Hr. destruct Hr as [k [<- _]].
    cbn [production r_add w_add map] in Ha. destruct Ha as [<-|[]]. cbn [fst snd]. unfold weight. cbn [fst snd Z.eqb Pos.eqb].
    unfold np_int32. rewrite (law_trunc_ofZ _ L) by lia. cbn. lia.
  - rewrite W3, W4. exact Fit.
Qed.
End Count3.
