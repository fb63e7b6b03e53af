(** CountThm.v - theorems about countPaths (proofs). *)
From Coq Require Import ZifyBool ZifyNat.
From Verif Require Import Base Num StepPattern Window Core Backtrack Dtw CountPaths Spec Api Tables Vocab Terms SumLaws CountSpec Bound
  CoreProof DPProof DtwProof ApiProof ApiThms WalkGeom Uniq Thm1 Thm2 Thm3 Thm4 Thm5 Feas CountProof.
Open Scope string_scope.
Open Scope list_scope.
Open Scope nat_scope.

Lemma numbers_unique {A} (P : A -> Prop) n n' : numbers P n -> numbers P n' -> n = n'.
Proof.
  intros [l [D [H <-]]] [l' [D' [H' <-]]]. apply Nat.le_antisymm; apply NoDup_incl_length; auto; intros x Hx.
  - apply H', H, Hx.
  - apply H, H', Hx.
Qed.
Lemma numbers_ext {A} (P Q : A -> Prop) n : (forall x, P x <-> Q x) -> numbers P n -> numbers Q n.
Proof. intros E [l [D [H Hl]]]. exists l. split; [exact D|]. split; [|exact Hl]. intros x. rewrite <- E. apply H. Qed.
Lemma numbers_map {A B} (f : A -> B) (P : A -> Prop) (Q : B -> Prop) n :
  (forall x y, P x -> P y -> f x = f y -> x = y) -> (forall b, Q b <-> exists a, P a /\ b = f a) ->
  numbers P n -> numbers Q n.
Proof.
  intros Inj E [l [D [H <-]]]. exists (map f l). split; [|split].
  - assert (G : forall l, NoDup l -> (forall x, In x l -> P x) -> NoDup (map f l)).
    { clear -Inj. induction l as [|a l IH]; intros D H; [constructor|]. inversion D; subst. cbn [map]. constructor.
      - intros K. apply in_map_iff in K. destruct K as [b [Eb Hb]]. apply Inj in Eb.
        + subst. contradiction.
        + apply H. right. exact Hb.
        + apply H. left. reflexivity.
      - apply IH; [assumption|]. intros x Hx. apply H. right. exact Hx. }
    apply G; [exact D|]. intros x Hx. apply H, Hx.
  - intros b. rewrite in_map_iff, E. split.
    + intros [a [<- Ha]]. exists a. split; [apply H, Ha|reflexivity].
    + intros [a [Pa ->]]. exists a. split; [reflexivity|apply H, Pa].
  - apply map_length.
Qed.
Lemma numbers_0 {A} (P : A -> Prop) : (forall x, ~ P x) -> numbers P 0.
Proof. intros H. exists []. split; [constructor|]. split; [|reflexivity]. intros x. split; [intros []|intros K; exact (H x K)]. Qed.
Lemma numbers_pos {A} (P : A -> Prop) n : numbers P n -> (0 < n <-> exists x, P x).
Proof.
  intros [l [D [H <-]]]. split.
  - destruct l as [|a l]; [cbn; lia|]. intros _. exists a. apply H. left. reflexivity.
  - intros [x Hx]. apply H in Hx. destruct l; [destruct Hx|cbn; lia].
Qed.
(** A disjoint union over an initial segment of the naturals. *)
Lemma numbers_union {A} (P : nat -> A -> Prop) (c : nat -> nat) m :
  (forall j j' x, j < m -> j' < m -> P j x -> P j' x -> j = j') ->
  (forall j, j < m -> numbers (P j) (c j)) ->
  numbers (fun x => exists j, j < m /\ P j x) (list_sum (map c (seq 0 m))).
Proof.
  induction m as [|m IH]; intros D H.
  - apply numbers_0. intros x [j [Hj _]]. lia.
  - destruct IH as [l [Dl [Hl El]]].
    { intros j j' x Hj Hj'. apply D; lia. }
    { intros j Hj. apply H. lia. }
    destruct (H m ltac:(lia)) as [l' [Dl' [Hl' El']]]. exists (l ++ l'). split; [|split].
    + apply NoDup_app_disj; auto. intros x Hx Hx'. apply Hl in Hx. destruct Hx as [j [Hj Px]]. apply Hl' in Hx'.
      assert (j = m) by (eapply D; [| |exact Px|exact Hx']; lia). lia.
    + intros x. rewrite in_app_iff, Hl, Hl'. split.
      * intros [[j [Hj Px]]|Px]; [exists j|exists m]; (split; [lia|exact Px]).
      * intros [j [Hj Px]]. destruct (Nat.eq_dec j m) as [->|Ne]; [right; exact Px|left; exists j; split; [lia|exact Px]].
    + rewrite seq_S, map_app, list_sum_app, app_length. cbn [map Nat.add]. unfold list_sum at 2. cbn [fold_right]. lia.
Qed.

Section Count.
Context {N : Num}.
Variable L : NumLaws N.

(** ** runs and walks *)
Section RW.
Variable rules : list (rule N).
Hypothesis Hv : forallb valid_rule rules = true.
Variable cost : nat -> nat -> N.
Variables n m : nat.
Variable source : nat -> nat -> option N.
Variable allowed : nat -> nat -> Prop.
Variables sb ob : nat -> nat -> bool.
Hypothesis HS : forall i j, sb i j = true <-> exists c, source i j = Some c.
Hypothesis HA : forall i j, 0 < i + j -> i < n -> j < m -> (allowed i j <-> ob i j = true /\ sb i j = false).

Lemma walk_runs ks vs ts q c : walk rules cost n m source allowed ks vs ts q c ->
  exists s vs', vs = s :: vs' /\ runs rules n m sb ob s ks q.
Proof.
  induction 1 as [i j c Hs Hi Hj|ks vs ts i0 j0 c k r W [s [vs' [-> R]]] Hk Hi Hj Ha].
  - exists (i, j), []. split; [reflexivity|]. constructor; auto. apply HS. eauto.
  - exists s, (vs' ++ [(i0 + r_di r, j0 + r_dj r)]). split; [reflexivity|].
    pose proof (rule_forward rules Hv _ _ Hk). destruct (proj1 (HA (i0 + r_di r) (j0 + r_dj r) ltac:(clear -H; lia) Hi Hj) Ha) as [A B].
    econstructor; eauto.
Qed.
Lemma runs_walk s ks q : runs rules n m sb ob s ks q ->
  exists vs ts c, walk rules cost n m source allowed ks (s :: vs) ts q c.
Proof.
  induction 1 as [i j Hs Hi Hj|s ks i j k r R [vs [ts [c W]]] Hk Hi Hj Ho Hs].
  - apply HS in Hs. destruct Hs as [c Hs]. exists [], [(i, j)], c. constructor; auto.
  - pose proof (rule_forward rules Hv _ _ Hk).
    do 3 eexists. exact (walk_step rules cost n m source allowed ks (s :: vs) ts i j c k r W Hk Hi Hj
      (proj2 (HA (i + r_di r) (j + r_dj r) ltac:(clear -H; lia) Hi Hj) (conj Ho Hs))).
Qed.
Lemma runs_iff s ks q : runs rules n m sb ob s ks q <->
  exists vs ts c, walk rules cost n m source allowed ks (s :: vs) ts q c.
Proof.
  split; [apply runs_walk|]. intros [vs [ts [c W]]]. destruct (walk_runs _ _ _ _ _ W) as [s' [vs' [E R]]].
  injection E as -> _. exact R.
Qed.
End RW.

Lemma okb_window rules (w : winfun N) kw n m i j : window_callable w kw n m -> i < n -> j < m ->
  forallb (@valid_rule N) rules = true ->
  (in_window w kw n m i j <-> okb n m w kw i j = true).
Proof.
  intros Hw Hi Hj _. destruct (Hw i j Hi Hj) as [b Eb]. unfold in_window, okb.
  assert (G : w = NoWindow -> b = true).
  { intros ->. unfold call_window in Eb. destruct kw; [|discriminate]. injection Eb as <-. unfold noWindow.
    destruct (Z.lor (Z.of_nat i) 1 =? 0)%Z eqn:E; [|reflexivity]. apply Z.eqb_eq in E. apply Z.lor_eq_0_iff in E. lia. }
  rewrite Eb. destruct w; try (split; [congruence|intros ->; reflexivity]). rewrite G by reflexivity. tauto.
Qed.

Lemma closed_source_iff (lm : mat N) i j : srcb false i j = true <-> exists c, closed_source lm i j = Some c.
Proof.
  unfold srcb, closed_source. cbn [orb]. destruct ((i =? 0) && (j =? 0)); split; eauto; try discriminate. intros [c E]. discriminate.
Qed.

(** Closed begin: runs are admitted sequences. *)
Lemma admitted_runs rules (lm : mat N) w kw q ks : forallb valid_rule rules = true ->
  window_callable w kw (nr lm) (nc lm) ->
  (admitted rules lm w kw q ks <-> runs rules (nr lm) (nc lm) (srcb false) (okb (nr lm) (nc lm) w kw) (0, 0) ks q).
Proof.
  intros Hv Hw. rewrite (runs_iff rules Hv (cell lm) (nr lm) (nc lm) (closed_source lm) (in_window w kw (nr lm) (nc lm))).
  - unfold admitted, closed_walk. split.
    + intros [vs [ts [c W]]]. destruct (walk_first _ _ _ _ _ _ _ _ _ _ _ W) as [[i j] [c0 [vs' [ts' [-> [-> [Hs _]]]]]]]. cbn [fst snd] in Hs.
      unfold closed_source in Hs. destruct ((i =? 0) && (j =? 0)) eqn:E; [|discriminate].
      replace i with 0 in * by lia. replace j with 0 in * by lia. eauto.
    + intros [vs [ts [c W]]]. eauto.
  - intros i j. apply closed_source_iff.
  - intros i j H0 Hi Hj. rewrite (okb_window rules w kw (nr lm) (nc lm) i j Hw Hi Hj Hv). unfold srcb. cbn [orb].
    split; [intros E|tauto]. split; [exact E|]. lia.
Qed.

Lemma runs_start_src rules n m sb ob s ks q : @runs N rules n m sb ob s ks q -> sb (fst s) (snd s) = true /\ fst s < n /\ snd s < m.
Proof. induction 1; cbn [fst snd]; auto. Qed.

Lemma admitted_count rules (lm : mat N) w kw i j : forallb valid_rule rules = true ->
  window_callable w kw (nr lm) (nc lm) -> i < nr lm -> j < nc lm ->
  numbers (admitted rules lm w kw (i, j)) (cnt rules (srcb false) (okb (nr lm) (nc lm) w kw) i j).
Proof.
  intros Hv Hw Hi Hj.
  eapply (numbers_map snd); [| |apply (cnt_numbers rules Hv (nr lm) (nc lm)); assumption].
  - intros [s ks] [s' ks'] R R' E. cbn [fst snd] in *. subst.
    apply runs_start_src in R. apply runs_start_src in R'. destruct s as [a b], s' as [a' b']. unfold srcb in *. cbn [fst snd orb] in *.
    f_equal. f_equal; lia.
  - intros ks. rewrite (admitted_runs _ _ _ _ _ _ Hv Hw). split.
    + intros R. exists ((0, 0), ks). split; [exact R|reflexivity].
    + intros [[s ks'] [R ->]]. cbn [fst snd] in *. pose proof (runs_start_src _ _ _ _ _ _ _ _ R) as [S _].
      destruct s as [a b]. unfold srcb in S. cbn [fst snd orb] in *. replace a with 0 in * by lia. replace b with 0 in * by lia. exact R.
Qed.

(** ** What a successful call lets countPaths do *)
Lemma callable_of_total (w : winfun N) kw n m : window_total w kw n m -> (w = NoWindow -> kw = []) ->
  window_callable w kw n m.
Proof.
  intros T E i j Hi Hj. destruct w; try exact (T i j Hi Hj). rewrite E by reflexivity. eexists. reflexivity.
Qed.

Lemma dtw_callable cdist x y o (lm : mat N) d rules : costs_of cdist x y lm ->
  dtw cdist x y o = Ok d -> pattern_rules (r_stepPattern d) rules -> o_open_begin o = false ->
  (r_windowFunction d = NoWindow -> r_windowArgs d = []) ->
  window_callable (r_windowFunction d) (r_windowArgs d) (nr lm) (nc lm).
Proof.
  intros HC H Hp Ob Hw. destruct (dtw_ok_inv L _ _ _ _ _ _ _ HC H Hp) as [_ [_ [_ [T _]]]].
  destruct (dtw_fields L _ _ _ _ _ _ _ HC H Hp) as [_ [_ [_ [_ [W [Ea _]]]]]].
  apply window_of_canon in W. rewrite W, p_lm_nr, Ob in T. rewrite Ea in *. apply callable_of_total; assumption.
Qed.

Lemma dtw_shape cdist x y o (lm : mat N) d rules : costs_of cdist x y lm ->
  dtw cdist x y o = Ok d -> pattern_rules (r_stepPattern d) rules -> o_open_begin o = false ->
  0 < nr lm /\ 0 < nc lm.
Proof.
  intros HC H Hp Ob. destruct (dtw_ok_inv L _ _ _ _ _ _ _ HC H Hp) as [_ [_ [Sz _]]].
  rewrite p_lm_nr, Ob in Sz. destruct Sz as [A [B _]]. auto.
Qed.


Theorem count_cells cdist x y o (lm : mat N) d rules : costs_of cdist x y lm ->
  dtw cdist x y o = Ok d -> pattern_rules (r_stepPattern d) rules -> no_marker rules -> o_open_begin o = false ->
  (r_windowFunction d = NoWindow -> r_windowArgs d = []) ->
  counts_fit rules lm (r_windowFunction d) (r_windowArgs d) ->
  exists g, countMatrix (r_N d) (r_M d) (r_openBegin d) (r_stepPattern d) (r_windowFunction d) (r_windowArgs d) = Ok g /\
    nr g = nr lm /\ nc g = nc lm /\
    forall i j, i < nr lm -> j < nc lm -> exists c,
      numbers (admitted rules lm (r_windowFunction d) (r_windowArgs d) (i, j)) c /\
      mget g i j = Some (ofZ (Z.of_nat c)).
Proof.
  intros HC H Hp NM Ob Hw Fit.
  pose proof (dtw_callable _ _ _ _ _ _ _ HC H Hp Ob Hw) as Call.
  destruct (dtw_shape _ _ _ _ _ _ _ HC H Hp Ob) as [Hn Hm].
  destruct (dtw_fields L _ _ _ _ _ _ _ HC H Hp) as [-> [-> [_ [-> _]]]]. rewrite Ob.
  assert (Hv : forallb valid_rule rules = true) by apply Hp.
  destruct (count_matrix L rules _ Hp NM (nr lm) (nc lm) Hn Hm false _ _ Call) as [g [E [G1 [G2 [G3 G4]]]]].
  { intros i j Hi Hj. apply (Fit i j); auto. apply admitted_count; auto. }
  exists g. split; [exact E|]. split; [exact G1|]. split; [exact G2|].
  intros i j Hi Hj. eexists. split; [apply admitted_count; eassumption|].
  unfold mget. rewrite G1, G2. destruct ((i <? nr lm) && (j <? nc lm)) eqn:Eb; [|lia]. apply G4; assumption.
Qed.

Lemma last_row (g : mat N) v : 0 < nr g -> 0 < nc g -> List.length (dat g) = nr g * nc g ->
  (forall j, j < nc g -> nth_error (dat g) ((nr g - 1) * nc g + j) = Some (v j)) ->
  row_of g (nr g - 1) = map v (seq 0 (nc g)).
Proof.
  intros Hn Hm Hl Hv. apply nth_error_ext. intros j.
  rewrite nth_error_map, nth_error_seq. unfold row_of. rewrite nth_error_firstn, nth_error_skipn.
  destruct (Nat.ltb_spec j (nc g)) as [Hj|Hj]; [|reflexivity]. cbn [option_map Nat.add]. apply Hv. exact Hj.
Qed.

Lemma np_sum_ofZ (v : nat -> nat) s k : (Z.of_nat (list_sum (map v (seq s k))) <= 2 ^ 53)%Z ->
  np_sum (map (fun j => @ofZ N (Z.of_nat (v j))) (seq s k)) = ofZ (Z.of_nat (list_sum (map v (seq s k)))).
Proof. intros H. rewrite <- (np_sum_nats L) by exact H. rewrite map_map. reflexivity. Qed.

Lemma trunc_count c : (Z.of_nat c <= 2 ^ 53)%Z -> trunc (@ofZ N (Z.of_nat c)) = Some (Z.of_nat c).
Proof. intros H. apply (law_trunc_ofZ _ L). lia. Qed.

Theorem count_closed cdist x y o (lm : mat N) d rules : costs_of cdist x y lm ->
  dtw cdist x y o = Ok d -> pattern_rules (r_stepPattern d) rules -> no_marker rules ->
  o_open_begin o = false -> o_open_end o = false ->
  (r_windowFunction d = NoWindow -> r_windowArgs d = []) ->
  counts_fit rules lm (r_windowFunction d) (r_windowArgs d) ->
  exists c, numbers (admitted rules lm (r_windowFunction d) (r_windowArgs d) (nr lm - 1, nc lm - 1)) c /\
    countPaths d = Ok (Z.of_nat c).
Proof.
  intros HC H Hp NM Ob Oe Hw Fit.
  pose proof (dtw_callable _ _ _ _ _ _ _ HC H Hp Ob Hw) as Call.
  destruct (dtw_shape _ _ _ _ _ _ _ HC H Hp Ob) as [Hn Hm].
  assert (Hv : forallb valid_rule rules = true) by apply Hp.
  assert (Fit' : forall i j, i < nr lm -> j < nc lm ->
    (Z.of_nat (cnt rules (srcb false) (okb (nr lm) (nc lm) (r_windowFunction d) (r_windowArgs d)) i j) <= 2 ^ 53)%Z).
  { intros i j Hi Hj. apply (Fit i j); auto. apply admitted_count; auto. }
  destruct (count_matrix L rules _ Hp NM (nr lm) (nc lm) Hn Hm false _ _ Call Fit') as [g [E [G1 [G2 [G3 G4]]]]].
  eexists. split; [apply admitted_count; auto; lia|].
  destruct (dtw_fields L _ _ _ _ _ _ _ HC H Hp) as [F1 [F2 [F3 [F4 _]]]].
  unfold countPaths. rewrite F1, F2, F3, F4, Ob, Oe, E. cbn [bind].
  rewrite (last_row g (fun j => ofZ (Z.of_nat (cnt rules (srcb false) (okb (nr lm) (nc lm) (r_windowFunction d) (r_windowArgs d)) (nr lm - 1) j)))).
  - rewrite nth_error_map, nth_error_seq, G2. replace (nc lm - 1 <? nc lm) with true by lia. cbn [option_map bind Nat.add].
    rewrite trunc_count by (apply Fit'; lia). reflexivity.
  - lia.
  - lia.
  - rewrite G1, G2. exact G3.
  - rewrite G1, G2. intros j Hj. apply G4; lia.
Qed.

Lemma end_of_sequence rules (lm : mat N) w kw q q' ks : admitted rules lm w kw q ks -> admitted rules lm w kw q' ks -> q = q'.
Proof.
  unfold admitted. intros [vs [ts [c W]]] [vs' [ts' [c' W']]]. revert q' vs' ts' c' W'.
  induction W as [i j c Hs Hi Hj|ks vs ts i0 j0 c k r W IH Hk Hi Hj Ha]; intros q' vs' ts' c' W'.
  - inversion W'; subst; [|destruct ks; discriminate]. unfold closed_source in *.
    destruct ((i =? 0) && (j =? 0)) eqn:E1; [|discriminate]. destruct ((i0 =? 0) && (j0 =? 0)) eqn:E2; [|discriminate].
    f_equal; lia.
  - inversion W' as [a b cc Hs' Hi' Hj' E1 E2 E3 E4 E5|ks2 vs2 ts2 i2 j2 c2 k2 r2 W2 Hk2 Hi2 Hj2 Ha2 E1 E2 E3 E4 E5].
    + destruct ks; discriminate.
    + apply app_inj_tail in E1. destruct E1 as [-> ->]. specialize (IH _ _ _ _ W2). injection IH as <- <-.
      rewrite Hk in Hk2. injection Hk2 as <-. reflexivity.
Qed.

Theorem count_open_end cdist x y o (lm : mat N) d rules : costs_of cdist x y lm ->
  dtw cdist x y o = Ok d -> pattern_rules (r_stepPattern d) rules -> no_marker rules ->
  o_open_begin o = false -> o_open_end o = true ->
  (r_windowFunction d = NoWindow -> r_windowArgs d = []) ->
  counts_fit rules lm (r_windowFunction d) (r_windowArgs d) ->
  (forall c, numbers (fun ks => exists j, j < nc lm /\
     admitted rules lm (r_windowFunction d) (r_windowArgs d) (nr lm - 1, j) ks) c -> (Z.of_nat c <= 2 ^ 53)%Z) ->
  exists c, numbers (fun ks => exists j, j < nc lm /\
     admitted rules lm (r_windowFunction d) (r_windowArgs d) (nr lm - 1, j) ks) c /\
    countPaths d = Ok (Z.of_nat c).
Proof.
  intros HC H Hp NM Ob Oe Hw Fit Sum.
  pose proof (dtw_callable _ _ _ _ _ _ _ HC H Hp Ob Hw) as Call.
  destruct (dtw_shape _ _ _ _ _ _ _ HC H Hp Ob) as [Hn Hm].
  assert (Hv : forallb valid_rule rules = true) by apply Hp.
  set (ct := cnt rules (srcb false) (okb (nr lm) (nc lm) (r_windowFunction d) (r_windowArgs d))) in *.
  assert (Fit' : forall i j, i < nr lm -> j < nc lm -> (Z.of_nat (ct i j) <= 2 ^ 53)%Z).
  { intros i j Hi Hj. apply (Fit i j); auto. apply admitted_count; auto. }
  destruct (count_matrix L rules _ Hp NM (nr lm) (nc lm) Hn Hm false _ _ Call Fit') as [g [E [G1 [G2 [G3 G4]]]]].
  assert (HU : numbers (fun ks => exists j, j < nc lm /\
     admitted rules lm (r_windowFunction d) (r_windowArgs d) (nr lm - 1, j) ks) (list_sum (map (ct (nr lm - 1)) (seq 0 (nc lm))))).
  { apply numbers_union.
    - intros j j' ks _ _ A A'. pose proof (end_of_sequence _ _ _ _ _ _ _ A A') as Q. injection Q as ->. reflexivity.
    - intros j Hj. apply admitted_count; auto; lia. }
  eexists. split; [exact HU|].
  destruct (dtw_fields L _ _ _ _ _ _ _ HC H Hp) as [F1 [F2 [F3 [F4 _]]]].
  unfold countPaths. rewrite F1, F2, F3, F4, Ob, Oe, E. cbn [bind].
  rewrite (last_row g (fun j => ofZ (Z.of_nat (ct (nr lm - 1) j)))).
  - rewrite G2, np_sum_ofZ by (apply Sum; exact HU). rewrite trunc_count by (apply Sum; exact HU). reflexivity.
  - lia.
  - lia.
  - rewrite G1, G2. exact G3.
  - rewrite G1, G2. intros j Hj. apply G4; lia.
Qed.

(** Counts fit whenever (number of productions + 1)^(N+M) does. *)
Lemma cnt_pow rules n m sb ob : forallb (@valid_rule N) rules = true -> forall i j, i < n -> j < m ->
  cnt rules sb ob i j <= (List.length rules + 1) ^ (i + j).
Proof.
  intros Hv. assert (G : forall f i j, i + j <= f -> cnt rules sb ob i j <= (List.length rules + 1) ^ (i + j)).
  { induction f as [|f IH]; intros i j Hf; (destruct (sb i j) eqn:Es;
      [rewrite cnt_src by exact Es; apply Nat.neq_0_lt_0, Nat.pow_nonzero; lia|]);
      (destruct (ob i j) eqn:Eo; [|rewrite cnt_out by assumption; lia]); rewrite (cnt_step rules Hv sb ob) by assumption.
    - assert (Z0 : forall rs, (forall r, In r rs -> In r rules) -> list_sum (map (term rules sb ob i j) rs) = 0).
      { induction rs as [|r rs IH]; intros Hin; [reflexivity|]. unfold list_sum in *. cbn [map fold_right]. rewrite IH by (intros; apply Hin; right; assumption).
        unfold term. destruct (In_rule_no _ _ (Hin r (or_introl eq_refl))) as [k Hk]. pose proof (rule_forward _ Hv _ _ Hk).
        destruct ((r_di r <=? i) && (r_dj r <=? j)) eqn:Eb; [lia|reflexivity]. }
      rewrite Z0 by auto. lia.
    - destruct (Nat.eq_dec (i + j) 0) as [E0|E0].
      { apply Nat.le_trans with 0; [|lia].
        assert (Z0 : forall rs, (forall r, In r rs -> In r rules) -> list_sum (map (term rules sb ob i j) rs) = 0).
        { induction rs as [|r rs IHr]; intros Hin; [reflexivity|]. unfold list_sum in *. cbn [map fold_right]. rewrite IHr by (intros; apply Hin; right; assumption).
          unfold term. destruct (In_rule_no _ _ (Hin r (or_introl eq_refl))) as [k Hk]. pose proof (rule_forward _ Hv _ _ Hk).
          destruct ((r_di r <=? i) && (r_dj r <=? j)) eqn:Eb; [lia|reflexivity]. }
        rewrite Z0 by auto. lia. }
      set (b := List.length rules + 1) in *.
      assert (S1 : forall rs, (forall r, In r rs -> In r rules) -> list_sum (map (term rules sb ob i j) rs) <= List.length rs * b ^ (i + j - 1)).
      { induction rs as [|r rs IHr]; intros Hin; [cbn; lia|]. unfold list_sum in *. cbn [map fold_right List.length Nat.mul].
        apply Nat.add_le_mono; [|apply IHr; intros; apply Hin; right; assumption].
        unfold term. destruct (In_rule_no _ _ (Hin r (or_introl eq_refl))) as [k Hk]. pose proof (rule_forward _ Hv _ _ Hk).
        destruct ((r_di r <=? i) && (r_dj r <=? j)) eqn:Eb; [|lia].
        eapply Nat.le_trans; [apply IH; lia|]. apply Nat.pow_le_mono_r; [unfold b; lia|lia]. }
      eapply Nat.le_trans; [apply S1; auto|].
      replace (i + j) with (S (i + j - 1)) at 2 by lia. cbn [Nat.pow]. apply Nat.mul_le_mono_r. unfold b. lia. }
  intros i j _ _. apply (G (i + j)). lia.
Qed.

Theorem counts_fit_small rules (lm : mat N) w kw : forallb (@valid_rule N) rules = true ->
  window_callable w kw (nr lm) (nc lm) ->
  ((Z.of_nat (List.length rules) + 1) ^ (Z.of_nat (nr lm) + Z.of_nat (nc lm)) <= 2 ^ 53)%Z ->
  counts_fit rules lm w kw.
Proof.
  intros Hv Hw Hp i j c Hi Hj Hc. rewrite (numbers_unique _ _ _ Hc (admitted_count rules lm w kw i j Hv Hw Hi Hj)).
  eapply Z.le_trans; [|exact Hp]. clear Hp.
  pose proof (cnt_pow rules (nr lm) (nc lm) (srcb false) (okb (nr lm) (nc lm) w kw) Hv i j Hi Hj) as K.
  apply Nat2Z.inj_le in K. eapply Z.le_trans; [exact K|]. rewrite Nat2Z.inj_pow.
  replace (Z.of_nat (List.length rules + 1)) with (Z.of_nat (List.length rules) + 1)%Z by lia.
  apply Z.pow_le_mono_r; lia.
Qed.

(** ** Open begin: what is counted *)

Lemma counted_count rules (lm : mat N) w kw i j : forallb valid_rule rules = true ->
  window_callable w kw (nr lm) (nc lm) -> i < nr lm -> j < nc lm ->
  numbers (counted_open rules lm w kw (i, j)) (cnt rules (srcb true) (okb (nr lm) (nc lm) w kw) i j).
Proof.
  intros Hv Hw Hi Hj. eapply numbers_ext; [|apply (cnt_numbers rules Hv (nr lm) (nc lm)); assumption].
  intros [s ks]. cbn [fst snd]. unfold counted_open. cbn [fst snd]. apply runs_iff; auto.
  - intros a b. unfold srcb, open_source. cbn [orb]. rewrite andb_true_r. destruct (a =? 0); split; eauto; try discriminate. intros [c E]. discriminate.
  - intros a b _ Ha Hb. rewrite (okb_window rules w kw (nr lm) (nc lm) a b Hw Ha Hb Hv). unfold srcb. cbn [orb]. rewrite andb_true_r.
    split; intros [A B]; (split; [lia || exact A|lia || exact A]) || (split; [exact B|destruct a; [lia|reflexivity]]).
Qed.

Theorem count_open_begin cdist x y o (lm : mat N) d rules : costs_of cdist x y lm -> 0 < nr lm ->
  dtw cdist x y o = Ok d -> pattern_rules (r_stepPattern d) rules -> no_marker rules ->
  o_open_begin o = true -> o_open_end o = false ->
  window_callable (r_windowFunction d) (r_windowArgs d) (nr lm) (nc lm) ->
  (forall i j c, i < nr lm -> j < nc lm ->
     numbers (counted_open rules lm (r_windowFunction d) (r_windowArgs d) (i, j)) c -> (Z.of_nat c <= 2 ^ 53)%Z) ->
  exists c, numbers (counted_open rules lm (r_windowFunction d) (r_windowArgs d) (nr lm - 1, nc lm - 1)) c /\
    countPaths d = Ok (Z.of_nat c).
Proof.
  intros HC Hn H Hp NM Ob Oe Call Fit.
  assert (Hm : 0 < nc lm).
  { destruct (dtw_fields L _ _ _ _ _ _ _ HC H Hp) as [_ [_ [_ [_ [_ [_ [_ [J _]]]]]]]]. lia. }
  assert (Hv : forallb valid_rule rules = true) by apply Hp.
  set (ct := cnt rules (srcb true) (okb (nr lm) (nc lm) (r_windowFunction d) (r_windowArgs d))) in *.
  assert (Fit' : forall i j, i < nr lm -> j < nc lm -> (Z.of_nat (ct i j) <= 2 ^ 53)%Z).
  { intros i j Hi Hj. apply (Fit i j); auto. apply counted_count; auto. }
  destruct (count_matrix L rules _ Hp NM (nr lm) (nc lm) Hn Hm true _ _ Call Fit') as [g [E [G1 [G2 [G3 G4]]]]].
  eexists. split; [apply counted_count; auto; lia|].
  destruct (dtw_fields L _ _ _ _ _ _ _ HC H Hp) as [F1 [F2 [F3 [F4 _]]]].
  unfold countPaths. rewrite F1, F2, F3, F4, Ob, Oe, E. cbn [bind].
  rewrite (last_row g (fun j => ofZ (Z.of_nat (ct (nr lm - 1) j)))).
  - rewrite nth_error_map, nth_error_seq, G2. replace (nc lm - 1 <? nc lm) with true by lia. cbn [option_map bind Nat.add].
    fold ct. rewrite trunc_count by (apply Fit'; lia). reflexivity.
  - lia.
  - lia.
  - rewrite G1, G2. exact G3.
  - rewrite G1, G2. intros j Hj. apply G4; lia.
Qed.
End Count.
