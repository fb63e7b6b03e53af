(** Thm27.v - a result and the results on leading parts of the series (proofs for C56, C57). *)
From Coq Require Import ZifyBool ZifyNat.
From Verif Require Import Base Num StepPattern Window Core Backtrack Dtw Spec Api Tables Vocab Terms
  CoreProof DPProof DtwProof ApiProof ApiThms Uniq Thm1 Thm2 Thm3 Thm5 Thm7 Thm10 Derived SeriesSpec.
Open Scope string_scope.
Open Scope list_scope.
Open Scope nat_scope.

Lemma firstn_next {A} (l : list A) i a : nth_error l i = Some a -> firstn (S i) l = firstn i l ++ [a].
Proof.
  revert i. induction l as [|b l IH]; intros [|i] H; cbn in *; try discriminate.
  - injection H as ->. reflexivity.
  - f_equal. apply IH. exact H.
Qed.

Section Traced.
Context {N : Num}.
Variable L : NumLaws N.

(** What back-tracking from (i,j) reads in the direction matrix *)
Inductive traced (rules : list (rule N)) (smf : nat -> nat -> Z) : nat -> nat -> list nat -> list point -> list point -> Prop :=
| traced_start i j : smf i j = INT_MIN -> traced rules smf i j [] [] []
| traced_step i j k r ks vs ts : smf i j = Z.of_nat k -> rule_no rules k = Some r -> r_di r <= i -> r_dj r <= j ->
    traced rules smf (i - r_di r) (j - r_dj r) ks vs ts ->
    traced rules smf i j (ks ++ [k]) (vs ++ [(i - r_di r, j - r_dj r)])
      (ts ++ [(i - r_di r, j - r_dj r)] ++ inner_points r i j).

Lemma traced_ext rules smf smf' i j ks vs ts : traced rules smf i j ks vs ts ->
  (forall a b, a <= i -> b <= j -> smf' a b = smf a b) -> traced rules smf' i j ks vs ts.
Proof.
  induction 1 as [i j H|i j k r ks vs ts H Hr Hi Hj T IH]; intros E.
  - constructor. rewrite E; auto.
  - econstructor; eauto; [rewrite E; auto|]. apply IH. intros a b Ha Hb. apply E; lia.
Qed.
Lemma traced_fun rules smf i j ks vs ts : traced rules smf i j ks vs ts -> forall ks' vs' ts',
  traced rules smf i j ks' vs' ts' -> ks' = ks /\ vs' = vs /\ ts' = ts.
Proof.
  induction 1 as [i j H|i j k r ks vs ts H Hr Hi Hj T IH]; intros ks' vs' ts' T'.
  - inversion T'; subst; [auto|]. unfold INT_MIN in *. lia.
  - inversion T' as [? ? H'|? ? k' r' ks0 vs0 ts0 H' Hr' Hi' Hj' T'']; subst; [unfold INT_MIN in *; lia|].
    assert (k' = k) by lia. subst k'. assert (r' = r) by congruence. subst r'.
    destruct (IH _ _ _ T'') as [-> [-> ->]]. auto.
Qed.

(** The points on the way are themselves traced, with the initial part of the path. *)
Lemma traced_prefix rules smf i j ks vs ts : traced rules smf i j ks vs ts -> forall q a b, nth_error vs q = Some (a, b) ->
  exists ts0 rest, traced rules smf a b (firstn q ks) (firstn q vs) ts0 /\ ts = ts0 ++ (a, b) :: rest /\ a <= i /\ b <= j.
Proof.
  induction 1 as [i j H|i j k r ks vs ts H Hr Hi Hj T IH]; intros q a b Hq; [destruct q; discriminate|].
  assert (Hlen : List.length ks = List.length vs).
  { clear -T. induction T; [reflexivity|]. rewrite !app_length. cbn. lia. }
  destruct (Nat.lt_ge_cases q (List.length vs)) as [Hlt|Hge].
  - rewrite nth_error_app1 in Hq by exact Hlt. destruct (IH _ _ _ Hq) as [ts0 [rest [T0 [E [Ha Hb]]]]].
    exists ts0, (rest ++ [(i - r_di r, j - r_dj r)] ++ inner_points r i j).
    rewrite !firstn_app. replace (q - List.length ks) with 0 by lia. replace (q - List.length vs) with 0 by lia.
    cbn [firstn]. rewrite !app_nil_r. split; [exact T0|]. rewrite E, <- !app_assoc. cbn [app]. repeat split; lia.
  - rewrite nth_error_app2 in Hq by exact Hge. destruct (q - List.length vs) as [|q'] eqn:Eq; [|destruct q'; discriminate].
    cbn in Hq. injection Hq as <- <-. exists ts, (inner_points r i j).
    assert (q = List.length vs) by lia. subst q. rewrite !firstn_app, Hlen, Nat.sub_diag. cbn [firstn].
    rewrite !app_nil_r. rewrite <- Hlen at 1. rewrite !firstn_all. split; [exact T|]. repeat split; lia.
Qed.

(** Back-tracking reads exactly the trace. *)
Lemma backtrack_traced rules s n m (smf : nat -> nat -> Z) sm i j ks vs ts : pattern_rules s rules -> nr sm = n -> nc sm = m ->
  reps n m (dat sm) smf -> traced rules smf i j ks vs ts -> i < n -> j < m ->
  forall fuel acc, i + j < fuel ->
    backtrack_loop fuel s (Z.of_nat (List.length rules)) sm (Z.of_nat i) (Z.of_nat j) acc =
    Ok (Mapping (map query_ix ts ++ index1 acc) (map ref_ix ts ++ index2 acc)
                (map query_ix vs ++ index1s acc) (map ref_ix vs ++ index2s acc)
                (map Z.of_nat ks ++ stepsTaken acc)).
Proof.
  intros Hp Hnr Hnc Hsm T. induction T as [i j H|i j k r ks vs ts Hd Hk Hdi Hdj T IH]; intros Hi Hj [|fuel] acc Hf; try lia; cbn [backtrack_loop].
  - destruct acc as [a1 a2 a3 a4 a5]. cbn.
    destruct ((Z.of_nat i =? 0) && (Z.of_nat j =? 0))%Z; [reflexivity|].
    rewrite (get_sm n m smf sm Hnr Hnc Hsm) by assumption. cbn [bind]. rewrite H. reflexivity.
  - assert (Hv : valid_rule r = true).
    { destruct Hp as [_ [_ [Hv _]]]. rewrite forallb_forall in Hv. apply Hv. apply (rule_no_in _ _ _ Hk). }
    assert (Hnz : 0 < r_di r + r_dj r) by (unfold valid_rule in Hv; lia).
    destruct ((Z.of_nat i =? 0) && (Z.of_nat j =? 0))%Z eqn:E0; [lia|].
    rewrite (get_sm n m smf sm Hnr Hnc Hsm) by assumption. cbn [bind]. rewrite Hd.
    destruct (Z.of_nat k =? INT_MIN)%Z eqn:Ek; [unfold INT_MIN in *; lia|].
    rewrite (stepsCache_rules L s rules k r Hp Hk). cbn [bind].
    rewrite rev_involutive. cbn [map]. cbn [fst snd].
    change ((Z.of_nat (r_di r), Z.of_nat (r_dj r)) ::
       map (fun d : nat * nat => (Z.of_nat (fst d), Z.of_nat (snd d))) (offs (r_add r)))
     with (map (fun d : nat * nat => (Z.of_nat (fst d), Z.of_nat (snd d))) ((r_di r, r_dj r) :: offs (r_add r))).
    rewrite (fold_prepend (fun d => Z.of_nat i - fst d)%Z), (fold_prepend (fun d => Z.of_nat j - snd d)%Z).
    rewrite !map_map. cbn [fst snd].
    replace (Z.of_nat i - Z.of_nat (r_di r))%Z with (Z.of_nat (i - r_di r)) by lia.
    replace (Z.of_nat j - Z.of_nat (r_dj r))%Z with (Z.of_nat (j - r_dj r)) by lia.
    rewrite IH by lia. cbn [index1 index2 index1s index2s stepsTaken].
    assert (Hin : forall a, In a (r_add r) -> fst (fst a) <= r_di r /\ snd (fst a) <= r_dj r).
    { intros a; apply going_down_le. unfold valid_rule in Hv. apply andb_prop in Hv.
      destruct Hv as [Hv _]. apply andb_prop in Hv. apply Hv. }
    rewrite !map_app. cbn [map]. cbn [app]. rewrite <- !app_assoc. cbn [app].
    f_equal. f_equal.
    * f_equal. unfold query_ix at 2. cbn [fst].
      replace (Z.of_nat i - Z.of_nat (r_di r))%Z with (Z.of_nat (i - r_di r)) by lia. f_equal. f_equal.
      unfold offs, inner_points. rewrite !map_map. apply map_ext_in. intros a Ha'.
      apply filter_In in Ha'. destruct (Hin a (proj1 Ha')). unfold query_ix. cbn [fst snd]. lia.
    * f_equal. unfold ref_ix at 2. cbn [snd].
      replace (Z.of_nat j - Z.of_nat (r_dj r))%Z with (Z.of_nat (j - r_dj r)) by lia. f_equal. f_equal.
      unfold offs, inner_points. rewrite !map_map. apply map_ext_in. intros a Ha'.
      apply filter_In in Ha'. destruct (Hin a (proj1 Ha')). unfold ref_ix. cbn [fst snd]. lia.
Qed.

Definition path_of (ks : list nat) (vs ts : list point) (q : point) : mapping :=
  mapping_of ks (vs ++ [q]) (ts ++ [q]).
Lemma backtrack_path rules s n m smf sm j ks vs ts : pattern_rules s rules -> nr sm = n -> nc sm = m ->
  reps n m (dat sm) smf -> traced rules smf (n - 1) j ks vs ts -> 0 < n -> j < m ->
  backtrack s sm (Z.of_nat j) = Ok (path_of ks vs ts (n - 1, j)).
Proof.
  intros Hp Hnr Hnc Hsm T Hn Hj. unfold backtrack. rewrite (n_patterns_rules L s rules Hp). cbn [bind].
  rewrite Hnr, Hnc. replace (Z.of_nat n - 1)%Z with (Z.of_nat (n - 1)) by lia.
  rewrite (backtrack_traced rules s n m smf sm (n - 1) j ks vs ts) by (auto; try lia; nia).
  unfold path_of, mapping_of. rewrite !map_app. cbn [index1 index2 index1s index2s stepsTaken map]. rewrite app_nil_r. reflexivity.
Qed.

Lemma traced_exists rules n m lmf seed win cmf smf i j : forallb valid_rule rules = true ->
  @bellman N rules n m lmf seed win cmf smf -> i < n -> j < m -> isnan (cmf i j) = false ->
  exists ks vs ts, traced rules smf i j ks vs ts /\ forall a b, In (a, b) vs -> isnan (cmf a b) = false.
Proof.
  intros Hv HB. remember (i + j) as t eqn:Es. revert i j Es.
  induction t as [t IH] using (well_founded_induction lt_wf). intros i j -> Hi Hj Hn.
  destruct (cell_cases L rules n m lmf seed win cmf smf Hv HB i j Hi Hj Hn) as [[Hs Hd]|[k [r [Hk [Hdi [Hdj [Ha [Hd [G [Hn' E]]]]]]]]]].
  - exists [], [], []. split; [constructor; exact Hd|]. intros a b [].
  - assert (Hr : valid_rule r = true) by (rewrite forallb_forall in Hv; apply Hv, (rule_no_in _ _ _ Hk)).
    assert (Hnz : 0 < r_di r + r_dj r) by (unfold valid_rule in Hr; lia).
    destruct (IH (i - r_di r + (j - r_dj r))) with (i := i - r_di r) (j := j - r_dj r) as [ks [vs [ts [T HV]]]]; try lia; auto.
    eexists _, _, _. split; [eapply traced_step; eauto|]. intros a b Hab. apply in_app_iff in Hab. destruct Hab as [Hab|[Hab|[]]].
    + apply HV; exact Hab.
    + injection Hab as <- <-. exact Hn'.
Qed.

(** ** Calls on leading blocks *)
Definition rowsn (ob : bool) (n : nat) : nat := if ob then n + 1 else n.
Definition map_of (ob : bool) (mp : mapping) : mapping := if ob then shift_mapping mp else mp.

Lemma leading_outcome cdist x y o (lm : mat N) sp rules w o' cdist' n m cmf smf win :
  well_posed cdist x y o lm sp rules w -> ignores_sizes w (o_window_args o) ->
  win_spec w (o_window_args o) (nr (p_lm o lm)) (nc lm) win ->
  bellman rules (nr (p_lm o lm)) (nc lm) (cell (p_lm o lm)) (p_seed o lm) win cmf smf ->
  same_problem o o' -> o_open_end o' = false -> (o_open_begin o = true -> o_distance_only o' = false) ->
  0 < n <= nr lm -> 0 < m <= nc lm ->
  let i := rowsn (o_open_begin o) n - 1 in
  let R := dtw cdist' (NdArray (Nd2 (leading lm n m)) true true) None o' in
  (isnan (cmf i (m - 1)) = true /\ R = Raise no_path) \/
  (isnan (cmf i (m - 1)) = false /\ exists d', R = Ok d' /\ r_distance d' = cmf i (m - 1) /\
     r_normalizedDistance d' = (if String.eqb (hint sp) "NA" then nan else normalized (hint sp) n (m - 1) (cmf i (m - 1))) /\
     r_jmin d' = m - 1 /\ r_stepPattern d' = sp /\
     (o_distance_only o' = false -> exists ks vs ts, traced rules smf i (m - 1) ks vs ts /\
        (forall a b, In (a, b) vs -> isnan (cmf a b) = false) /\
        r_map d' = Some (map_of (o_open_begin o) (path_of ks vs ts (i, m - 1))))).
Proof.
  intros WP Hig Hwi HB [S1 [S2 [S3 S4]]] He' Hdo Hn Hm i R. pose proof WP as WP0. destruct WP0 as [w1 w2 w3 w4 w5 w6 w7 w8 w9 w10].
  pose proof (costs_of_wf _ _ _ _ w1) as Hwf.
  set (lm' := leading lm n m) in *.
  assert (WP' : well_posed cdist' (NdArray (Nd2 lm') true true) None o' lm' sp rules w).
  { constructor; rewrite ?S1, ?S2, ?S3, ?S4; auto.
    - constructor; [reflexivity|apply leading_wf].
    - right. split; reflexivity.
    - eapply total_ignores; [exact Hig| | |exact w6]; unfold rows_used, lm'; cbn [nr nc leading]; destruct (o_open_begin o); lia.
    - unfold lm'. cbn [nr leading]. lia.
    - unfold lm', rows_used in *. cbn [nr nc leading]. destruct w8 as [A [B C]]. split; [destruct (o_open_begin o); lia|]. split; [lia|]. destruct (o_open_begin o); nia.
    - intros Ho. split; [apply w9; exact Ho|apply Hdo; exact Ho].
    - rewrite He'. discriminate. }
  destruct (wp_finish_any L _ _ _ _ _ _ _ _ WP') as [cm' [dm' [cmf' [smf' [win' [E' [Rc' [Rs' [Hwi' HB']]]]]]]]].
  assert (Ern : nr (p_lm o' lm') = rowsn (o_open_begin o) n).
  { rewrite p_lm_nr, S4. unfold lm', rowsn. cbn [nr leading]. reflexivity. }
  assert (Erb : nr (p_lm o lm) = rowsn (o_open_begin o) (nr lm)) by (rewrite p_lm_nr; reflexivity).
  assert (Hle : rowsn (o_open_begin o) n <= rowsn (o_open_begin o) (nr lm)) by (unfold rowsn; destruct (o_open_begin o); lia).
  assert (Hpos : 0 < rowsn (o_open_begin o) n) by (unfold rowsn; destruct (o_open_begin o); lia).
  change (nc lm') with m in *. rewrite Ern in *. rewrite Erb in *.
  assert (EQ : forall a b, a < rowsn (o_open_begin o) n -> b < m -> cmf' a b = cmf a b /\ smf' a b = smf a b).
  { intros a b Ha Hb.
    apply (bellman_unique L rules (rowsn (o_open_begin o) n) m (cell (p_lm o' lm')) (p_seed o' lm') win' cmf' smf'
              (cell (p_lm o lm)) (p_seed o lm) win cmf smf); auto; [apply w4| |].
    - intros a' b' Ha' Hb'. split; [|split].
      + unfold p_lm. rewrite S4. destruct (o_open_begin o) eqn:Eo; cbn [rowsn] in *.
        * rewrite !padded_cell by (try apply leading_wf; auto; unfold lm'; cbn [nr nc leading]; lia).
          destruct (Nat.eqb_spec a' 0); [reflexivity|]. apply leading_cell; lia.
        * apply leading_cell; lia.
      + unfold p_seed. rewrite S4. destruct (o_open_begin o); [reflexivity|]. unfold seed0, lm'. rewrite leading_cell by lia. reflexivity.
      + rewrite S3 in Hwi'. eapply win_unique; [exact Hig|exact Hwi'|exact Hwi| | | |]; lia.
    - apply (bellman_prefix rules (rowsn (o_open_begin o) (nr lm)) (nc lm)); [lia|lia|exact HB]. }
  assert (Ev : cmf' i (m - 1) = cmf i (m - 1)) by (apply EQ; unfold i; lia).
  unfold R. rewrite E'. unfold finish_any, choose. rewrite He', ?Ern. cbn [bind]. change (nc lm') with m. fold i. rewrite Ev.
  destruct (isnan (cmf i (m - 1))) eqn:En; [left; auto|right]. split; [reflexivity|].
  destruct (traced_exists rules (rowsn (o_open_begin o) (nr lm)) (nc lm) (cell (p_lm o lm)) (p_seed o lm) win cmf smf i (m - 1)) as [ks [vs [ts [T HV]]]]; auto.
  { apply w4. } { unfold i; lia. } { lia. }
  assert (T' : traced rules smf' i (m - 1) ks vs ts).
  { eapply traced_ext; [exact T|]. intros a b Ha Hb. apply EQ; unfold i in *; lia. }
  destruct (o_distance_only o') eqn:Edo; cbn [bind].
  - rewrite Bool.andb_true_r. destruct (o_open_begin o') eqn:Eo'.
    { exfalso. assert (C : true = false) by (apply Hdo; congruence). discriminate C. }
    eexists. split; [reflexivity|]. unfold result. cbn [r_distance r_normalizedDistance r_jmin r_map r_stepPattern]. unfold lm'. cbn [nr nc leading].
    repeat split; try reflexivity. discriminate.
  - rewrite (backtrack_path rules sp (rowsn (o_open_begin o) n) m smf' _ (m - 1) ks vs ts) by (auto; lia). cbn [bind].
    rewrite Bool.andb_false_r. eexists. split; [reflexivity|]. unfold result. cbn [r_distance r_normalizedDistance r_jmin r_map r_stepPattern]. unfold lm'. cbn [nr nc leading].
    repeat split; try reflexivity. intros _. exists ks, vs, ts. split; [exact T|]. split; [exact HV|]. unfold map_of. rewrite S4.
    fold i. destruct (o_open_begin o); reflexivity.
Qed.

(** ** Open end: the closed-end result on the best leading part of the reference *)
Theorem open_end_is_prefix cdist x y o (lm : mat N) d rules o' cdist' :
  costs_of cdist x y lm -> dtw cdist x y o = Ok d -> pattern_rules (r_stepPattern d) rules -> 0 < nr lm ->
  o_open_end o = true -> ignores_sizes (r_windowFunction d) (r_windowArgs d) ->
  same_problem o o' -> o_open_end o' = false -> o_distance_only o' = o_distance_only o ->
  (exists d', dtw cdist' (NdArray (Nd2 (leading lm (nr lm) (r_jmin d + 1))) true true) None o' = Ok d' /\
     r_distance d' = r_distance d /\ r_normalizedDistance d' = r_normalizedDistance d /\
     r_jmin d' = r_jmin d /\ r_map d' = r_map d) /\
  (forall j, j < nc lm ->
     match dtw cdist' (NdArray (Nd2 (leading lm (nr lm) (j + 1))) true true) None o' with
     | Ok d' => leb (r_normalizedDistance d) (r_normalizedDistance d') = true /\
                (j < r_jmin d -> ltb (r_normalizedDistance d) (r_normalizedDistance d') = true)
     | Raise e => e = no_path
     | _ => False
     end).
Proof.
  intros HC Hd Hp Hq Hoe Hig HS He' Hdo.
  destruct (dtw_fields L _ _ _ _ _ _ _ HC Hd Hp) as [_ [_ [_ [_ [_ [Ekw [_ [Fj [_ [Fn [Fob [Fna Fmap]]]]]]]]]]]].
  pose proof (ok_well_posed L _ _ _ _ _ _ _ HC Hd Hp Hq) as WP. rewrite Ekw in Hig.
  assert (FN : r_N d = nr lm) by apply (dtw_fields L _ _ _ _ _ _ _ HC Hd Hp). rewrite FN in Fn.
  destruct (wp_finish_any L _ _ _ _ _ _ _ _ WP) as [cm [dm [cmf [smf [win [E [Rc [Rs [Hwi HB]]]]]]]]].
  set (sp := r_stepPattern d) in *. set (w := r_windowFunction d) in *.
  pose proof WP as WP0. destruct WP0 as [w1 w2 w3 w4 w5 w6 w7 w8 w9 w10].
  assert (Erb : nr (p_lm o lm) = rowsn (o_open_begin o) (nr lm)) by (rewrite p_lm_nr; reflexivity).
  assert (Hpos : 0 < rowsn (o_open_begin o) (nr lm)) by (unfold rowsn; destruct (o_open_begin o); lia).
  assert (Hob : o_open_begin o = true -> o_distance_only o' = false) by (intros Ho; rewrite Hdo; apply w9; exact Ho).
  assert (SOL : solution o lm sp w rules (Mat (nr (p_lm o lm)) (nc lm) cm) (Mat (nr (p_lm o lm)) (nc lm) dm) cmf smf win).
  { constructor; auto. }
  assert (Hsz : size_ok (nr (p_lm o lm)) (nc lm)) by (rewrite <- rows_used_p; exact w8).
  rewrite E in Hd. unfold finish_any in Hd.
  destruct (choose o (hint sp) (nr lm) (nc lm) (cmf (nr (p_lm o lm) - 1))) as [jm|e| | |] eqn:Ej; cbn [bind] in Hd; try discriminate.
  pose proof (choose_open_spec L o lm rules w win sp _ _ cmf smf (proj1 (proj2 (proj2 Hp))) SOL Hsz Hq Hoe (Fna Hoe) jm Ej) as [Hnj Hbest].
  rewrite Hnj in Hd.
  assert (Ejm : r_jmin d = jm /\ r_distance d = cmf (nr (p_lm o lm) - 1) jm /\
     (o_distance_only o = false -> exists mp, backtrack sp (Mat (nr (p_lm o lm)) (nc lm) dm) (Z.of_nat jm) = Ok mp /\ r_map d = Some (map_of (o_open_begin o) mp))).
  { destruct (o_distance_only o) eqn:Ed; cbn [bind] in Hd.
    - destruct (o_open_begin o && true); [discriminate|]. clearbody sp w. injection Hd as <-. cbn. repeat split; auto. discriminate.
    - destruct (backtrack sp _ _) as [mp| | | |]; cbn [bind] in Hd; try discriminate. rewrite Bool.andb_false_r in Hd.
      clearbody sp w. injection Hd as <-. cbn. repeat split; auto. intros _. exists mp. split; [reflexivity|]. unfold map_of. destruct (o_open_begin o); reflexivity. }
  destruct Ejm as [Ejm [Edist Emap]]. rewrite Erb in *.
  assert (Hna : String.eqb (hint sp) "NA" = false) by (apply String.eqb_neq; apply Fna; exact Hoe).
  rewrite Hna in Fn. split.
  - rewrite Ejm in *.
    destruct (leading_outcome cdist x y o lm sp rules w o' cdist' (nr lm) (jm + 1) cmf smf win WP Hig) as [[C _]|[_ [d' [Ed' [D1 [D2 [D3 [D4 D5]]]]]]]]; auto; try lia.
    { rewrite Erb. exact Hwi. } { rewrite Erb. exact HB. }
    { rewrite Nat.add_sub in C. congruence. }
    rewrite Nat.add_sub in *. exists d'. split; [exact Ed'|]. split; [congruence|]. split; [rewrite D2, Fn, Hna, Edist; reflexivity|].
    split; [exact D3|]. destruct (o_distance_only o) eqn:Ed.
    + rewrite (proj1 Fmap eq_refl). assert (Hx : r_map d' = None); [|exact Hx].
      assert (HC' : costs_of cdist' (NdArray (Nd2 (leading lm (nr lm) (jm + 1))) true true) None (leading lm (nr lm) (jm + 1))).
      { constructor; [reflexivity|apply leading_wf]. }
      assert (Hp' : pattern_rules (r_stepPattern d') rules) by (rewrite D4; exact Hp).
      apply (dtw_fields L _ _ _ _ _ _ _ HC' Ed' Hp'). exact Hdo.
    + destruct (D5 Hdo) as [ks [vs [ts [T [_ Em]]]]]. destruct (Emap eq_refl) as [mp [Eb Em']].
      rewrite (backtrack_path rules sp (rowsn (o_open_begin o) (nr lm)) (nc lm) smf _ jm ks vs ts) in Eb by auto.
      injection Eb as <-. congruence.
  - intros j Hj.
    destruct (leading_outcome cdist x y o lm sp rules w o' cdist' (nr lm) (j + 1) cmf smf win WP Hig) as [[_ C]|[Hjn [d' [Ed' [D1 [D2 _]]]]]]; auto; try lia.
    { rewrite Erb. exact Hwi. } { rewrite Erb. exact HB. }
    { rewrite C. reflexivity. }
    rewrite Ed'. rewrite Nat.add_sub in *. rewrite D2, Fn, Hna, Ejm, Edist. apply Hbest; auto.
Qed.

(** ** Closed begin: the result passes through optimal results *)
Theorem result_passes_through cdist x y o (lm : mat N) d rules o' cdist' mp :
  costs_of cdist x y lm -> dtw cdist x y o = Ok d -> pattern_rules (r_stepPattern d) rules -> 0 < nr lm ->
  o_open_begin o = false -> r_map d = Some mp -> ignores_sizes (r_windowFunction d) (r_windowArgs d) ->
  same_problem o o' -> o_open_end o' = false -> o_distance_only o' = false ->
  forall q a b, nth_error (index1s mp) q = Some a -> nth_error (index2s mp) q = Some b ->
  exists d' mp', dtw cdist' (NdArray (Nd2 (leading lm (Z.to_nat a + 1) (Z.to_nat b + 1))) true true) None o' = Ok d' /\
    r_map d' = Some mp' /\
    index1s mp' = firstn (q + 1) (index1s mp) /\ index2s mp' = firstn (q + 1) (index2s mp) /\
    stepsTaken mp' = firstn q (stepsTaken mp) /\
    (exists rest, index1 mp = index1 mp' ++ rest) /\ (exists rest, index2 mp = index2 mp' ++ rest) /\
    (forall cm, r_costMatrix d = Some cm -> mget cm (Z.to_nat a) (Z.to_nat b) = Some (r_distance d')).
Proof.
  intros HC Hd Hp Hq Hob Hmp Hig HS He' Hdo q a b Ha Hb.
  destruct (dtw_fields L _ _ _ _ _ _ _ HC Hd Hp) as [_ [_ [_ [_ [_ [Ekw [_ [Fj [_ [_ [_ [_ Fmap]]]]]]]]]]]].
  pose proof (ok_well_posed L _ _ _ _ _ _ _ HC Hd Hp Hq) as WP. rewrite Ekw in Hig.
  destruct (wp_finish_any L _ _ _ _ _ _ _ _ WP) as [cm [dm [cmf [smf [win [E [Rc [Rs [Hwi HB]]]]]]]]].
  set (sp := r_stepPattern d) in *. set (w := r_windowFunction d) in *.
  pose proof WP as WP0. destruct WP0 as [w1 w2 w3 w4 w5 w6 w7 w8 w9 w10].
  assert (Erb : nr (p_lm o lm) = nr lm) by (rewrite p_lm_nr, Hob; reflexivity).
  assert (Edo : o_distance_only o = false) by (destruct (o_distance_only o); [|reflexivity]; rewrite (proj1 Fmap eq_refl) in Hmp; discriminate).
  rewrite E in Hd. unfold finish_any in Hd. rewrite Erb in *.
  destruct (choose o (hint sp) (nr lm) (nc lm) (cmf (nr lm - 1))) as [jm|e| | |] eqn:Ej; cbn [bind] in Hd; try discriminate.
  assert (Hjm : jm < nc lm) by (eapply choose_bound; [apply w8|exact Ej]).
  destruct (isnan (cmf (nr lm - 1) jm)) eqn:Hnj; [discriminate|]. rewrite Edo in Hd.
  destruct (traced_exists rules (nr lm) (nc lm) (cell (p_lm o lm)) (p_seed o lm) win cmf smf (nr lm - 1) jm) as [ks [vs [ts [T HV]]]]; auto.
  { apply Hp. } { lia. }
  rewrite (backtrack_path rules sp (nr lm) (nc lm) smf _ jm ks vs ts) in Hd by (auto; reflexivity).
  cbn [bind] in Hd. rewrite Bool.andb_false_r, Hob in Hd.
  assert (Emp : mp = path_of ks vs ts (nr lm - 1, jm) /\ forall cmx, r_costMatrix d = Some cmx -> cmx = Mat (nr lm) (nc lm) cm).
  { clearbody sp w. injection Hd as <-. cbn in Hmp. injection Hmp as <-. split; [reflexivity|]. cbn. rewrite Hob.
    destruct (o_keep_internals o); intros cmx Ec; [injection Ec as <-; reflexivity|discriminate]. }
  destruct Emp as [-> Ecm]. unfold path_of, mapping_of in *. cbn [index1 index2 index1s index2s stepsTaken] in *.
  assert (Hvs : exists p, nth_error (vs ++ [(nr lm - 1, jm)]) q = Some p /\ a = query_ix p /\ b = ref_ix p).
  { rewrite nth_error_map in Ha, Hb. unfold point in *. destruct (nth_error (vs ++ _) q) as [p|]; [|discriminate]. exists p. split; [reflexivity|].
    cbn in Ha, Hb. split; congruence. }
  destruct Hvs as [[i j] [Hvq [-> ->]]]. unfold query_ix, ref_ix in *. cbn [fst snd] in *. rewrite !Nat2Z.id.
  assert (Hlen : List.length ks = List.length vs).
  { clear -T. induction T; [reflexivity|]. rewrite !app_length. cbn. lia. }
  (* the trace at (i,j) *)
  assert (Htr : exists ts0 rest, traced rules smf i j (firstn q ks) (firstn q vs) ts0 /\ ts ++ [(nr lm - 1, jm)] = ts0 ++ (i, j) :: rest /\
     i <= nr lm - 1 /\ j <= jm /\ isnan (cmf i j) = false /\ q <= List.length vs).
  { destruct (Nat.lt_ge_cases q (List.length vs)) as [Hlt|Hge].
    - rewrite nth_error_app1 in Hvq by exact Hlt. destruct (traced_prefix _ _ _ _ _ _ _ T _ _ _ Hvq) as [ts0 [rest [T0 [Et [Hi Hj]]]]].
      exists ts0, (rest ++ [(nr lm - 1, jm)]). split; [exact T0|]. split; [unfold point in *; rewrite Et, <- app_assoc; reflexivity|].
      repeat split; auto; [|lia]. apply HV. eapply nth_error_In; exact Hvq.
    - rewrite nth_error_app2 in Hvq by exact Hge. destruct (q - List.length vs) as [|q'] eqn:Eq; [|destruct q'; discriminate].
      cbn in Hvq. assert (Eqq : q = List.length vs) by lia. assert (i = nr lm - 1 /\ j = jm) as [-> ->] by (split; congruence).
      exists ts, []. rewrite Eqq at 2. rewrite firstn_all. rewrite Eqq, <- Hlen, firstn_all. repeat split; auto; lia. }
  destruct Htr as [ts0 [rest [T0 [Et [Hi [Hj [Hnn Hql]]]]]]].
  destruct (leading_outcome cdist x y o lm sp rules w o' cdist' (i + 1) (j + 1) cmf smf win WP Hig) as [[C _]|[_ [d' [Ed' [D1 [D2 [D3 [D4 D5]]]]]]]]; auto; try lia.
  { rewrite Erb. exact Hwi. } { rewrite Erb. exact HB. }
  { exfalso. rewrite Hob in C. cbn [rowsn] in C. rewrite !Nat.add_sub in C. congruence. }
  rewrite Hob in D1, D5. cbn [rowsn] in D1, D5. rewrite !Nat.add_sub in *.
  destruct (D5 Hdo) as [ks' [vs' [ts' [T' [_ Em]]]]]. destruct (traced_fun _ _ _ _ _ _ _ T0 _ _ _ T') as [-> [-> ->]].
  exists d'. eexists. split; [exact Ed'|]. split; [exact Em|]. cbn [map_of path_of mapping_of index1 index2 index1s index2s stepsTaken].
  assert (Hsnoc : firstn q vs ++ [(i, j)] = firstn (q + 1) (vs ++ [(nr lm - 1, jm)])).
  { rewrite Nat.add_1_r, (firstn_next _ _ _ Hvq), firstn_app. replace (q - List.length vs) with 0 by lia. cbn [firstn].
    rewrite app_nil_r. reflexivity. }
  unfold path_of, mapping_of. cbn [index1 index2 index1s index2s stepsTaken].
  unfold point in *. rewrite !firstn_map, <- Hsnoc. split; [reflexivity|]. split; [reflexivity|]. split; [reflexivity|].
  rewrite Et. split; [exists (map query_ix rest)|split; [exists (map ref_ix rest)|]].
  - rewrite <- map_app, <- app_assoc. reflexivity.
  - rewrite <- map_app, <- app_assoc. reflexivity.
  - intros cmx Ec. rewrite (Ecm cmx Ec). rewrite D1. apply mget_reps; [exact Rc|cbn [nr]; lia|cbn [nc]; lia].
Qed.

(** ** Open end: a longer reference *)
Lemma leading_leading (lm : mat N) n m n' m' : n' <= n -> m' <= m -> leading (leading lm n m) n' m' = leading lm n' m'.
Proof.
  intros Hn Hm. unfold leading at 1 3. f_equal. apply map_ext_in. intros [i j] Hij. apply indices_in in Hij. cbn [fst snd].
  apply leading_cell; lia.
Qed.

Theorem longer_reference cdist x y o (lm : mat N) sp rules w cdist' m d1 :
  well_posed cdist x y o lm sp rules w -> o_open_end o = true -> ignores_sizes w (o_window_args o) -> 0 < m <= nc lm ->
  dtw cdist' (NdArray (Nd2 (leading lm (nr lm) m)) true true) None o = Ok d1 ->
  exists d, dtw cdist x y o = Ok d /\ leb (r_normalizedDistance d) (r_normalizedDistance d1) = true.
Proof.
  intros WP Hoe Hig Hm Hd1. pose proof WP as WP0. destruct WP0 as [w1 w2 w3 w4 w5 w6 w7 w8 w9 w10].
  set (lm' := leading lm (nr lm) m) in *.
  assert (WP' : well_posed cdist' (NdArray (Nd2 lm') true true) None o lm' sp rules w).
  { constructor; auto.
    - constructor; [reflexivity|apply leading_wf].
    - right. split; reflexivity.
    - eapply total_ignores; [exact Hig| | |exact w6]; unfold rows_used, lm'; cbn [nr nc leading]; destruct (o_open_begin o); lia.
    - unfold lm', rows_used in *. cbn [nr nc leading]. destruct w8 as [A [B C]]. split; [exact A|]. split; [lia|]. destruct (o_open_begin o); nia. }
  assert (Hs1 : r_stepPattern d1 = sp /\ r_windowFunction d1 = w).
  { destruct (dtw_open_end_iff L _ _ _ _ _ _ _ _ WP' Hoe) as [[C _]|[d0 [E0 [Q1 [Q2 _]]]]]; [congruence|]. rewrite Hd1 in E0. injection E0 as <-. auto. }
  destruct Hs1 as [Hs1 Hw1].
  assert (HC' : costs_of cdist' (NdArray (Nd2 lm') true true) None lm') by (constructor; [reflexivity|apply leading_wf]).
  assert (Hp' : pattern_rules (r_stepPattern d1) rules) by (rewrite Hs1; exact w4).
  destruct (dtw_fields L _ _ _ _ _ _ _ HC' Hd1 Hp') as [_ [_ [_ [_ [_ [Ekw [_ [Fj _]]]]]]]].
  set (o' := mkOpts (o_step_pattern o) (o_window_type o) (o_window_args o) (o_keep_internals o) (o_distance_only o) false (o_open_begin o)).
  assert (HS : same_problem o o') by (repeat split; reflexivity).
  destruct (open_end_is_prefix cdist' _ None o lm' d1 rules o' cdist' HC' Hd1 Hp' ltac:(exact w7) Hoe) as [[d2 [Ed2 [_ [Q2 _]]]] _]; auto.
  { rewrite Hw1, Ekw. exact Hig. }
  unfold lm' in Ed2, Fj. cbn [nr nc leading] in Ed2, Fj. rewrite leading_leading in Ed2 by lia.
  destruct (dtw_open_end_iff L _ _ _ _ _ _ _ _ WP Hoe) as [[Hr Hun]|[d [Hd [Es [Ew _]]]]].
  - exfalso. destruct (wp_finish_any L _ _ _ _ _ _ _ _ WP) as [cm [dm [cmf [smf [win [E [Rc [Rs [Hwi HB]]]]]]]]].
    assert (SOL : solution o lm sp w rules (Mat (nr (p_lm o lm)) (nc lm) cm) (Mat (nr (p_lm o lm)) (nc lm) dm) cmf smf win).
    { constructor; auto. }
    destruct (leading_outcome cdist x y o lm sp rules w o' cdist' (nr lm) (r_jmin d1 + 1) cmf smf win WP Hig Hwi HB HS) as [[_ C]|[Hn _]]; auto; try lia.
    { intros Ho. apply w9. exact Ho. }
    { congruence. }
    rewrite Nat.add_sub in Hn.
    assert (Erb : nr (p_lm o lm) = rowsn (o_open_begin o) (nr lm)) by (rewrite p_lm_nr; reflexivity).
    assert (Hsz : size_ok (nr (p_lm o lm)) (nc lm)) by (rewrite <- rows_used_p; exact w8).
    destruct (p_best L o lm rules w win Hwi (proj1 (proj2 (proj2 w4))) sp _ _ cmf smf (r_jmin d1) Hsz SOL ltac:(lia)) as [B _].
    rewrite Erb in B. destruct (B Hn) as [[ks [vs [ts [W U]]]] _]. exact (Hun (r_jmin d1) ltac:(lia) _ _ _ _ W U).
  - exists d. split; [exact Hd|].
    assert (Hp : pattern_rules (r_stepPattern d) rules) by (rewrite Es; exact w4).
    assert (Ekwd : r_windowArgs d = o_window_args o) by apply (dtw_fields L _ _ _ _ _ _ _ w1 Hd Hp).
    destruct (open_end_is_prefix cdist x y o lm d rules o' cdist' w1 Hd Hp w7 Hoe) as [_ Hall]; auto.
    { rewrite Ew, Ekwd. exact Hig. }
    specialize (Hall (r_jmin d1) ltac:(lia)). rewrite Ed2 in Hall. rewrite <- Q2. apply Hall.
Qed.
End Traced.
