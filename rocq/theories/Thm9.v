(** Thm9.v - slope limits, named patterns (proofs). *)
From Coq Require Import ZifyBool ZifyNat.
From Verif Require Import Base Num StepPattern Window Core Backtrack Dtw Spec Api Tables Vocab Terms Bound
  CoreProof DPProof DtwProof ApiProof ApiThms WalkGeom Uniq Thm1 Thm2 Thm3 Thm4 Thm5 Thm7 Feas.
Open Scope string_scope.
Open Scope list_scope.
Open Scope nat_scope.





Definition wlim (s : limits) (r : wrule) : bool :=
  (lo_num s * w_di r <=? lo_den s * w_dj r) && (hi_den s * w_dj r <=? hi_num s * w_di r).
Definition wmove (l : list wrule) (a b : nat) : bool := existsb (fun r => (w_di r =? a) && (w_dj r =? b)) l.

Lemma lookup_In {A} k (t : list (string * A)) v : lookup k t = Some v -> In (k, v) t.
Proof.
  induction t as [|[k' v'] t IH]; [discriminate|]. rewrite lookup_cons.
  destruct (String.eqb_spec k k'); [|right; auto]. intros H. injection H as ->. subst. left. reflexivity.
Qed.

Lemma predefined_light k l : lookup k predefined = Some l -> forallb wlight l = true.
Proof.
  assert (G : forallb (fun kl => forallb wlight (snd kl)) predefined = true) by (vm_compute; reflexivity).
  rewrite forallb_forall in G. intros H. apply (G (k, l)). apply lookup_In. exact H.
Qed.

Section Thm9.
Context {N : Num}.
Variable L : NumLaws N.

Lemma limits_rules k s l : In (k, s) slope_limits -> lookup k predefined = Some l ->
  forall r, In r (@productions N l) ->
    lo_num s * r_di r <= lo_den s * r_dj r /\ hi_den s * r_dj r <= hi_num s * r_di r.
Proof.
  intros Hs Hl.
  assert (G : forallb (fun ks => match lookup (fst ks) predefined with
              | Some l => forallb (wlim (snd ks)) l | None => false end) slope_limits = true) by (vm_compute; reflexivity).
  rewrite forallb_forall in G. specialize (G _ Hs). cbn [fst snd] in G. rewrite Hl, forallb_forall in G.
  intros r Hr. apply in_map_iff in Hr. destruct Hr as [w [<- Hw]]. specialize (G _ Hw). unfold wlim in G.
  cbn [production r_di r_dj]. lia.
Qed.

Lemma wmove_has l a b : wmove l a b = true -> has_move (@productions N l) a b.
Proof.
  unfold wmove. intros H. apply existsb_exists in H. destruct H as [r [Hr H]].
  exists (production r). split; [apply in_map; exact Hr|]. cbn [production r_di r_dj]. lia.
Qed.

(** Every limit is attained: lengths within the limits can be aligned. *)
Definition wcomplete (s : limits) (l : list wrule) : bool :=
  match s with
  | Limits 0 1 2 1 => wmove l 1 0 && wmove l 1 1 && wmove l 1 2
  | Limits 1 2 2 1 => wmove l 1 1 && wmove l 1 2 && wmove l 2 1
  | Limits 2 3 3 2 => wmove l 1 1 && wmove l 2 3 && wmove l 3 2
  | Limits 1 3 3 1 => wmove l 1 1 && wmove l 1 2 && wmove l 1 3 && wmove l 2 1 && wmove l 3 1
  | Limits 1 1 1 1 => wmove l 1 1
  | _ => false
  end.

Lemma limits_reach k s l n m : In (k, s) slope_limits -> lookup k predefined = Some l ->
  0 < n -> 0 < m -> within_limits s n m -> reach (@productions N l) (n - 1) (m - 1).
Proof.
  intros Hs Hl Hn Hm [W1 W2].
  assert (G : forallb (fun ks => match lookup (fst ks) predefined with
              | Some l => wcomplete (snd ks) l | None => false end) slope_limits = true) by (vm_compute; reflexivity).
  rewrite forallb_forall in G. specialize (G _ Hs). cbn [fst snd] in G. rewrite Hl in G.
  assert (C : s = Limits 0 1 2 1 \/ s = Limits 1 2 2 1 \/ s = Limits 2 3 3 2 \/ s = Limits 1 3 3 1 \/ s = Limits 1 1 1 1).
  { clear -Hs. cbn [In slope_limits] in Hs. repeat (destruct Hs as [Hs|Hs]; [injection Hs as _ <-; tauto|]). destruct Hs. }
  destruct C as [->|[->|[->|[->| ->]]]]; cbn [lo_num lo_den hi_num hi_den wcomplete] in *;
    repeat (apply andb_prop in G; let G' := fresh "G" in destruct G as [G G']; apply wmove_has in G');
    apply wmove_has in G.
  - apply reach_0_2; auto. lia.
  - apply reach_12_2; auto; lia.
  - apply reach_23_32; auto; lia.
  - apply reach_13_3; auto; lia.
  - replace (m - 1) with (n - 1) by lia. apply reach_diag; auto.
Qed.

Lemma unlimited_reach k l n m : In k unlimited -> lookup k predefined = Some l -> reach (@productions N l) n m.
Proof.
  intros Hk Hl.
  assert (G : forallb (fun k => match lookup k predefined with
              | Some l => wmove l 1 0 && wmove l 0 1 | None => false end) unlimited = true) by (vm_compute; reflexivity).
  rewrite forallb_forall in G. specialize (G _ Hk). rewrite Hl in G. apply andb_prop in G. destruct G as [G1 G2].
  apply reach_free; apply wmove_has; assumption.
Qed.

(** Every named pattern is in one of the two lists. *)
Lemma all_named k l : lookup k predefined = Some l -> In k unlimited \/ exists s, In (k, s) slope_limits.
Proof.
  intros H. apply lookup_In in H.
  assert (G : forallb (fun kl => existsb (String.eqb (fst kl)) unlimited ||
       existsb (fun ks => String.eqb (fst kl) (fst ks)) slope_limits) predefined = true) by (vm_compute; reflexivity).
  rewrite forallb_forall in G. specialize (G _ H). cbn [fst] in G. apply orb_prop in G. destruct G as [G|G]; [left|right];
    apply existsb_exists in G.
  - destruct G as [k' [G1 G2]]. apply String.eqb_eq in G2. subst. exact G1.
  - destruct G as [[k' s] [G1 G2]]. apply String.eqb_eq in G2. cbn [fst] in G2. subst. eauto.
Qed.

(** ** Consequences for dtw() *)

(** A successful closed-begin call respects the limits (up to the end column). *)
Theorem limits_respected cdist x y o (lm : mat N) d k s sp :
  costs_of cdist x y lm -> dtw cdist x y o = Ok d -> 0 < nr lm ->
  In (k, s) slope_limits -> lookup k pattern_table = Some sp -> r_stepPattern d = sp ->
  o_open_begin o = false ->
  within_limits s (nr lm) (r_jmin d + 1).
Proof.
  intros HC H Hn Hs Hk Esp Hb.
  destruct (predefined_rules L _ _ Hk) as [l [Hl Hp]]. rewrite <- Esp in Hp.
  pose proof (dtw_best L _ _ _ _ _ _ _ HC H Hp) as [[ks [vs [ts [W U]]]] _].
  pose proof (limits_rules k s l Hs Hl) as R.
  destruct (slope_lower _ _ _ _ _ _ _ _ _ _ (lo_num s) (lo_den s) (fun r Hr => proj1 (R r Hr)) W) as [j0 [E0 [E1 E2]]].
  destruct (slope_upper _ _ _ _ _ _ _ _ _ _ (hi_num s) (hi_den s) (fun r Hr => proj2 (R r Hr)) W) as [j0' [E0' [E1' E2']]].
  rewrite Hb in *. subst j0 j0'. unfold within_limits. replace (r_jmin d + 1 - 1) with (r_jmin d - 0) by lia. lia.
Qed.

(** Outside the limits every closed-end call raises, whatever costs and window. *)
Theorem limits_exceeded cdist x y o (lm : mat N) k s sp rules w :
  well_posed cdist x y o lm sp rules w -> o_open_begin o = false -> o_open_end o = false ->
  In (k, s) slope_limits -> lookup k pattern_table = Some sp ->
  ~ within_limits s (nr lm) (nc lm) -> dtw cdist x y o = Raise no_path.
Proof.
  intros WP Hb He Hs Hk Hw.
  destruct (dtw_closed_end_iff L _ _ _ _ _ _ _ _ WP He) as [[H _]|[d [H [Esp [_ _]]]]]; [exact H|].
  exfalso. apply Hw.
  pose proof (limits_respected cdist x y o lm d k s sp (wp_costs _ _ _ _ _ _ _ _ WP) H (wp_query _ _ _ _ _ _ _ _ WP) Hs Hk Esp Hb) as R.
  destruct (predefined_rules L _ _ Hk) as [l [Hl Hp]]. rewrite <- Esp in Hp.
  destruct (dtw_fields L _ _ _ _ _ _ _ (wp_costs _ _ _ _ _ _ _ _ WP) H Hp) as [_ [_ [_ [_ [_ [_ [_ [_ [J _]]]]]]]]].
  rewrite (J He) in R. pose proof (wp_size _ _ _ _ _ _ _ _ WP) as [_ [Q _]].
  replace (nc lm - 1 + 1) with (nc lm) in R by lia. exact R.
Qed.

Variable bnd : Z -> N -> Prop.
Variable BL : BoundLaws N bnd.

(** Within the limits, without a window and with moderate costs, the call succeeds. *)
Theorem limits_sufficient cdist x y o (lm : mat N) k s sp rules :
  well_posed cdist x y o lm sp rules NoWindow -> o_open_begin o = false -> o_open_end o = false ->
  In (k, s) slope_limits -> lookup k pattern_table = Some sp -> all_moderate bnd lm ->
  ((exists d, dtw cdist x y o = Ok d) <-> within_limits s (nr lm) (nc lm)).
Proof.
  intros WP Hb He Hs Hk Hm. split.
  - intros [d H].
    assert (Dec : within_limits s (nr lm) (nc lm) \/ ~ within_limits s (nr lm) (nc lm)) by (unfold within_limits; lia).
    destruct Dec as [D|D]; [exact D|]. exfalso.
    rewrite (limits_exceeded _ _ _ _ _ _ _ _ _ _ WP Hb He Hs Hk D) in H. discriminate.
  - intros D. destruct (predefined_rules L _ _ Hk) as [l [Hl Hp]].
    assert (WP' : well_posed cdist x y o lm sp (productions l) NoWindow) by (destruct WP; constructor; auto).
    eapply (feasible_closed_end L bnd BL); eauto.
    { eapply predefined_good; exact Hl. } { eapply predefined_light; exact Hl. }
    rewrite Hb. unfold admissible, end_cell. pose proof (wp_query _ _ _ _ _ _ _ _ WP). pose proof (wp_size _ _ _ _ _ _ _ _ WP) as [_ [Q _]].
    apply reach_closed_walk; auto. eapply limits_reach; eauto.
Qed.

(** Patterns without a limit always succeed on moderate costs. *)
Theorem unlimited_succeeds cdist x y o (lm : mat N) k sp rules :
  well_posed cdist x y o lm sp rules NoWindow -> o_open_begin o = false -> o_open_end o = false ->
  In k unlimited -> lookup k pattern_table = Some sp -> all_moderate bnd lm ->
  exists d, dtw cdist x y o = Ok d.
Proof.
  intros WP Hb He Hs Hk Hm. destruct (predefined_rules L _ _ Hk) as [l [Hl Hp]].
  assert (WP' : well_posed cdist x y o lm sp (productions l) NoWindow) by (destruct WP; constructor; auto).
  eapply (feasible_closed_end L bnd BL); eauto.
  { eapply predefined_good; exact Hl. } { eapply predefined_light; exact Hl. }
  rewrite Hb. unfold admissible, end_cell. pose proof (wp_query _ _ _ _ _ _ _ _ WP). pose proof (wp_size _ _ _ _ _ _ _ _ WP) as [_ [Q _]].
  apply reach_closed_walk; auto. eapply unlimited_reach; eauto.
Qed.

End Thm9.
