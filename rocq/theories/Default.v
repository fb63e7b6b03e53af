(** Default.v - the call dtw(x, y) with all keyword arguments left out (proofs for C79). *)
From Coq Require Import ZifyBool ZifyNat.
From Verif Require Import Base Num NumQ NumF NumFLaws NumQLaws StepPattern Window Core Backtrack Dtw Spec Api Tables Vocab Textbook Terms
  CoreProof DPProof DtwProof ApiProof ApiThms Thm1 Thm2 Thm3 Thm4 Thm5 Thm7 Thm9 Thm12 Thm31 Derived Derived2 SeriesSpec Thm27 Grow.
Open Scope string_scope.
Open Scope list_scope.
Open Scope nat_scope.

Section Default.
Context {N : Num}.
Variable L : NumLaws N.

Theorem default_call cdist x y (lm : mat N) d : costs_of cdist x y lm -> dtw cdist x y default_opts = Ok d -> 0 < nr lm ->
  textbook_optimum 2 lm d /\
  r_normalizedDistance d = div (r_distance d) (ofZ (Z.of_nat (nr lm) + Z.of_nat (nc lm))) /\
  r_N d = nr lm /\ r_M d = nc lm /\ r_stepPattern d = symmetric2 /\ r_windowFunction d = NoWindow /\ r_windowArgs d = [] /\
  r_openEnd d = false /\ r_openBegin d = false /\ r_jmin d = nc lm - 1 /\ r_costMatrix d = None.
Proof.
  intros HC Hd Hq.
  pose proof (ok_pattern _ _ _ _ _ _ HC Hd) as P. cbn [default_opts o_step_pattern] in P. apply pattern_of_ok in P. cbn in P. injection P as P.
  assert (Hp : pattern_rules (r_stepPattern d) (productions (textbook_productions 2))) by (rewrite <- P; apply (symmetric2_textbook L)).
  destruct (dtw_fields L _ _ _ _ _ _ _ HC Hd Hp) as [F1 [F2 [F3 [F4 [F5 [F6 [_ [F7 [F8 [F9 _]]]]]]]]]].
  assert (W : r_windowFunction d = NoWindow) by (apply window_of_canon in F5; cbn in F5; congruence).
  destruct (kept_matrix L _ _ _ _ _ _ _ HC Hd Hp Hq) as [_ [_ [_ [_ [_ [_ [_ [K _]]]]]]]].
  split.
  { eapply (symmetric2_optimum L); eauto; try reflexivity; congruence. }
  specialize (F8 eq_refl). rewrite F8, <- P in F9. rewrite F1 in *. cbn [default_opts o_open_end o_open_begin o_window_args o_keep_internals] in *.
  repeat split; auto.
  change (hint (@symmetric2 N)) with "N+M" in F9. cbn [String.eqb Ascii.eqb Bool.eqb] in F9. rewrite F9. unfold normalized. cbn [String.eqb Ascii.eqb Bool.eqb].
  f_equal. f_equal. lia.
Qed.

Lemma default_wp cdist x y (lm : mat N) : costs_of cdist x y lm -> native_array x y -> 0 < nr lm -> size_ok (nr lm) (nc lm) ->
  well_posed cdist x y default_opts lm symmetric2 (productions (textbook_productions 2)) NoWindow.
Proof.
  intros HC Hn Hq Hs. constructor; cbn [default_opts o_open_end o_open_begin o_window_args o_window_type o_step_pattern]; auto; try discriminate.
  - constructor. reflexivity.
  - apply (symmetric2_textbook L).
  - constructor.
  - exact I.
Qed.
End Default.

(** A default call on finite series always succeeds: binary64 with separate or fused multiply-add, costs up to 2^960. *)
Theorem default_found_binary64 cdist x y (lm : mat NumF) : costs_of cdist x y lm -> native_array x y -> 0 < nr lm -> size_ok (nr lm) (nc lm) ->
  moderate lm -> exists d, dtw cdist x y default_opts = Ok d.
Proof.
  intros HC Hn Hq Hs Hm.
  eapply unlimited_binary64 with (k := "symmetric2"); [apply (default_wp NumF_laws); eassumption|reflexivity|reflexivity| |reflexivity|exact Hm].
  cbn. tauto.
Qed.
Theorem default_found_fma cdist x y (lm : mat NumFMA) : costs_of cdist x y lm -> native_array x y -> 0 < nr lm -> size_ok (nr lm) (nc lm) ->
  moderate lm -> exists d, dtw cdist x y default_opts = Ok d.
Proof.
  intros HC Hn Hq Hs Hm.
  eapply unlimited_fma with (k := "symmetric2"); [apply (default_wp NumFMA_laws); eassumption|reflexivity|reflexivity| |reflexivity|exact Hm].
  cbn. tauto.
Qed.
