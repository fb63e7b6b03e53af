(** SimCalls.v - two calls whose cells correspond have corresponding outcomes. *)
From Coq Require Import ZifyBool ZifyNat.
From Verif Require Import Base Num StepPattern Window Core Backtrack Dtw Spec Api Tables Vocab Terms
  CoreProof DPProof DtwProof ApiProof ApiThms Uniq Thm2 Thm5 Thm7 Thm27 Derived Sim Thm31.
Open Scope string_scope.
Open Scope list_scope.
Open Scope nat_scope.

Section SimCalls.
Context {N N' : Num}.
Variable L : NumLaws N.
Variable L' : NumLaws N'.

Theorem sim_calls cdist cdist' x y x' y' (lm : mat N) (lm' : mat N') (o : opts N) (o' : opts N') sp sp' rules rules' w w'
  (C K : nat -> nat -> N -> N' -> Prop) :
  well_posed cdist x y o lm sp rules w -> well_posed cdist' x' y' o' lm' sp' rules' w' ->
  nr lm' = nr lm -> nc lm' = nc lm -> Forall2 same_shape rules rules' ->
  o_open_begin o = o_open_begin o' -> o_distance_only o = o_distance_only o' -> o_keep_internals o = o_keep_internals o' ->
  (forall i j, i < rows_used (o_open_begin o) lm -> j < nc lm ->
     (in_window w (o_window_args o) (rows_used (o_open_begin o) lm) (nc lm) i j <->
      in_window w' (o_window_args o') (rows_used (o_open_begin o) lm) (nc lm) i j)) ->
  (forall i j, i < nr (p_lm o lm) -> j < nc lm -> isnan (p_seed o lm i j) = isnan (p_seed o' lm' i j) /\ C i j (p_seed o lm i j) (p_seed o' lm' i j)) ->
  (forall q r r' i j a a', nth_error rules q = Some r -> nth_error rules' q = Some r' ->
     i < nr (p_lm o lm) -> j < nc lm -> r_di r <= i -> r_dj r <= j -> C (i - r_di r) (j - r_dj r) a a' ->
     K i j (charge (cell (p_lm o lm)) r i j a) (charge (cell (p_lm o' lm')) r' i j a')) ->
  (forall i j v v', K i j v v' -> (good v <-> good v')) ->
  (forall i j v v' u u', i < nr (p_lm o lm) -> j < nc lm -> K i j v v' -> K i j u u' -> good v -> good u ->
     leb v u = leb v' u' /\ ltb v u = ltb v' u') ->
  (forall i j v v', K i j v v' -> good v -> C i j v v') ->
  (forall i j v v', i < nr (p_lm o lm) -> j < nc lm -> C i j v v' -> isnan v = isnan v') ->
  (forall last last', (forall j, j < nc lm -> C (nr (p_lm o lm) - 1) j (last j) (last' j)) ->
     choose o (hint sp) (nr lm) (nc lm) last = choose o' (hint sp') (nr lm) (nc lm) last') ->
  (exists e, dtw cdist x y o = Raise e /\ dtw cdist' x' y' o' = Raise e) \/
  exists jm mp cm cm' dm cmf cmf', jm < nc lm /\
    dtw cdist x y o = Ok (result o lm (qr_of x y) sp w jm (cmf (nr (p_lm o lm) - 1) jm) mp (Mat (nr (p_lm o lm)) (nc lm) cm) dm) /\
    dtw cdist' x' y' o' = Ok (result o' lm' (qr_of x' y') sp' w' jm (cmf' (nr (p_lm o lm) - 1) jm) mp (Mat (nr (p_lm o lm)) (nc lm) cm') dm) /\
    isnan (cmf (nr (p_lm o lm) - 1) jm) = false /\
    reps (nr (p_lm o lm)) (nc lm) cm cmf /\ reps (nr (p_lm o lm)) (nc lm) cm' cmf' /\
    (forall i j, i < nr (p_lm o lm) -> j < nc lm -> C i j (cmf i j) (cmf' i j)).
Proof.
  intros WP WP' En Em Hshape Eob Edo Eki EW Hseed Hcharge Kgood Kord KC Cnan Hch.
  destruct (wp_finish_any L _ _ _ _ _ _ _ _ WP) as [cm [dm [cmf [smf [win [E [Rc [Rs [Hwi HB]]]]]]]]].
  destruct (wp_finish_any L' _ _ _ _ _ _ _ _ WP') as [cm' [dm' [cmf' [smf' [win' [E' [Rc' [Rs' [Hwi' HB']]]]]]]]].
  assert (Er : nr (p_lm o' lm') = nr (p_lm o lm)) by (rewrite !p_lm_nr, <- Eob, En; reflexivity).
  rewrite Er, Em in *.
  assert (Eru : rows_used (o_open_begin o) lm = nr (p_lm o lm)) by (rewrite p_lm_nr; reflexivity). rewrite Eru in *.
  destruct (wp_size _ _ _ _ _ _ _ _ WP) as [HR0 [HM0 _]]. rewrite Eru in HR0.
  pose proof (proj1 (proj2 (proj2 (wp_rules _ _ _ _ _ _ _ _ WP)))) as Hv.
  pose proof (wp_rules _ _ _ _ _ _ _ _ WP) as Hp. pose proof (wp_rules _ _ _ _ _ _ _ _ WP') as Hp'.
  set (R := nr (p_lm o lm)) in *. set (M := nc lm) in *.
  assert (Hwin : forall i j, i < R -> j < M -> win' i j = win i j).
  { intros i j Hi Hj. pose proof (Hwi i j Hi Hj) as A. pose proof (Hwi' i j Hi Hj) as B. pose proof (EW i j Hi Hj) as X.
    destruct (win i j), (win' i j); try reflexivity; exfalso.
    - assert (false = true) by (apply B, X, A; reflexivity). discriminate.
    - assert (false = true) by (apply A, X, B; reflexivity). discriminate. }
  assert (HB2 : bellman rules' R M (cell (p_lm o' lm')) (p_seed o' lm') win cmf' smf').
  { intros i j Hi Hj. pose proof (HB' i j Hi Hj) as Q. unfold cell_eq in *. rewrite <- (Hwin i j Hi Hj). exact Q. }
  assert (SIM : forall i j, i < R -> j < M -> C i j (cmf i j) (cmf' i j) /\ smf i j = smf' i j).
  { exact (bellman_sim L L' rules rules' Hshape Hv R M _ _ _ _ win C K Hseed Hcharge Kgood Kord KC cmf smf cmf' smf' HB HB2). }
  assert (R1 : R - 1 < R) by (clear -HR0; lia).
  assert (Ech : choose o (hint sp) (nr lm) M (cmf (R - 1)) = choose o' (hint sp') (nr lm) M (cmf' (R - 1))).
  { apply Hch. intros j Hj. apply SIM; assumption. }
  rewrite E, E'. unfold finish_any. rewrite En, Em. fold M. rewrite Ech.
  destruct (choose o' (hint sp') (nr lm) M (cmf' (R - 1))) as [jm|e| | |] eqn:Ej; cbn [bind].
  2: { left. exists e. auto. }
  all: try (exfalso; clear -Ej; unfold choose in Ej; destruct (o_open_end o'); [destruct (String.eqb _ _); [discriminate|]; unfold nanargmin in Ej; destruct (forallb _ _); [discriminate|]; destruct (map _ (map _ _)); discriminate|discriminate]).
  assert (Hjm : jm < M) by (apply (choose_bound _ _ _ _ _ _ HM0 Ej)).
  pose proof (SIM (R - 1) jm R1 Hjm) as [Hd _].
  rewrite <- (Cnan _ _ _ _ R1 Hjm Hd). destruct (isnan (cmf (R - 1) jm)) eqn:Enn; [left; exists no_path; auto|].
  destruct (traced_exists L _ _ _ _ _ _ _ _ (R - 1) jm Hv HB R1 Hjm Enn) as [ks [vs [ts [HT _]]]].
  assert (HT' : traced rules' smf' (R - 1) jm ks vs ts).
  { eapply traced_sim; [exact Hshape|exact HT|]. intros a b Ha Hb'. symmetry. apply SIM; [clear -R1 Ha; lia|clear -Hjm Hb'; lia]. }
  pose proof (backtrack_path L rules sp R M smf (Mat R M dm) jm ks vs ts Hp eq_refl eq_refl Rs HT HR0 Hjm) as B1.
  pose proof (backtrack_path L' rules' sp' R M smf' (Mat R M dm') jm ks vs ts Hp' eq_refl eq_refl Rs' HT' HR0 Hjm) as B2.
  rewrite <- Edo, <- Eob.
  assert (Edm : dm' = dm) by (eapply reps_inj; [exact Rs'|exact Rs|]; intros; symmetry; apply SIM; assumption). subst dm'.
  destruct (o_distance_only o) eqn:Ed; cbn [bind].
  - destruct (o_open_begin o) eqn:Eb; [left; exists AttributeError; auto|]. cbn [andb]. right.
    exists jm, None, cm, cm', (Mat R M dm), cmf, cmf'. repeat (split; [solve [assumption|reflexivity]|]). intros i j Hi Hj. apply SIM; assumption.
  - rewrite B1, B2. cbn [bind]. rewrite andb_false_r. right.
    eexists jm, _, cm, cm', (Mat R M dm), cmf, cmf'. split; [exact Hjm|]. split; [reflexivity|]. split; [reflexivity|].
    split; [exact Enn|]. split; [exact Rc|]. split; [exact Rc'|]. intros i j Hi Hj. apply SIM; assumption.
Qed.
End SimCalls.
