(** Thm32.v - fused multiply-add changes nothing for weights 0, 1, 2 (proofs for C62). *)
From Coq Require Import Reals ZifyBool ZifyNat.
From Verif Require Import Base Num NumF NumFLaws StepPattern Window Core Backtrack Dtw Spec Api Tables Vocab Terms
  CoreProof DPProof DtwProof ApiProof ApiThms Uniq Thm2 Thm5 Thm7 Thm27 Derived Sim IntSpec Thm31 SimCalls Accuracy Exact Fused FloatSpec.
From Flocq Require Import BinarySingleNaN.
Open Scope string_scope.
Open Scope list_scope.
Open Scope nat_scope.

Lemma double_laws a : NumLaws (double a).
Proof. destruct a; [exact NumFMA_laws|exact NumF_laws]. Qed.

Lemma nnf_leb v : nnf v <-> is_nan v = true \/ Bleb (f_ofZ 0) v = true.
Proof.
  unfold nnf. rewrite Bleb_iff. replace (X (f_ofZ 0)) with 0%R by reflexivity. split.
  - intros [H|[H1 H2]]; [left; exact H|right; repeat split; auto].
  - intros [H|[_ [H1 H2]]]; auto.
Qed.
Lemma f_weight a (q : Z * Z) : (@weight (double a) q : f64) = @weight NumF q.
Proof. reflexivity. Qed.

Lemma mac_step a b acc x q : wexact q = true -> nnf acc -> nnf x ->
  (@macc (double a) acc (weight q) x : f64) = @macc (double b) acc (weight q) x /\ nnf (@macc (double a) acc (weight q) x).
Proof.
  intros Hq Ha Hx. pose proof (mac_same acc x q Hq Ha Hx) as E.
  assert (P : forall c, (@macc (double c) acc (weight q) x : f64) = macF acc (@weight NumF q) x).
  { intros [|]; [symmetry; exact E|reflexivity]. }
  split; [rewrite !P; reflexivity|]. apply nnf_leb.
  destruct (is_nan (@macc (double a) acc (weight q) x)) eqn:En; [left; reflexivity|right].
  apply (law_macc_nonneg _ (double_laws a)); [| | |exact En].
  - apply nnf_leb in Ha. destruct Ha as [Ha|Ha]; [|exact Ha]. exfalso.
    pose proof (law_nan_macc _ (double_laws a) acc (weight q) x Ha) as C. cbn [isnan double NumG] in C. congruence.
  - unfold wexact in Hq. destruct q as [p r]. cbn [fst snd] in Hq. assert (r = 1%Z) as -> by lia. unfold weight. cbn [fst snd Z.eqb Pos.eqb].
    rewrite (law_le_ofZ _ (double_laws a)) by lia. lia.
  - apply nnf_leb in Hx. destruct Hx as [Hx|Hx]; [|exact Hx]. exfalso.
    rewrite P in En. unfold macF in En. destruct x; try discriminate. destruct (@weight NumF q), acc; discriminate.
Qed.

Lemma fold_mac a b (cost : nat -> nat -> f64) (l : list (nat * nat * (Z * Z))) i j v :
  (forall x, In x l -> wexact (snd x) = true) ->
  (forall x, In x l -> nnf (cost (i - fst (fst x)) (j - snd (fst x)))) -> nnf v ->
  let fa := fold_left (fun c y => @macc (double a) c (snd y) (cost (i - fst (fst y)) (j - snd (fst y)))) (map (fun y => (fst y, weight (snd y))) l) v in
  let fb := fold_left (fun c y => @macc (double b) c (snd y) (cost (i - fst (fst y)) (j - snd (fst y)))) (map (fun y => (fst y, weight (snd y))) l) v in
  (fa : f64) = fb /\ nnf fa.
Proof.
  revert v. induction l as [|x l IH]; intros v Hw Hc Hv; cbn [map fold_left]; [auto|]. cbn [fst snd].
  destruct (mac_step a b v (cost (i - fst (fst x)) (j - snd (fst x))) (snd x) (Hw x (or_introl eq_refl)) Hv (Hc x (or_introl eq_refl))) as [E Hn].
  rewrite <- E. apply IH; auto.
  - intros y Hy. apply Hw. right. exact Hy.
  - intros y Hy. apply Hc. right. exact Hy.
Qed.

Lemma choose_bits a b (o : opts (double a)) (o' : opts (double b)) h n m (last : nat -> f64) (last' : nat -> f64) :
  o_open_end o = o_open_end o' -> (forall j, j < m -> last j = last' j) ->
  @choose (double a) o h n m last = @choose (double b) o' h n m last'.
Proof.
  intros Eo E. unfold choose. rewrite <- Eo. destruct (o_open_end o); [|reflexivity]. destruct (String.eqb h "NA"); [reflexivity|].
  assert (Q : map (fun j => @nrm (double a) h n j (last j)) (seq 0 m) = (map (fun j => @nrm (double b) h n j (last' j)) (seq 0 m) : list f64)).
  { apply map_ext_in. intros j Hj. apply in_seq in Hj. rewrite E by lia. reflexivity. }
  rewrite Q. reflexivity.
Qed.

Lemma wexact_012 q : In q [(0, 1); (1, 1); (2, 1)]%Z -> wexact q = true.
Proof. intros [<-|[<-|[<-|[]]]]; reflexivity. Qed.

Lemma f_transfer a b cdist cdist' x y x' y' (g : mat f64) (o : fopts) (sp : steppat (double a)) (l : list wrule) (w : winfun (double a)) :
  @costs_of (double b) cdist' x' y' g -> native_array x' y' ->
  irules (f_pattern o) = Some l -> wgood l ->
  @well_posed (double a) cdist x y (f_opts a o) g sp (productions l) w ->
  exists (sp' : steppat (double b)) (w' : winfun (double b)),
    @well_posed (double b) cdist' x' y' (f_opts b o) g sp' (productions l) w' /\ hint sp = hint sp' /\
    forall i j n m, i < n -> j < m ->
      (in_window w (o_window_args (f_opts a o)) n m i j <-> in_window w' (o_window_args (f_opts b o)) n m i j).
Proof.
  intros Hco Hna Hl HG [C1 C2 C3 C4 C5 C6 C7 C8 C9 C10].
  assert (X : exists sp' : steppat (double b), pattern_of (o_step_pattern (f_opts b o)) sp' /\ pattern_rules sp' (productions l) /\ hint sp = hint sp').
  { unfold f_opts in *. cbn [o_step_pattern] in *. destruct (f_pattern o) as [k|l' h]; cbn [irules] in Hl.
    - inversion C3; subst. destruct (@predefined_object (double b) k l Hl) as [sp' [E' Em]]. exists sp'.
      split; [constructor; exact E'|]. split; [exact (wgood_rules (double_laws b) l sp' HG Em)|]. exact (hint_same k sp sp' H0 E').
    - injection Hl as ->. inversion C3; subst. exists (StepPat (table (productions l)) h).
      split; [constructor|]. split; [apply (wgood_rules (double_laws b) l); [exact HG|reflexivity]|reflexivity]. }
  assert (Y : exists w' : winfun (double b), window_of (o_window_type (f_opts b o)) w' /\
     (forall n m, window_total w' (o_window_args (f_opts b o)) n m) /\
     forall i j n m, i < n -> j < m ->
      (in_window w (o_window_args (f_opts a o)) n m i j <-> in_window w' (o_window_args (f_opts b o)) n m i j)).
  { clear C1 C2 C3 C4 C6 C7 C8 C9 C10 X Hco. unfold f_opts in *. cbn [o_window_type o_window_args] in *. destruct (f_window o) as [| |s|s|f].
    - inversion C5; subst. exists NoWindow. split; [constructor|]. split; [intros; exact I|]. intros. reflexivity.
    - inversion C5; subst. exists Itakura. split; [constructor|]. split; [intros n m i j _ _; eexists; reflexivity|]. intros. reflexivity.
    - inversion C5; subst. exists SakoeChiba. split; [constructor|]. split; [intros n m i j _ _; eexists; reflexivity|]. intros. reflexivity.
    - inversion C5; subst. exists SlantedBand. split; [constructor|]. split; [intros n m i j _ _; eexists; reflexivity|]. intros. reflexivity.
    - inversion C5; subst. exists (UserWin (fun i j n m _ => Ok (f i j n m))). split; [constructor|]. split; [intros n m i j _ _; eexists; reflexivity|].
      intros. reflexivity. }
  destruct X as [sp' [X1 [X2 X3]]]. destruct Y as [w' [Y1 [Y2 Y3]]]. exists sp', w'. split; [|split; [exact X3|exact Y3]].
  constructor; auto.
  - intros H. rewrite <- X3. apply C9. exact H.
  - intros H. rewrite <- X3. apply C10. exact H.
Qed.

Lemma f_cell_nn (g : mat f64) a i j : costs_nonneg_or_nan g -> nnf (@cell (double a) g i j).
Proof.
  intros H. change (@cell (double a) g i j) with (match @mget f64 g i j with Some v => v | None => B754_nan : f64 end). destruct (mget g i j) as [v|] eqn:E; [|left; reflexivity].
  apply nnf_leb. apply (H v). unfold mget in E. destruct (_ && _); [|discriminate]. eapply nth_error_In. exact E.
Qed.

Lemma reps_eq {A} n m (l l' : list A) f f' : reps n m l f -> reps n m l' f' -> (forall i j, i < n -> j < m -> f i j = f' i j) -> l = l'.
Proof. apply reps_inj. Qed.

Theorem fused_any a b cdist cdist' x y x' y' (g : mat f64) (o : fopts) (l : list wrule) (d : DTW (double a)) :
  @costs_of (double a) cdist x y g -> @costs_of (double b) cdist' x' y' g -> native_array x' y' ->
  irules (f_pattern o) = Some l -> wgood l -> weights_012 l -> 0 < nr g -> costs_nonneg_or_nan g ->
  dtw cdist x y (f_opts a o) = Ok d ->
  exists d' : DTW (double b), dtw cdist' x' y' (f_opts b o) = Ok d' /\ same_bits d d'.
Proof.
  intros Hco Hco' Hna Hl HG HW Hr HC Hd.
  pose proof (ok_pattern _ _ _ _ _ _ Hco Hd) as Hpo.
  assert (Hp : pattern_rules (r_stepPattern d) (productions l)).
  { unfold f_opts in Hpo. cbn [o_step_pattern] in Hpo. destruct (f_pattern o) as [kk|l' h]; cbn [irules] in Hl.
    - inversion Hpo; subst. eapply (named_rules (double_laws a)); eauto.
    - injection Hl as ->. inversion Hpo; subst. apply (wgood_rules (double_laws a) l); [exact HG|reflexivity]. }
  pose proof (ok_well_posed (double_laws a) _ _ _ _ _ _ _ Hco Hd Hp Hr) as WP.
  destruct (f_transfer a b cdist cdist' x y x' y' g o _ l _ Hco' Hna Hl HG WP) as [sp' [w' [WP' [Eh EW]]]].
  pose proof (costs_of_wf _ _ _ _ Hco) as Hwf.
  assert (PC : forall c i j, i < nr (p_lm (f_opts c o) (g : mat (double c))) -> j < nc g ->
     (cell (p_lm (f_opts c o) (g : mat (double c))) i j : f64) =
     if f_open_begin o then if i =? 0 then f_ofZ 0 else @cell NumF g (i - 1) j else @cell NumF g i j).
  { intros c i j Hi Hj. rewrite p_lm_nr in Hi. unfold p_lm. cbn [f_opts o_open_begin] in *. destruct (f_open_begin o); [|reflexivity].
    rewrite padded_cell by (try exact Hwf; auto). destruct (i =? 0); reflexivity. }
  assert (Er : forall c, nr (p_lm (f_opts c o) (g : mat (double c))) = nr (p_lm (f_opts a o) (g : mat (double a)))).
  { intros c. rewrite !p_lm_nr. reflexivity. }
  assert (N0 : nnf (f_ofZ 0)) by (right; split; [reflexivity|replace (X (f_ofZ 0)) with 0%R by reflexivity; apply Rle_refl]).
  set (C := fun (i j : nat) (v v' : f64) => v = v' /\ nnf v).
  destruct (sim_calls (double_laws a) (double_laws b) cdist cdist' x y x' y' g g (f_opts a o) (f_opts b o) _ sp' (productions l) (productions l) _ w' C C
     WP WP' eq_refl eq_refl (shapes l) eq_refl eq_refl eq_refl) as [[e [E _]]|Q].
  - intros i j Hi Hj. apply EW; assumption.
  - intros i j Hi Hj. unfold p_seed, C. cbn [f_opts o_open_begin]. destruct (f_open_begin o).
    + unfold pseed. destruct (i =? 0); (split; [reflexivity|]); (split; [reflexivity|]); [exact N0|left; reflexivity].
    + unfold seed0. destruct ((i =? 0) && (j =? 0)); (split; [reflexivity|]); (split; [reflexivity|]); [apply (f_cell_nn g a); exact HC|left; reflexivity].
  - intros q r r' i j u u' Hr1 Hr2 Hi Hj Hdi Hdj [<- Hu].
    unfold productions in Hr1, Hr2. rewrite nth_error_map in Hr1, Hr2. destruct (nth_error l q) as [wr|] eqn:Ewr; [|discriminate].
    injection Hr1 as <-. injection Hr2 as <-. pose proof (nth_error_In _ _ Ewr) as Hin.
    assert (Wv : wvalid wr = true) by (destruct HG as [_ [G _]]; rewrite forallb_forall in G; apply G; exact Hin).
    destruct (wvalid_parts wr Wv) as [Wd _].
    unfold charge, production, C. cbn [r_add].
    assert (CE : forall ii jj, ii <= i -> jj <= j -> cell (p_lm (f_opts b o) (g : mat (double b))) ii jj = cell (p_lm (f_opts a o) (g : mat (double a))) ii jj).
    { intros ii jj H1 H2. pose proof (Nat.le_lt_trans _ _ _ H1 Hi) as I1. pose proof (Nat.le_lt_trans _ _ _ H2 Hj) as I2.
      pose proof (PC a ii jj I1 I2) as P1. rewrite <- (Er b) in I1. pose proof (PC b ii jj I1 I2) as P2. etransitivity; [exact P2|symmetry; exact P1]. }
    pose proof (fold_mac a b (cell (p_lm (f_opts a o) (g : mat (double a)))) (w_add wr) i j u) as FM. cbv zeta in FM.
    destruct FM as [F1 F2].
    + intros z Hz. apply wexact_012. exact (HW wr z Hin Hz).
    + intros z Hz. rewrite (PC a _ _ (Nat.le_lt_trans _ _ _ (Nat.le_sub_l _ _) Hi) (Nat.le_lt_trans _ _ _ (Nat.le_sub_l _ _) Hj)). destruct (f_open_begin o); [destruct (_ =? 0); [exact N0|]|]; apply (f_cell_nn g false); exact HC.
    + exact Hu.
    + split; [|exact F2]. etransitivity; [exact F1|].
      clear -CE. assert (A : forall (ll : list (nat * nat * double b)) v,
        fold_left (fun c y => @macc (double b) c (snd y) (cell (p_lm (f_opts a o) (g : mat (double a))) (i - fst (fst y)) (j - snd (fst y)))) ll v =
        fold_left (fun c y => @macc (double b) c (snd y) (cell (p_lm (f_opts b o) (g : mat (double b))) (i - fst (fst y)) (j - snd (fst y)))) ll v).
      { induction ll as [|z ll IH]; intros v; cbn [fold_left]; [reflexivity|]. rewrite IH, CE by lia. reflexivity. }
      apply A.
  - intros i j v v' [<- _]. reflexivity.
  - intros i j v v' u u' _ _ [<- _] [<- _] _ _. split; reflexivity.
  - intros i j v v' H _. exact H.
  - intros i j v v' _ _ [<- _]. reflexivity.
  - intros last last' H. rewrite Eh. apply choose_bits; [reflexivity|]. intros j Hj. apply H. exact Hj.
  - rewrite E in Hd. discriminate.
  - destruct Q as [jm [mp [cm [cm' [dm [cmf [cmf' [Hj [E1 [E2 [Hn [R1 [R2 HS]]]]]]]]]]]]].
    rewrite Hd in E1. injection E1 as E1. rewrite E2. eexists. split; [reflexivity|].
    assert (Ecm : cm = cm').
    { eapply reps_inj; [exact R1|exact R2|]. intros i j Hi Hj'. apply HS; assumption. }
    assert (Hr0 : nr (p_lm (f_opts a o) (g : mat (double a))) - 1 < nr (p_lm (f_opts a o) (g : mat (double a)))) by (apply Nat.sub_lt; [|exact Nat.lt_0_1]; rewrite p_lm_nr; destruct (o_open_begin (f_opts a o)); [rewrite Nat.add_comm; apply Nat.le_add_r|exact Hr]).
    destruct (HS _ jm Hr0 Hj) as [Ev _].
    rewrite E1. unfold same_bits, result. cbn [r_N r_M r_jmin r_map r_directionMatrix r_distance r_costMatrix r_normalizedDistance].
    rewrite <- Ev, <- Ecm, <- Eh. repeat split.
Qed.

(** A call on a matrix. *)
Theorem fused_same a b cdist cdist' (g : mat f64) (o : fopts) (l : list wrule) d :
  irules (f_pattern o) = Some l -> wgood l -> weights_012 l ->
  List.length (dat g) = nr g * nc g -> 0 < nr g -> costs_nonneg_or_nan g ->
  f_dtw a cdist g o = Ok d ->
  exists d', f_dtw b cdist' g o = Ok d' /\ same_bits d d'.
Proof.
  intros Hl HG HW Hlen Hr HC Hd.
  apply (fused_any a b cdist cdist' (NdArray (Nd2 (g : mat (double a))) true true) None (NdArray (Nd2 (g : mat (double b))) true true) None g o l); auto.
  - apply costs_one; [reflexivity|exact Hlen].
  - apply costs_one; [reflexivity|exact Hlen].
  - split; reflexivity.
Qed.

Lemma named_012 kn l : In kn integer_weights -> lookup kn predefined = Some l -> weights_012 l.
Proof.
  intros Hin Hl.
  assert (A : forallb (fun kn => match lookup kn predefined with
      | Some l => forallb (fun r => forallb (fun a => wexact (snd a)) (w_add r)) l
      | None => false end) integer_weights = true) by (vm_compute; reflexivity).
  rewrite forallb_forall in A. specialize (A kn Hin). rewrite Hl in A. rewrite forallb_forall in A.
  intros r x Hr Hx. specialize (A r Hr). rewrite forallb_forall in A. specialize (A x Hx).
  destruct (snd x) as [p q]. unfold wexact in A. cbn [fst snd] in A. assert (q = 1%Z) as -> by lia.
  assert (p = 0 \/ p = 1 \/ p = 2)%Z as [->|[->| ->]] by lia; cbn; auto.
Qed.
Theorem fused_same_named a b cdist cdist' (g : mat f64) (o : fopts) kn d :
  f_pattern o = IName kn -> In kn integer_weights ->
  List.length (dat g) = nr g * nc g -> 0 < nr g -> costs_nonneg_or_nan g ->
  f_dtw a cdist g o = Ok d ->
  exists d', f_dtw b cdist' g o = Ok d' /\ same_bits d d'.
Proof.
  intros Hp Hin Hlen Hr HC Hd.
  assert (X : exists l, lookup kn predefined = Some l).
  { assert (A : forallb (fun kn => match lookup kn predefined with Some _ => true | None => false end) integer_weights = true) by (vm_compute; reflexivity).
    rewrite forallb_forall in A. specialize (A kn Hin). destruct (lookup kn predefined) as [l|]; [exists l; reflexivity|discriminate]. }
  destruct X as [l El].
  apply (fused_same a b cdist cdist' g o l d); auto.
  - rewrite Hp. exact El.
  - eapply predefined_good; eauto.
  - eapply named_012; eauto.
Qed.

(** Two series with the same pairwise distances. *)
Theorem fused_series a b cdist cdist' x y x' y' xm ym xm' ym' (g : mat f64) (o : fopts) l d :
  matrix_of (nd_val x) = Some xm -> matrix_of (nd_val y) = Some ym -> cdist xm ym = Ok (g : mat (double a)) ->
  matrix_of (nd_val x') = Some xm' -> matrix_of (nd_val y') = Some ym' -> cdist' xm' ym' = Ok (g : mat (double b)) ->
  irules (f_pattern o) = Some l -> wgood l -> weights_012 l ->
  List.length (dat g) = nr g * nc g -> 0 < nr g -> costs_nonneg_or_nan g ->
  dtw cdist x (Some y) (f_opts a o) = Ok d ->
  exists d', dtw cdist' x' (Some y') (f_opts b o) = Ok d' /\ same_bits d d'.
Proof.
  intros X1 X2 X3 Y1 Y2 Y3 Hl HG HW Hlen Hr HC Hd.
  apply (fused_any a b cdist cdist' x (Some y) x' (Some y') g o l); auto.
  - exact (costs_two cdist x y xm ym _ X1 X2 X3 Hlen).
  - exact (costs_two cdist' x' y' xm' ym' _ Y1 Y2 Y3 Hlen).
  - exact I.
Qed.
