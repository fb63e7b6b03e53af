(** Thm20.v - two-way and three-way plots (C46). *)
From Coq Require Import ZifyBool ZifyNat.
From Verif Require Import Base Num StepPattern Window Core Backtrack Dtw Spec Api Tables Vocab Terms
  CoreProof DtwProof ApiProof WalkGeom ApiThms Thm1 Thm3 Thm4 Thm10 Derived Warp WarpSpec WarpProof NumQ NumQLaws Laws2 Thm16 Thm17 Thm18 Plot PlotSpec Laws3 Thm19.
Open Scope string_scope.
Open Scope list_scope.
Open Scope Z_scope.

Section Guides.
Context {N : Num} (L : NumLaws N) (L2 : NumLaws2 N).

Lemma trunc_int64 (v : N) z : trunc v = Some z -> 0 <= z <= 2 ^ 53 -> np_int64 v = z.
Proof.
  intros E H. unfold np_int64. rewrite E. unfold INT64_MIN. destruct (_ && _) eqn:G; [reflexivity|lia].
Qed.

Lemma floor_le i a k : 0 <= i <= k -> 0 <= a -> 1 <= k -> 0 <= i * a / k <= a.
Proof.
  intros Hi Ha Hk. split; [apply Z.div_pos; nia|].
  apply Z.div_le_upper_bound; [lia|]. nia.
Qed.

Lemma diagonal_trunc len k i : 1 <= len -> 2 <= k -> len * k <= 2 ^ 51 -> 0 <= i < k ->
  exists z, trunc (@diagonal_value N k len i) = Some z /\ 0 <= z <= len - 1 /\
    i * (len - 1) / (k - 1) - 1 <= z <= i * (len - 1) / (k - 1) /\
    (i = 0 -> z = 0) /\ (i = k - 1 -> z = len - 1).
Proof.
  intros Hl Hk Hlk Hi. assert (len <= 2 ^ 51) by nia. assert (k <= 2 ^ 51) by nia.
  pose proof (floor_le i (len - 1) (k - 1) ltac:(lia) ltac:(lia) ltac:(lia)) as F.
  unfold diagonal_value. destruct (i =? k - 1) eqn:Ei.
  - destruct (i =? 0) eqn:E0; [lia|]. exists (len - 1). split; [apply (law_trunc_ofZ N L); lia|].
    assert (i = k - 1) by lia. subst i. assert (Q : (k - 1) * (len - 1) / (k - 1) = len - 1) by (rewrite Z.mul_comm; apply Z.div_mul; lia).
    rewrite Q. repeat split; lia.
  - destruct (len =? 1) eqn:El.
    + exists 0. split; [apply (law_mul_zero N L2); apply (law_frac_fin N L); lia|].
      assert (len = 1) by lia. subst len. assert (Q : i * (1 - 1) / (k - 1) = 0) by (replace (i * (1 - 1)) with 0 by lia; apply Z.div_0_l; lia).
      rewrite Q. repeat split; lia.
    + destruct (law_spread_trunc N L2 i (len - 1) (k - 1)) as [z [E [P0 P1]]]; try lia; try nia.
      exists z. split; [exact E|]. split; [lia|]. split; [lia|]. split; [|lia].
      intros ->. replace (0 * (len - 1)) with 0 in P1 by lia. rewrite Z.div_0_l in P1 by lia. lia.
Qed.

Lemma diagonal_mono len k i i' z z' : 1 <= len -> 2 <= k -> len * k <= 2 ^ 51 -> 0 <= i -> i <= i' < k ->
  trunc (@diagonal_value N k len i) = Some z -> trunc (@diagonal_value N k len i') = Some z' -> z <= z'.
Proof.
  intros Hl Hk Hlk Hi Hi' E E'. assert (len <= 2 ^ 51) by nia. assert (k <= 2 ^ 51) by nia.
  destruct (Z.eq_dec i' (k - 1)) as [->|Hn].
  - destruct (diagonal_trunc len k i) as [y [A [B _]]]; try lia.
    destruct (diagonal_trunc len k (k - 1)) as [y' [A' [_ [_ [_ B']]]]]; try lia.
    rewrite E in A. injection A as <-. rewrite E' in A'. injection A' as <-. specialize (B' eq_refl). lia.
  - destruct (Z.eq_dec len 1) as [->|Hl1].
    + destruct (diagonal_trunc 1 k i) as [y [A [B _]]]; try lia.
      destruct (diagonal_trunc 1 k i') as [y' [A' [B' _]]]; try lia.
      rewrite E in A. injection A as <-. rewrite E' in A'. injection A' as <-. lia.
    + unfold diagonal_value in *. destruct (i =? k - 1) eqn:Q1; [lia|]. destruct (i' =? k - 1) eqn:Q2; [lia|].
      destruct (len =? 1) eqn:Q3; [lia|].
      eapply (law_trunc_mono N L2); [|exact E|exact E']. apply (law_spread_mono N L2); try lia; nia.
Qed.

Lemma linspace_spread len k : 1 <= len -> 0 <= k -> len * k <= 2 ^ 51 -> k <= 2 ^ 51 ->
  exists l, @linspace_int N (len - 1) k = Ok l /\ spread len k l.
Proof.
  intros Hl Hk Hlk Hk51. unfold linspace_int. destruct (k <? 0) eqn:E; [lia|]. eexists. split; [reflexivity|].
  destruct (Z.eq_dec k 0) as [->|H0].
  { cbn. unfold spread. cbn. split; [reflexivity|]. split; [intros a b u v _ Q; destruct a; discriminate Q|].
    split; [intros z []|]. split; [lia|]. split; [lia|]. intros [|i] p Q; discriminate Q. }
  assert (Hlen : List.length (map np_int64 (@linspace0 N (len - 1) k)) = Z.to_nat k).
  { rewrite map_length. apply linspace_length. lia. }
  destruct (Z.eq_dec k 1) as [->|H1].
  { assert (Q : map np_int64 (@linspace0 N (len - 1) 1) = [0]).
    { unfold linspace0. change (arange 1) with [0]. cbn [Z.ltb Z.compare Pos.compare Pos.compare_cont map Z.leb Z.sub Z.add Z.opp Z.pos_sub].
      rewrite (law_mul_ofZ N L2) by lia. rewrite Z.mul_0_l. f_equal. apply (np_int64_ofZ L). lia. }
    rewrite Q. unfold spread. split; [reflexivity|]. split; [intros [|a] [|b] u v Hab Qa Qb; try (destruct a; discriminate Qa); try (destruct b; discriminate Qb); cbn in Qa, Qb; injection Qa as <-; injection Qb as <-; lia|].
    split; [intros z [<-|[]]; lia|]. split; [reflexivity|]. split; lia. }
  assert (Hl51 : len <= 2 ^ 51) by nia.
  assert (Hnth : forall i p, nth_error (map np_int64 (@linspace0 N (len - 1) k)) i = Some p <->
     (Z.of_nat i < k /\ trunc (@diagonal_value N k len (Z.of_nat i)) = Some p)).
  { assert (G : forall i, Z.of_nat i < k -> nth_error (@linspace0 N (len - 1) k) i = Some (diagonal_value k len (Z.of_nat i))).
    { intros i Hi. rewrite <- (Nat2Z.id i) at 1. apply (linspace_nth L L2); lia. }
    intros i p. split.
    - intros Q. assert (i < Z.to_nat k)%nat by (rewrite <- Hlen; apply nth_error_Some; congruence).
      split; [lia|]. rewrite nth_error_map, G in Q by lia. cbn in Q. injection Q as <-.
      destruct (diagonal_trunc len k (Z.of_nat i)) as [z [A [B _]]]; try lia. rewrite A. f_equal. symmetry. apply trunc_int64; [exact A|lia].
    - intros [Hi A]. rewrite nth_error_map, G by lia. cbn. f_equal.
      destruct (diagonal_trunc len k (Z.of_nat i)) as [z [A' [B _]]]; try lia. rewrite A in A'. injection A' as <-. apply trunc_int64; [exact A|lia]. }
  set (l := map np_int64 (@linspace0 N (len - 1) k)) in *. clearbody l.
  assert (Hin : forall i p, nth_error l i = Some p -> 0 <= p <= len - 1 /\ Z.of_nat i * (len - 1) / (k - 1) - 1 <= p <= Z.of_nat i * (len - 1) / (k - 1)).
  { intros i p Q. apply Hnth in Q as [Hi A]. destruct (diagonal_trunc len k (Z.of_nat i)) as [z [A' [B [C _]]]]; try lia.
    rewrite A in A'. injection A' as <-. auto. }
  split; [exact Hlen|]. split; [|split; [|split; [|split]]].
  - intros a b u v Hab Ha Hb. apply Hnth in Ha as [Ha Ta]. apply Hnth in Hb as [Hb Tb].
    eapply diagonal_mono; [| | | | |exact Ta|exact Tb]; lia.
  - intros z Hz. apply In_nth_error in Hz as [i Hi]. apply Hin in Hi. lia.
  - intros _. destruct (diagonal_trunc len k 0) as [z [A [_ [_ [B _]]]]]; try lia. specialize (B eq_refl). subst z.
    apply Hnth. split; [lia|exact A].
  - intros _. destruct (diagonal_trunc len k (k - 1)) as [z [A [_ [_ [_ B]]]]]; try lia. specialize (B eq_refl). subst z.
    assert (Q : nth_error l (Z.to_nat (k - 1)) = Some (len - 1)).
    { apply Hnth. rewrite Z2Nat.id by lia. split; [lia|exact A]. }
    apply nth_error_split in Q as [l1 [l2 [-> Q]]]. exists l1. rewrite app_length in Hlen. cbn in Hlen.
    destruct l2; [reflexivity|cbn in Hlen; lia].
  - intros i p Q _. apply Hin in Q. lia.
Qed.

Lemma mod_within len l : within 0 len l -> map (fun p => p mod len) l = l.
Proof.
  intros W. rewrite <- (map_id l) at 2. apply map_ext_in. intros p Hp. apply Z.mod_small. exact (W p Hp).
Qed.
Lemma positions_ok dflt a len : 1 <= len -> 2 <= dflt <= 2 ^ 51 -> servable dflt a len ->
  exists l, @guide_positions N (Some dflt) a len = Ok l /\ guides dflt a len (map (fun p => p mod len) l) /\ within (- len) len l.
Proof.
  intros Hl Hd Hs. unfold guide_positions, guides, servable in *. destruct a as [|k|l].
  - destruct (linspace_spread len dflt) as [l [E S]]; try lia. exists l. split; [exact E|].
    assert (W : within 0 len l) by apply S. rewrite (mod_within len l W). split; [exact S|intros z Hz; specialize (W z Hz); lia].
  - destruct (linspace_spread len k) as [l [E S]]; try lia. exists l. split; [exact E|].
    assert (W : within 0 len l) by apply S. rewrite (mod_within len l W). split; [exact S|intros z Hz; specialize (W z Hz); lia].
  - exists l. auto.
Qed.

(** ** Python indexing *)
Lemma py_get_nth {A} (l : list A) p v : 0 <= p -> nth_error l (Z.to_nat p) = Some v -> py_get l p = Ok v.
Proof. intros Hp E. unfold py_get. destruct (p <? 0) eqn:Q; [lia|]. rewrite Q, E. reflexivity. Qed.
Lemma py_get_within {A} (l : list A) p : 0 <= p < Z.of_nat (List.length l) ->
  exists v, nth_error l (Z.to_nat p) = Some v /\ py_get l p = Ok v.
Proof.
  intros Hp. destruct (nth_error l (Z.to_nat p)) as [v|] eqn:E.
  - exists v. split; [reflexivity|]. apply py_get_nth; [lia|exact E].
  - apply nth_error_None in E. lia.
Qed.

Lemma plot_line_curve (l : list N) : curve_of l (plot_line l).
Proof.
  unfold plot_line, curve_of. split; [rewrite combine_length, arange_length; lia|].
  intros k v E. apply nth_combine. split; [|exact E]. apply nth_arange.
  assert (k < List.length l)%nat by (apply nth_error_Some; congruence). lia.
Qed.

Lemma mapM_total {A B} (f : A -> out B) (R : A -> B -> Prop) l : (forall a, In a l -> exists b, f a = Ok b /\ R a b) ->
  exists r, mapM f l = Ok r /\ List.length r = List.length l /\ forall k a b, nth_error l k = Some a -> nth_error r k = Some b -> R a b.
Proof.
  induction l as [|a l IH]; intros H.
  - exists []. split; [reflexivity|]. split; [reflexivity|]. intros [|k]; discriminate.
  - destruct (H a (or_introl eq_refl)) as [b [Eb Rb]]. destruct IH as [r [Er [Hl Hr]]]; [intros a' Ha'; apply H; right; exact Ha'|].
    exists (b :: r). cbn [mapM]. rewrite Eb. cbn [bind]. rewrite Er. cbn [bind]. split; [reflexivity|]. split; [cbn; lia|].
    intros [|k] a' b' Ha Hb; cbn in Ha, Hb; [congruence|eapply Hr; eassumption].
Qed.

Lemma py_get_wrap {A} (l : list A) p : - Z.of_nat (List.length l) <= p < Z.of_nat (List.length l) ->
  exists v, nth_error l (Z.to_nat (p mod Z.of_nat (List.length l))) = Some v /\ py_get l p = Ok v.
Proof.
  intros Hp. set (len := Z.of_nat (List.length l)) in *. pose proof (Z.mod_pos_bound p len ltac:(lia)) as B.
  destruct (py_get_within l (p mod len) B) as [v [E G]]. exists v. split; [exact E|].
  destruct (Z.ltb_spec p 0) as [Hn|Hn].
  - assert (M : p mod len = p + len).
    { symmetry. apply (Z.mod_unique p len (-1)); lia. }
    unfold py_get. fold len. rewrite <- M. replace (p <? 0) with true by lia. replace (p mod len <? 0) with false by lia. rewrite E. reflexivity.
  - rewrite Z.mod_small in E by lia. apply py_get_nth; assumption.
Qed.

(** ** Two-way plot *)
Lemma drawn_ok d xts yts xs ys : drawn_series d xts yts xs ys ->
  exists n m, plot_series d xts yts = Ok (Nd2 (Mat n 1 xs), Nd2 (Mat m 1 ys) : nd N).
Proof.
  intros [n [m [[-> ->]|[H [E1 E2]]]]]; exists n, m; [reflexivity|]. unfold plot_series. rewrite E1, E2.
  destruct H as [->| ->]; [reflexivity|destruct xts; reflexivity].
Qed.

Theorem twoway_draws (L3 : NumLaws3 N) (d : DTW N) mp xts yts xs ys offset a : r_map d = Some mp ->
  index1 mp <> [] -> List.length (index1 mp) = List.length (index2 mp) ->
  within 0 (Z.of_nat (List.length xs)) (index1 mp) -> within 0 (Z.of_nat (List.length ys)) (index2 mp) ->
  drawn_series d xts yts xs ys -> servable 50 a (Z.of_nat (List.length (index1 mp))) ->
  exists l t, guides 50 a (Z.of_nat (List.length (index1 mp))) l /\
    dtwPlotTwoWay d xts yts offset a = Ok t /\
    twoway_drawing mp xs ys offset l t.
Proof.
  intros Em Hne Hlen W1 W2 Hd Hs. destruct (drawn_ok _ _ _ _ _ Hd) as [n [m Es]].
  assert (H1 : 1 <= Z.of_nat (List.length (index1 mp))) by (destruct (index1 mp); [contradiction|cbn; lia]).
  destruct (positions_ok 50 a _ H1 ltac:(lia) Hs) as [l [El [Gl Wl]]].
  unfold dtwPlotTwoWay. rewrite Es. cbn [bind one_column nc dat Nat.eqb]. rewrite Em, El. cbn [bind].
  pose proof (plot_line_curve xs) as Cx.
  pose proof (plot_line_curve (map (fun v => sub v (neg offset)) ys)) as Cy.
  replace (map (fun v => sub v (neg offset)) ys) with (map (fun v => add v offset) ys) in *
    by (apply map_ext; intros v; symmetry; apply (law_sub_neg N L3)).
  set (cx := plot_line xs) in *. set (cy := plot_line (map (fun v => add v offset) ys)) in *. clearbody cx cy.
  edestruct (mapM_total (fun i : Z => i1 <- py_get (index1 mp) i;; xv <- py_get xs i1;; i2 <- py_get (index2 mp) i;;
             yv <- py_get ys i2;; Ok (i1, xv, (i2, add (neg (neg offset)) yv)))
     (fun p g => exists i j, nth_error (index1 mp) (Z.to_nat (p mod Z.of_nat (List.length (index1 mp)))) = Some i /\
        nth_error (index2 mp) (Z.to_nat (p mod Z.of_nat (List.length (index1 mp)))) = Some j /\
        nth_error cx (Z.to_nat i) = Some (fst g) /\ nth_error cy (Z.to_nat j) = Some (snd g) /\
        fst (fst g) = i /\ fst (snd g) = j)) as [r [Er [Lr Hr]]].
  2: { rewrite Er. cbn [bind]. exists (map (fun p => p mod Z.of_nat (List.length (index1 mp))) l), (mkTwoway cx cy r (if eqb (neg offset) (ofZ 0) then None else Some (neg offset))).
       split; [exact Gl|]. split; [reflexivity|]. unfold twoway_drawing. cbn [tw_query tw_reference tw_guides].
       split; [exact Cx|]. split; [exact Cy|]. split; [rewrite map_length; exact Lr|].
       intros k p g Hp Hg. rewrite nth_error_map in Hp. destruct (nth_error l k) as [p0|] eqn:E0; [|discriminate Hp]. injection Hp as <-.
       exact (Hr k p0 g E0 Hg). }
  intros p Hp. specialize (Wl p Hp).
  destruct (py_get_wrap (index1 mp) p Wl) as [i [Ei Gi]]. destruct (py_get_wrap (index2 mp) p ltac:(lia)) as [j [Ej Gj]]. rewrite <- Hlen in Ej.
  pose proof (W1 i (nth_error_In _ _ Ei)) as Bi. pose proof (W2 j (nth_error_In _ _ Ej)) as Bj.
  destruct (py_get_within xs i Bi) as [xv [Ex Gx]]. destruct (py_get_within ys j Bj) as [yv [Ey Gy]].
  rewrite Gi. cbn [bind]. rewrite Gx. cbn [bind]. rewrite Gj. cbn [bind]. rewrite Gy. cbn [bind].
  eexists. split; [reflexivity|]. exists i, j. cbn [fst snd]. split; [exact Ei|]. split; [exact Ej|].
  destruct Cx as [_ Cx]. destruct Cy as [_ Cy].
  split; [rewrite (Cx _ _ Ex); do 2 f_equal; lia|]. split; [|split; reflexivity].
  rewrite (Cy _ (add yv offset)); [|rewrite nth_error_map, Ey; reflexivity]. rewrite (law_neg_neg N L3). do 2 f_equal. lia.
Qed.

Lemma curve_ok mp : List.length (index1 mp) = List.length (index2 mp) -> warping_curve mp (combine (index1 mp) (index2 mp)).
Proof.
  intros H. split; [rewrite combine_length; lia|]. intros k [i j] E. apply nth_combine in E. exact E.
Qed.

(** ** Three-way plot *)
Lemma pairs_nth {A} (r : list (A * A)) : forall k,
  List.length (List.concat (map (fun p => [fst p; snd p]) r)) = (2 * List.length r)%nat /\
  forall p, nth_error r k = Some p ->
    nth_error (List.concat (map (fun p => [fst p; snd p]) r)) (2 * k) = Some (fst p) /\
    nth_error (List.concat (map (fun p => [fst p; snd p]) r)) (2 * k + 1) = Some (snd p).
Proof.
  induction r as [|a r IH]; intros k; [split; [reflexivity|destruct k; discriminate]|].
  split; [cbn; destruct (IH O) as [E _]; rewrite E; lia|].
  intros p E. destruct k as [|k]; [cbn in E; injection E as <-; split; reflexivity|].
  replace (2 * S k)%nat with (S (S (2 * k))) by lia. replace (S (S (2 * k)) + 1)%nat with (S (S (2 * k + 1))) by lia.
  cbn [map List.concat app nth_error]. apply IH. exact E.
Qed.

Theorem threeway_draws (d : DTW N) mp xts yts x y a : r_map d = Some mp ->
  index1 mp <> [] -> List.length (index1 mp) = List.length (index2 mp) ->
  plot_series d xts yts = Ok (x, y) -> servable3 a (Z.of_nat (List.length (index1 mp))) ->
  exists l t, guides3 a (Z.of_nat (List.length (index1 mp))) l /\
    dtwPlotThreeWay d xts yts a = Ok t /\ threeway_drawing mp x y l t.
Proof.
  intros Em Hne Hlen Es Hs.
  assert (H1 : 1 <= Z.of_nat (List.length (index1 mp))) by (destruct (index1 mp); [contradiction|cbn; lia]).
  assert (P : exists l, @guide_positions N None a (Z.of_nat (List.length (index1 mp))) = Ok l /\
     guides3 a (Z.of_nat (List.length (index1 mp))) (map (fun p => p mod Z.of_nat (List.length (index1 mp))) l) /\
     within (- Z.of_nat (List.length (index1 mp))) (Z.of_nat (List.length (index1 mp))) l).
  { unfold guide_positions, guides3, guides, servable3, servable in *. destruct a as [|k|l].
    - exists []. split; [reflexivity|]. split; [reflexivity|intros z []].
    - destruct (linspace_spread _ k H1) as [l [E S]]; try lia. exists l. split; [exact E|].
      assert (W : within 0 (Z.of_nat (List.length (index1 mp))) l) by apply S. rewrite (mod_within _ l W).
      split; [exact S|intros z Hz; specialize (W z Hz); lia].
    - exists l. auto. }
  destruct P as [l [El [Gl Wl]]]. unfold dtwPlotThreeWay. rewrite Es. cbn [bind]. rewrite Em, El. cbn [bind].
  edestruct (mapM_total (fun i : Z => i1 <- py_get (index1 mp) i;; i2 <- py_get (index2 mp) i;;
             Ok [((i1, 0), (i1, i2)); ((0, i2), (i1, i2))])
     (fun p g => exists i j, nth_error (index1 mp) (Z.to_nat (p mod Z.of_nat (List.length (index1 mp)))) = Some i /\
        nth_error (index2 mp) (Z.to_nat (p mod Z.of_nat (List.length (index1 mp)))) = Some j /\
        g = [((i, 0), (i, j)); ((0, j), (i, j))])) as [r [Er [Lr Hr]]].
  2: { rewrite Er. cbn [bind]. eexists _, _. split; [exact Gl|]. split; [reflexivity|].
       unfold threeway_drawing. cbn [th_query th_reference th_curve th_guides]. split; [reflexivity|]. split; [reflexivity|].
       split; [apply curve_ok; exact Hlen|].
       assert (Hq : exists q, r = map (fun p => [fst p; snd p]) q).
       { clear -Hr Lr. revert l Lr Hr. induction r as [|g r IH]; intros l Lr Hr; [exists []; reflexivity|].
         destruct l as [|p l]; [discriminate Lr|]. destruct (Hr O p g eq_refl eq_refl) as [i [j [_ [_ ->]]]].
         destruct (IH l ltac:(cbn in Lr; lia)) as [q ->]; [intros k a b Ha Hb; exact (Hr (S k) a b Ha Hb)|].
         exists (((i, 0), (i, j), ((0, j), (i, j))) :: q). reflexivity. }
       destruct Hq as [q ->]. rewrite map_length in Lr. destruct (pairs_nth q O) as [PL _].
       split; [rewrite PL, map_length; lia|]. intros k p0 Hp0. rewrite nth_error_map in Hp0.
       destruct (nth_error l k) as [p|] eqn:Hp; [|discriminate Hp0]. injection Hp0 as <-.
       assert (Hk : (k < List.length q)%nat) by (rewrite Lr; apply nth_error_Some; congruence).
       destruct (nth_error q k) as [[g1 g2]|] eqn:Eq; [|apply nth_error_None in Eq; lia].
       destruct (Hr k p [g1; g2]) as [i [j [A [B C]]]]; [exact Hp|rewrite nth_error_map, Eq; reflexivity|].
       exists i, j. split; [exact A|]. split; [exact B|]. injection C as -> ->.
       destruct (pairs_nth q k) as [_ PN]. apply (PN _ Eq). }
  intros p Hp. specialize (Wl p Hp).
  destruct (py_get_wrap (index1 mp) p Wl) as [i [Ei Gi]]. destruct (py_get_wrap (index2 mp) p ltac:(lia)) as [j [Ej Gj]]. rewrite <- Hlen in Ej.
  rewrite Gi. cbn [bind]. rewrite Gj. cbn [bind]. eexists. split; [reflexivity|]. exists i, j. auto.
Qed.

(** ** A position that is not on the curve *)
Lemma mapM_raises {A B} (f : A -> out B) e l : (forall a, In a l -> (exists b, f a = Ok b) \/ f a = Raise e) ->
  (exists a, In a l /\ f a = Raise e) -> mapM f l = Raise e.
Proof.
  induction l as [|a l IH]; intros H [b [Hb Eb]]; [destruct Hb|]. cbn [mapM].
  destruct (H a (or_introl eq_refl)) as [[c Ec]|Er].
  - rewrite Ec. cbn [bind]. rewrite IH; [reflexivity|intros z Hz; apply H; right; exact Hz|].
    destruct Hb as [<-|Hb]; [congruence|]. exists b. auto.
  - rewrite Er. reflexivity.
Qed.
Lemma py_get_outside {A} (l : list A) p : ~ (- Z.of_nat (List.length l) <= p < Z.of_nat (List.length l)) -> py_get l p = Raise IndexError.
Proof.
  intros Hp. unfold py_get. destruct (Z.ltb_spec p 0) as [Hn|Hn].
  - replace (p + Z.of_nat (List.length l) <? 0) with true by lia. reflexivity.
  - replace (p <? 0) with false by lia. replace (nth_error l (Z.to_nat p)) with (@None A); [reflexivity|]. symmetry. apply nth_error_None. lia.
Qed.
Theorem twoway_outside (d : DTW N) mp xts yts xs ys offset l p : r_map d = Some mp ->
  List.length (index1 mp) = List.length (index2 mp) ->
  within 0 (Z.of_nat (List.length xs)) (index1 mp) -> within 0 (Z.of_nat (List.length ys)) (index2 mp) ->
  drawn_series d xts yts xs ys -> In p l -> ~ (- Z.of_nat (List.length (index1 mp)) <= p < Z.of_nat (List.length (index1 mp)))%Z ->
  dtwPlotTwoWay d xts yts offset (MatchList l) = Raise IndexError.
Proof.
  intros Em Hlen W1 W2 Hd Hin Hp. destruct (drawn_ok _ _ _ _ _ Hd) as [n [m Es]].
  unfold dtwPlotTwoWay. rewrite Es. cbn [bind one_column nc dat Nat.eqb]. rewrite Em. cbn [guide_positions bind].
  rewrite (mapM_raises _ IndexError l); [reflexivity| |].
  - intros q _. destruct (Z_le_dec (- Z.of_nat (List.length (index1 mp))) q) as [Q1|Q1];
      [destruct (Z_lt_dec q (Z.of_nat (List.length (index1 mp)))) as [Q2|Q2]|].
    + left. destruct (py_get_wrap (index1 mp) q (conj Q1 Q2)) as [i [Ei Gi]]. destruct (py_get_wrap (index2 mp) q ltac:(lia)) as [j [Ej Gj]].
      destruct (py_get_within xs i (W1 i (nth_error_In _ _ Ei))) as [xv [_ Gx]]. destruct (py_get_within ys j (W2 j (nth_error_In _ _ Ej))) as [yv [_ Gy]].
      rewrite Gi. cbn [bind]. rewrite Gx. cbn [bind]. rewrite Gj. cbn [bind]. rewrite Gy. cbn [bind]. eauto.
    + right. rewrite (py_get_outside (index1 mp)) by lia. reflexivity.
    + right. rewrite (py_get_outside (index1 mp)) by lia. reflexivity.
  - exists p. split; [exact Hin|]. rewrite (py_get_outside (index1 mp)) by exact Hp. reflexivity.
Qed.
Theorem threeway_outside (d : DTW N) mp xts yts x y l p : r_map d = Some mp ->
  List.length (index1 mp) = List.length (index2 mp) -> plot_series d xts yts = Ok (x, y) ->
  In p l -> ~ (- Z.of_nat (List.length (index1 mp)) <= p < Z.of_nat (List.length (index1 mp)))%Z ->
  dtwPlotThreeWay d xts yts (MatchList l) = Raise IndexError.
Proof.
  intros Em Hlen Es Hin Hp. unfold dtwPlotThreeWay. rewrite Es. cbn [bind]. rewrite Em. cbn [guide_positions bind].
  rewrite (mapM_raises _ IndexError l); [reflexivity| |].
  - intros q _. destruct (Z_le_dec (- Z.of_nat (List.length (index1 mp))) q) as [Q1|Q1];
      [destruct (Z_lt_dec q (Z.of_nat (List.length (index1 mp)))) as [Q2|Q2]|].
    + left. destruct (py_get_wrap (index1 mp) q (conj Q1 Q2)) as [i [Ei Gi]]. destruct (py_get_wrap (index2 mp) q ltac:(lia)) as [j [Ej Gj]].
      rewrite Gi. cbn [bind]. rewrite Gj. cbn [bind]. eauto.
    + right. rewrite (py_get_outside (index1 mp)) by lia. reflexivity.
    + right. rewrite (py_get_outside (index1 mp)) by lia. reflexivity.
  - exists p. split; [exact Hin|]. rewrite (py_get_outside (index1 mp)) by exact Hp. reflexivity.
Qed.

(** ** Results of dtw() *)
Lemma result_indices cdist x y o (lm : mat N) d rules : costs_of cdist x y lm ->
  dtw cdist x y o = Ok d -> pattern_rules (r_stepPattern d) rules -> o_distance_only o = false ->
  (o_open_begin o = true -> (0 < nr lm)%nat /\ leaves_row rules) ->
  exists mp, r_map d = Some mp /\ index1 mp <> [] /\ List.length (index1 mp) = List.length (index2 mp) /\
    within 0 (Z.of_nat (nr lm)) (index1 mp) /\ within 0 (Z.of_nat (nc lm)) (index2 mp).
Proof.
  intros HC H Hp Hd Hb. destruct (o_open_begin o) eqn:Eb.
  - destruct (Hb eq_refl) as [Hn Hr].
    destruct (monotone_open L _ _ _ _ _ _ _ HC H Hp Eb Hn) as [mp [Em [Hl [_ [_ [[l' L1] [_ [_ [_ [W2 [_ [_ [W1 _]]]]]]]]]]]]].
    exists mp. split; [exact Em|]. split; [rewrite L1; destruct l'; discriminate|]. auto.
  - destruct (monotone_closed L _ _ _ _ _ _ _ HC H Hp Hd Eb) as [mp [Em [Hl [_ [_ [F1 [_ [_ [_ [_ [_ [_ [_ [W1 [W2 _]]]]]]]]]]]]]]].
    exists mp. split; [exact Em|]. split; [intros E; rewrite E in F1; discriminate F1|]. auto.
Qed.

Theorem twoway_result (L3 : NumLaws3 N) cdist x y o (lm : mat N) d rules n m xs ys offset a :
  costs_of cdist x (Some y) lm ->
  dtw cdist x (Some y) o = Ok d -> pattern_rules (r_stepPattern d) rules ->
  o_keep_internals o = true -> o_distance_only o = false ->
  (o_open_begin o = true -> (0 < nr lm)%nat /\ leaves_row rules) ->
  matrix_of (nd_val x) = Some (Mat n 1 xs) -> matrix_of (nd_val y) = Some (Mat m 1 ys) ->
  nr lm = List.length xs -> nc lm = List.length ys ->
  exists mp, r_map d = Some mp /\
    (servable 50 a (Z.of_nat (List.length (index1 mp))) ->
     exists l t, guides 50 a (Z.of_nat (List.length (index1 mp))) l /\
       dtwPlotTwoWay d None None offset a = Ok t /\ twoway_drawing mp xs ys offset l t).
Proof.
  intros HC H Hp Hk Hd Hb Hx Hy Hnr Hnc.
  destruct (result_indices _ _ _ _ _ _ _ HC H Hp Hd Hb) as [mp [Em [Hne [Hl [W1 W2]]]]].
  exists mp. split; [exact Em|]. intros Hs.
  destruct (kept_fields L _ _ _ _ _ _ _ HC H Hp Hk) as [_ [_ [xm [ym [E1 [E2 [Q1 Q2]]]]]]].
  rewrite Hx in E1. injection E1 as <-. rewrite Hy in E2. injection E2 as <-.
  apply (twoway_draws L3); try assumption.
  - rewrite <- Hnr. exact W1.
  - rewrite <- Hnc. exact W2.
  - exists n, m. right. auto.
Qed.

Theorem threeway_result cdist x y o (lm : mat N) d rules a :
  costs_of cdist x (Some y) lm ->
  dtw cdist x (Some y) o = Ok d -> pattern_rules (r_stepPattern d) rules ->
  o_keep_internals o = true -> o_distance_only o = false ->
  (o_open_begin o = true -> (0 < nr lm)%nat /\ leaves_row rules) ->
  exists mp xm ym, r_map d = Some mp /\ matrix_of (nd_val x) = Some xm /\ matrix_of (nd_val y) = Some ym /\
    (servable3 a (Z.of_nat (List.length (index1 mp))) ->
     exists l t, guides3 a (Z.of_nat (List.length (index1 mp))) l /\
       dtwPlotThreeWay d None None a = Ok t /\ threeway_drawing mp (Nd2 xm) (Nd2 ym) l t).
Proof.
  intros HC H Hp Hk Hd Hb.
  destruct (result_indices _ _ _ _ _ _ _ HC H Hp Hd Hb) as [mp [Em [Hne [Hl [W1 W2]]]]].
  destruct (kept_fields L _ _ _ _ _ _ _ HC H Hp Hk) as [_ [_ [xm [ym [E1 [E2 [Q1 Q2]]]]]]].
  exists mp, xm, ym. split; [exact Em|]. split; [exact E1|]. split; [exact E2|]. intros Hs.
  apply threeway_draws; try assumption. unfold plot_series. rewrite Q1, Q2. reflexivity.
Qed.

(** Invalid guide requests. *)
Theorem negative_guides (d : DTW N) mp xts yts xs ys offset k : r_map d = Some mp -> drawn_series d xts yts xs ys -> (k < 0)%Z ->
  dtwPlotTwoWay d xts yts offset (MatchCount k) = Raise (ValueError "Number of samples must be non-negative.").
Proof.
  intros Em Hd Hk. destruct (drawn_ok _ _ _ _ _ Hd) as [n [m Es]]. unfold dtwPlotTwoWay. rewrite Es.
  cbn [bind one_column nc dat Nat.eqb]. rewrite Em. cbn [guide_positions]. unfold linspace_int.
  destruct (k <? 0) eqn:E; [reflexivity|lia].
Qed.

(** ** When the series are not available *)
Theorem series_required (d : DTW N) xts yts : (xts = None \/ yts = None) -> (r_query d = None \/ r_reference d = None) ->
  (forall offset a, dtwPlotTwoWay d xts yts offset a = Raise (ValueError "Original timeseries are required")) /\
  (forall a, dtwPlotThreeWay d xts yts a = Raise (ValueError "Original timeseries are required")).
Proof.
  intros H1 H2. assert (E : plot_series d xts yts = Raise (ValueError "Original timeseries are required")).
  { unfold plot_series. destruct H1 as [-> | ->]; [|destruct xts]; destruct H2 as [-> | ->]; try reflexivity; destruct (r_query d); reflexivity. }
  unfold dtwPlotTwoWay, dtwPlotThreeWay. rewrite E. split; reflexivity.
Qed.
Theorem matrix_call_no_series cdist x o (lm : mat N) d rules : costs_of cdist x None lm ->
  dtw cdist x None o = Ok d -> pattern_rules (r_stepPattern d) rules ->
  r_query d = None /\ r_reference d = None.
Proof.
  intros HC H Hp. destruct (o_keep_internals o) eqn:Hk.
  - apply (kept_fields L _ _ _ _ _ _ _ HC H Hp Hk).
  - destruct (dtw_ok_inv L _ _ _ _ _ _ _ HC H Hp) as [_ [_ [_ [_ Q]]]].
    destruct Q as [cmx [dmx [cmf [smf [win [ks [vs [ts [jmin [S [_ [Hjm [_ [_ [_ [_ E]]]]]]]]]]]]]]]].
    rewrite E. cbn [result r_query r_reference]. rewrite Hk. auto.
Qed.
(** A series passed alone is ignored. *)
Theorem lone_series_ignored (d : DTW N) x offset a :
  dtwPlotTwoWay d (Some x) None offset a = dtwPlotTwoWay d None None offset a /\
  dtwPlotTwoWay d None (Some x) offset a = dtwPlotTwoWay d None None offset a /\
  dtwPlotThreeWay d (Some x) None a = dtwPlotThreeWay d None None a /\
  dtwPlotThreeWay d None (Some x) a = dtwPlotThreeWay d None None a.
Proof. repeat split. Qed.
(** One-dimensional vectors, as the documentation asks for, are not accepted. *)
Theorem vectors_rejected (d : DTW N) xs y offset a : dtwPlotTwoWay d (Some (Nd1 xs)) (Some y) offset a = Raise IndexError.
Proof. reflexivity. Qed.
Theorem multivariate_rejected (d : DTW N) n k xs y offset a : k <> 1%nat ->
  dtwPlotTwoWay d (Some (Nd2 (Mat n k xs))) (Some y) offset a =
  Raise (ValueError "Only single-variate timeseries can be plotted in the two-way style").
Proof. intros H. unfold dtwPlotTwoWay. cbn [plot_series bind one_column nc]. destruct (Nat.eqb_spec k 1); [contradiction|reflexivity]. Qed.
(** Without an alignment nothing can be drawn. *)
Theorem plots_need_alignment (d : DTW N) type a : r_map d = None -> forall g, dtwPlot d type a <> Ok g.
Proof.
  intros Em g. unfold dtwPlot.
  destruct (type =? "alignment")%string; [unfold dtwPlotAlignment; rewrite Em; discriminate|].
  destruct (type =? "twoway")%string.
  { unfold dtwPlotTwoWay. destruct (plot_series _ _ _) as [[u v]| | | |]; try discriminate. cbn [bind].
    destruct (one_column u); try discriminate. cbn [bind]. destruct (one_column v); try discriminate. cbn [bind]. rewrite Em. discriminate. }
  destruct (type =? "threeway")%string.
  { unfold dtwPlotThreeWay. destruct (plot_series _ _ _) as [[u v]| | | |]; try discriminate. cbn [bind]. rewrite Em. discriminate. }
  destruct (type =? "density")%string; [|discriminate].
  unfold dtwPlotDensity. destruct (r_costMatrix d); [|discriminate].
  destruct (if a_normalize a then _ else _); try discriminate. cbn [bind]. rewrite Em. discriminate.
Qed.
(** ** The type argument *)
Theorem plot_types (d : DTW N) type a :
  (type = "alignment" -> dtwPlot d type a = omap DrawAlignment (dtwPlotAlignment d)) /\
  (type = "twoway" -> dtwPlot d type a = omap DrawTwoWay (dtwPlotTwoWay d (a_xts a) (a_yts a) (a_offset a) (a_match a))) /\
  (type = "threeway" -> dtwPlot d type a = omap DrawThreeWay (dtwPlotThreeWay d (a_xts a) (a_yts a) (a_match a))) /\
  (type = "density" -> dtwPlot d type a = omap DrawDensity (dtwPlotDensity d (a_normalize a))) /\
  (~ In type ["alignment"; "twoway"; "threeway"; "density"] ->
     dtwPlot d type a = Raise (ValueError ("Unknown plot type: " ++ type)%string)).
Proof.
  repeat split; try (intros ->; unfold dtwPlot; cbn; reflexivity).
  intros H. unfold dtwPlot. repeat match goal with |- context [String.eqb type ?s] => destruct (String.eqb_spec type s) as [E|_]; [exfalso; apply H; rewrite E; cbn; tauto|] end.
  reflexivity.
Qed.
Theorem alignment_plot cdist x y o (lm : mat N) d rules a : costs_of cdist x y lm ->
  dtw cdist x y o = Ok d -> pattern_rules (r_stepPattern d) rules -> o_distance_only o = false ->
  (o_open_begin o = true -> (0 < nr lm)%nat /\ leaves_row rules) ->
  exists mp c, r_map d = Some mp /\ dtwPlot d "alignment" a = Ok (DrawAlignment c) /\ warping_curve mp c.
Proof.
  intros HC H Hp Hd Hb. destruct (result_indices _ _ _ _ _ _ _ HC H Hp Hd Hb) as [mp [Em [_ [Hl _]]]].
  exists mp, (combine (index1 mp) (index2 mp)). split; [exact Em|].
  split; [unfold dtwPlot, dtwPlotAlignment; cbn; rewrite Em; reflexivity|apply curve_ok; exact Hl].
Qed.
(** ** Command line tool *)
Theorem cli_is_api euclidean q r sp v : main2 euclidean q r sp = Ok v <->
  exists (d : DTW N) mp, dtw euclidean q (Some r) (mkOpts (SPName sp) WTNone [] false false false false) = Ok d /\
    r_map d = Some mp /\ v = (r_normalizedDistance d, r_distance d, index1 mp, index2 mp).
Proof.
  unfold main2. destruct (dtw _ _ _ _) as [d|e| | |]; cbn [bind].
  - destruct (r_map d) as [mp|] eqn:Em.
    + split; [intros E; injection E as <-; exists d, mp; auto|].
      intros [d' [mp' [E [E' ->]]]]. injection E as <-. rewrite Em in E'. injection E' as <-. reflexivity.
    + split; [discriminate|]. intros [d' [mp' [E [E' _]]]]. injection E as <-. rewrite Em in E'. discriminate.
  - split; [discriminate|intros [? [? [E _]]]; discriminate].
  - split; [discriminate|intros [? [? [E _]]]; discriminate].
  - split; [discriminate|intros [? [? [E _]]]; discriminate].
  - split; [discriminate|intros [? [? [E _]]]; discriminate].
Qed.
End Guides.
