(** WarpProof.v - what warp() computes. *)
From Coq Require Import ZifyBool ZifyNat.
From Verif Require Import Base Num StepPattern Window Core Backtrack Dtw Warp WarpSpec.
Open Scope list_scope.
Open Scope Z_scope.

(** ** Lists *)
Lemma nth_error_upd_same {A} (l : list A) i v : (i < List.length l)%nat -> nth_error (upd l i v) i = Some v.
Proof. revert i; induction l as [|x l IH]; intros [|i] H; cbn in *; try lia; auto. apply IH. lia. Qed.
Lemma nth_error_upd_other {A} (l : list A) i j v : i <> j -> nth_error (upd l i v) j = nth_error l j.
Proof.
  revert i j; induction l as [|x l IH]; intros [|i] [|j] H; cbn; auto; try lia.
Qed.

Lemma zmax_from_ge l : forall x, x <= fold_left Z.max l x /\ (forall y, In y l -> y <= fold_left Z.max l x).
Proof.
  induction l as [|a l IH]; intros x; cbn [fold_left]; [split; [lia|intros y []]|].
  destruct (IH (Z.max x a)) as [H1 H2]. split; [lia|]. intros y [<-|Hy]; [lia|auto].
Qed.
Lemma zmax_from_in l : forall x, fold_left Z.max l x = x \/ In (fold_left Z.max l x) l.
Proof.
  induction l as [|a l IH]; intros x; cbn [fold_left]; [auto|].
  destruct (IH (Z.max x a)) as [H|H]; [|right; right; exact H].
  rewrite H. destruct (Z.max_spec x a) as [[_ E]|[_ E]]; rewrite E; [right; left; reflexivity|left; reflexivity].
Qed.
Lemma zmax_spec l : l <> [] -> exists m, zmax l = Ok m /\ is_max m l.
Proof.
  destruct l as [|x l]; [contradiction|]. intros _. exists (fold_left Z.max l x). split; [reflexivity|].
  destruct (zmax_from_ge l x) as [H1 H2]. split.
  - destruct (zmax_from_in l x) as [E|E]; [left; symmetry; exact E|right; exact E].
  - intros y [<-|Hy]; auto.
Qed.
Lemma is_max_unique m m' l : is_max m l -> is_max m' l -> m = m'.
Proof. intros [H1 H2] [H3 H4]. specialize (H2 _ H3). specialize (H4 _ H1). lia. Qed.

(** ** bincount *)
Definition acc_step {A} (step : A -> Z -> A) (acc : list A) (vw : Z * Z) : list A :=
  match nth_error acc (Z.to_nat (fst vw)) with
  | Some a => upd acc (Z.to_nat (fst vw)) (step a (snd vw))
  | None => acc
  end.
Lemma acc_nth {A} (step : A -> Z -> A) ps : forall acc k, (forall p, In p ps -> 0 <= fst p) ->
  nth_error (fold_left (acc_step step) ps acc) k =
  option_map (fun a => fold_left step (map snd (filter (fun p => fst p =? Z.of_nat k) ps)) a) (nth_error acc k).
Proof.
  induction ps as [|[v w] ps IH]; intros acc k Hp; cbn [fold_left filter map].
  - destruct (nth_error acc k); reflexivity.
  - rewrite IH; [|intros p Hin; apply Hp; right; exact Hin].
    assert (Hv : 0 <= v) by (apply (Hp (v, w)); left; reflexivity).
    unfold acc_step at 1. cbn [fst snd].
    destruct (v =? Z.of_nat k) eqn:E.
    + assert (Ek : Z.to_nat v = k) by lia. rewrite Ek. cbn [map snd fold_left].
      destruct (nth_error acc k) as [a|] eqn:Ea.
      * rewrite nth_error_upd_same; [reflexivity|]. apply nth_error_Some. congruence.
      * rewrite Ea. reflexivity.
    + destruct (nth_error acc (Z.to_nat v)) as [a|] eqn:Ea; [|reflexivity].
      rewrite nth_error_upd_other; [reflexivity|lia].
Qed.
Lemma upd_length' {A} (l : list A) i v : List.length (upd l i v) = List.length l.
Proof. revert i; induction l as [|x l IH]; intros [|i]; cbn; auto. Qed.
Lemma acc_len {A} (step : A -> Z -> A) ps : forall acc, List.length (fold_left (acc_step step) ps acc) = List.length acc.
Proof.
  induction ps as [|p ps IH]; intros acc; [reflexivity|]. cbn [fold_left]. rewrite IH.
  unfold acc_step. destruct (nth_error acc _); [apply upd_length'|reflexivity].
Qed.

Lemma combine_swap {A B} (x : list A) : forall (y : list B),
  combine y x = map (fun p => (snd p, fst p)) (combine x y).
Proof. induction x as [|a x IH]; intros [|b y]; cbn; try reflexivity. rewrite IH. reflexivity. Qed.

Lemma filter_matched x y k : map snd (filter (fun p => fst p =? k) (combine x y)) = matched y x k.
Proof.
  revert y; induction x as [|a x IH]; intros [|b y]; cbn; try reflexivity.
  destruct (a =? k); cbn; rewrite IH; reflexivity.
Qed.

Lemma nth_combine {A B} (x : list A) : forall (y : list B) k a b,
  nth_error (combine x y) k = Some (a, b) <-> nth_error x k = Some a /\ nth_error y k = Some b.
Proof.
  induction x as [|u x IH]; intros [|v y] [|k] a b; cbn; try (split; [discriminate|intros [H1 H2]; discriminate]).
  - split; [intros E; injection E; intros; subst; auto|intros [E1 E2]; injection E1; injection E2; intros; subst; reflexivity].
  - apply IH.
Qed.
Lemma filter_len {A} (f : A -> bool) l : (List.length (filter f l) <= List.length l)%nat.
Proof. induction l as [|x l IH]; cbn; [lia|]. destruct (f x); cbn; lia. Qed.
Lemma existsb_neg x : (forall v, In v x -> 0 <= v) -> existsb (fun v => v <? 0) x = false.
Proof.
  intros H. destruct (existsb _ x) eqn:E; [|reflexivity]. apply existsb_exists in E as [v [Hv Hn]].
  specialize (H v Hv). lia.
Qed.
Lemma bincount_spec {A} (zero : A) step x y m : (forall v, In v x -> 0 <= v) ->
  List.length x = List.length y -> is_max m x ->
  exists l, bincount zero step x y = Ok l /\ List.length l = Z.to_nat (m + 1) /\
    forall k, (k < Z.to_nat (m + 1))%nat ->
      nth_error l k = Some (fold_left step (matched y x (Z.of_nat k)) zero).
Proof.
  intros Hn Hl Hm. unfold bincount. rewrite (existsb_neg x Hn), Hl, Nat.eqb_refl. cbn [negb].
  destruct x as [|a x]; [destruct Hm as [[] _]|].
  destruct (zmax_spec (a :: x)) as [m' [Em Hm']]; [discriminate|].
  rewrite Em. cbn [bind]. rewrite (is_max_unique _ _ _ Hm' Hm).
  eexists. split; [reflexivity|]. change (fun acc vw => match nth_error acc (Z.to_nat (fst vw)) with
     | Some a0 => upd acc (Z.to_nat (fst vw)) (step a0 (snd vw)) | None => acc end) with (acc_step step).
  split; [rewrite acc_len; apply repeat_length|].
  intros k Hk. rewrite acc_nth.
  - rewrite nth_error_repeat by exact Hk. cbn [option_map]. rewrite filter_matched. reflexivity.
  - intros [v w] Hin. apply in_combine_l in Hin. apply Hn. exact Hin.
Qed.

Lemma count_fold l : forall a, fold_left (fun a (_ : Z) => a + 1) l a = a + Z.of_nat (List.length l).
Proof. induction l as [|x l IH]; intros a; cbn [fold_left List.length]; [lia|]. rewrite IH. lia. Qed.

Lemma matched_length src : forall tgt src' k, List.length src = List.length src' ->
  List.length (matched src tgt k) = List.length (matched src' tgt k).
Proof.
  unfold matched. induction src as [|a src IH]; intros [|t tgt] [|b src'] k Hl; cbn in *; try lia.
  destruct (t =? k); cbn; rewrite (IH tgt src' k); lia.
Qed.
Lemma matched_in src : forall tgt k i, In i (matched src tgt k) <-> In (i, k) (combine src tgt).
Proof.
  intros tgt k i. unfold matched. rewrite in_map_iff. split.
  - intros [[i' k'] [E Hin]]. apply filter_In in Hin as [Hin Hk]. cbn in *. replace k with k' by lia. subst i'. exact Hin.
  - intros H. exists (i, k). split; [reflexivity|]. apply filter_In. split; [exact H|]. cbn. lia.
Qed.
Lemma matched_nonempty src tgt k : List.length src = List.length tgt -> In k tgt -> matched src tgt k <> [].
Proof.
  intros Hl Hin. apply In_nth_error in Hin as [p Hp].
  destruct (nth_error src p) as [i|] eqn:E.
  - assert (Hi : In i (matched src tgt k)).
    { apply matched_in. apply nth_error_In with (n := p). apply nth_combine. split; assumption. }
    intros E'. rewrite E' in Hi. destruct Hi.
  - apply nth_error_None in E. assert (p < List.length tgt)%nat by (apply nth_error_Some; congruence). lia.
Qed.
Lemma matched_empty src tgt k : ~ In k tgt -> matched src tgt k = [].
Proof.
  intros H. destruct (matched src tgt k) as [|i l] eqn:E; [reflexivity|].
  exfalso. apply H. assert (Hi : In i (matched src tgt k)) by (rewrite E; left; reflexivity).
  apply matched_in in Hi. apply in_combine_r in Hi. exact Hi.
Qed.

(** ** Sums *)
Lemma zsum_nonneg l : (forall x, In x l -> 0 <= x) -> 0 <= zsum l.
Proof. unfold zsum. induction l as [|a l IH]; intros H; cbn; [lia|]. assert (0 <= a) by (apply H; left; reflexivity). assert (0 <= fold_right Z.add 0 l) by (apply IH; intros; apply H; right; assumption). lia. Qed.
Lemma matched_sum src : forall tgt k, (forall x, In x src -> 0 <= x) -> zsum (matched src tgt k) <= zsum src.
Proof.
  unfold matched. induction src as [|a src IH]; intros [|t tgt] k H; cbn; try lia.
  - assert (0 <= a) by (apply H; left; reflexivity). assert (0 <= zsum src) by (apply zsum_nonneg; intros; apply H; right; assumption). unfold zsum in *. lia.
  - assert (0 <= a) by (apply H; left; reflexivity).
    assert (Hr : zsum (map fst (filter (fun p => snd p =? k) (combine src tgt))) <= zsum src) by (apply IH; intros; apply H; right; assumption).
    unfold zsum in *. destruct (t =? k); cbn; lia.
Qed.
Lemma matched_bounds src tgt k lo hi : (forall x, In x src -> lo <= x <= hi) ->
  forall x, In x (matched src tgt k) -> lo <= x <= hi.
Proof. intros H x Hx. apply matched_in in Hx. apply in_combine_l in Hx. auto. Qed.
Lemma zsum_bounds l lo hi : (forall x, In x l -> lo <= x <= hi) ->
  lo * Z.of_nat (List.length l) <= zsum l <= hi * Z.of_nat (List.length l).
Proof.
  unfold zsum. induction l as [|a l IH]; intros H; cbn [fold_right List.length]; [lia|].
  assert (lo <= a <= hi) by (apply H; left; reflexivity).
  assert (lo * Z.of_nat (List.length l) <= fold_right Z.add 0 l <= hi * Z.of_nat (List.length l)) by (apply IH; intros; apply H; right; assumption).
  lia.
Qed.
Lemma mean_bounds l lo hi : l <> [] -> (forall x, In x l -> lo <= x <= hi) -> lo <= mean l <= hi.
Proof.
  intros Hne H. apply zsum_bounds in H. unfold mean.
  assert (0 < Z.of_nat (List.length l)) by (destruct l; [contradiction|cbn; lia]).
  split; [apply Z.div_le_lower_bound; lia|apply Z.div_le_upper_bound; lia].
Qed.

(** ** Nodes of the interpolation *)
Section Nodes.
Context {N : Num}.

Lemma insert_smallest (p : Z * N) l : (forall q, In q l -> fst p <= fst q) -> insert_node p l = p :: l.
Proof.
  destruct l as [|q l]; intros H; [reflexivity|]. cbn. specialize (H q (or_introl eq_refl)).
  destruct (fst p <=? fst q) eqn:E; [reflexivity|lia].
Qed.
Definition sorted (l : list (Z * N)) : Prop :=
  forall a b p q, (a <= b)%nat -> nth_error l a = Some p -> nth_error l b = Some q -> fst p <= fst q.
Lemma sort_sorted (l : list (Z * N)) : sorted l -> sort_nodes l = l.
Proof.
  induction l as [|p l IH]; intros H; [reflexivity|]. cbn. change (fold_right insert_node [] l) with (sort_nodes l).
  rewrite IH.
  - apply insert_smallest. intros q Hq. apply In_nth_error in Hq as [b Hb].
    apply (H 0%nat (S b) p q); [lia|reflexivity|exact Hb].
  - intros a b p' q' Hab Ha Hb. apply (H (S a) (S b)); [lia|exact Ha|exact Hb].
Qed.

Lemma nth_arange n k v : nth_error (arange n) k = Some v <-> v = Z.of_nat k /\ Z.of_nat k < n.
Proof.
  unfold arange. rewrite nth_error_map. destruct (nth_error (seq 0 (Z.to_nat n)) k) as [u|] eqn:E.
  - assert (Hk : (k < Z.to_nat n)%nat) by (rewrite <- (seq_length (Z.to_nat n) 0); apply nth_error_Some; congruence).
    apply nth_error_nth with (d := 0%nat) in E. rewrite seq_nth in E by exact Hk. subst u. cbn.
    split; [intros G; injection G; lia|intros [-> _]; reflexivity].
  - apply nth_error_None in E. rewrite seq_length in E. split; [discriminate|lia].
Qed.
Lemma arange_length n : List.length (arange n) = Z.to_nat n.
Proof. unfold arange. rewrite map_length. apply seq_length. Qed.

(** [last_node] finds the last node that is not above x. *)
Lemma last_node_spec (l : list (Z * N)) x : sorted l -> forall j a, nth_error l j = Some a -> fst a <= x ->
  (forall b, nth_error l (S j) = Some b -> x < fst b) -> last_node l x = j.
Proof.
  induction l as [|p l IH]; intros Hs j a Ha Hax Hnext; [destruct j; discriminate|].
  destruct l as [|q l'].
  - destruct j as [|[|j]]; [reflexivity|discriminate|discriminate].
  - cbn [last_node]. destruct j as [|j].
    + specialize (Hnext q eq_refl). destruct (fst q <=? x) eqn:E; [lia|reflexivity].
    + assert (Hq : fst q <= fst a) by (apply (Hs 1%nat (S j) q a); [lia|reflexivity|exact Ha]).
      destruct (fst q <=? x) eqn:E; [|lia]. f_equal.
      apply IH with (a := a); [|exact Ha|exact Hax|exact Hnext].
      intros u v p' q' Huv Hu Hv. apply (Hs (S u) (S v)); [lia|exact Hu|exact Hv].
Qed.
(** At a node: the value of the last node with that abscissa. *)
Lemma interp_node (l : list (Z * N)) j a : sorted l -> nth_error l j = Some a ->
  (forall b, nth_error l (S j) = Some b -> fst a < fst b) ->
  interp_at l (fst a) = Ok (snd a).
Proof.
  intros Hs Ha Hb. destruct l as [|p l]; [destruct j; discriminate|].
  unfold interp_at. rewrite (last_node_spec (p :: l) (fst a) Hs j a Ha (Z.le_refl _) Hb), Ha.
  assert (Hp : fst p <= fst a) by (apply (Hs 0%nat j p a); [lia|reflexivity|exact Ha]).
  destruct (fst a <? fst p) eqn:E; [lia|]. rewrite Z.eqb_refl, Z.ltb_irrefl.
  destruct (nth_error (p :: l) (S j)); reflexivity.
Qed.

Lemma mapM_nth {A B} (f : A -> out B) l r : (forall k a, nth_error l k = Some a -> exists b, nth_error r k = Some b /\ f a = Ok b) ->
  List.length l = List.length r -> mapM f l = Ok r.
Proof.
  revert r; induction l as [|a l IH]; intros [|b r] H Hl; cbn in *; try lia; [reflexivity|].
  destruct (H 0%nat a eq_refl) as [b' [Eb Ef]]. cbn in Eb. injection Eb as <-. rewrite Ef. cbn [bind].
  rewrite (IH r); [reflexivity| |lia]. intros k a' Ha. exact (H (S k) a' Ha).
Qed.

Lemma interp_arange (y : list N) : interp1d (arange (Z.of_nat (List.length y))) y (arange (Z.of_nat (List.length y))) = Ok y.
Proof.
  unfold interp1d. rewrite arange_length, Nat2Z.id, Nat.eqb_refl. cbn [negb].
  assert (Hs : sorted (combine (arange (Z.of_nat (List.length y))) y)).
  { intros a b [p p'] [q q'] Hab Ha Hb. apply nth_combine in Ha as [Ha _]. apply nth_combine in Hb as [Hb _].
    apply nth_arange in Ha as [-> _]. apply nth_arange in Hb as [-> _]. cbn. lia. }
  rewrite (sort_sorted _ Hs). apply mapM_nth; [|rewrite arange_length; lia].
  intros k a Ha. pose proof Ha as Ha'. apply nth_arange in Ha as [-> Hk].
  destruct (nth_error y k) as [v|] eqn:Ev; [|apply nth_error_None in Ev; lia].
  exists v. split; [reflexivity|].
  apply (interp_node _ k (Z.of_nat k, v) Hs).
  - apply nth_combine. split; assumption.
  - intros [b b'] Hb. apply nth_combine in Hb as [Hb _]. apply nth_arange in Hb as [-> _]. cbn. lia.
Qed.

Lemma zip_with_nth {A B C} (f : A -> B -> C) (l : list A) : forall (l' : list B) k a b,
  nth_error l k = Some a -> nth_error l' k = Some b -> nth_error (zip_with f l l') k = Some (f a b).
Proof.
  induction l as [|x l IH]; intros [|y l'] [|k] a b Ha Hb; cbn in *; try discriminate.
  - injection Ha as <-. injection Hb as <-. reflexivity.
  - apply IH; assumption.
Qed.
Lemma zip_with_length {A B C} (f : A -> B -> C) (l : list A) : forall (l' : list B),
  List.length (zip_with f l l') = Nat.min (List.length l) (List.length l').
Proof. induction l as [|x l IH]; intros [|y l']; cbn; auto. Qed.
End Nodes.

(** ** warp *)
Section Warp.
Context {N : Num} (L : NumLaws N).

Lemma sum_fold l : forall a, 0 <= a -> (forall x, In x l -> 0 <= x) -> a + zsum l <= 2 ^ 53 ->
  fold_left (fun (a : N) w => add a (ofZ w)) l (ofZ a) = ofZ (a + zsum l).
Proof.
  induction l as [|x l IH]; intros a Ha Hx Hs; cbn [fold_left].
  - change (zsum []) with 0. rewrite Z.add_0_r. reflexivity.
  - change (zsum (x :: l)) with (x + zsum l) in *.
    assert (H0 : 0 <= x) by (apply Hx; left; reflexivity).
    assert (H1 : 0 <= zsum l) by (apply zsum_nonneg; intros; apply Hx; right; assumption).
    rewrite (law_add_ofZ N L) by lia. rewrite IH; [f_equal; lia|lia|intros; apply Hx; right; assumption|lia].
Qed.

(** What the code answers at target index [k]. *)
Definition warp_at (src tgt : list Z) (k : Z) : Z :=
  match matched src tgt k with
  | [] => match matched src tgt 0 with [] => hd 0 src | _ => INT64_MIN end
  | l => mean l
  end.

Lemma np_int64_ofZ a : 0 <= a <= 2 ^ 53 -> np_int64 (@ofZ N a) = a.
Proof.
  intros H. unfold np_int64. rewrite (law_trunc_ofZ N L) by lia. unfold INT64_MIN.
  destruct (_ && _) eqn:E; [reflexivity|lia].
Qed.

Theorem warp_total (d : DTW N) mp ref m : r_map d = Some mp ->
  List.length (index1 mp) = List.length (index2 mp) ->
  let src := source_of ref (index1 mp) (index2 mp) in
  let tgt := target_of ref (index1 mp) (index2 mp) in
  (forall x, In x src -> 0 <= x) -> (forall x, In x tgt -> 0 <= x) ->
  is_max m tgt -> zsum src < 2 ^ 53 -> Z.of_nat (List.length src) <= 2 ^ 53 ->
  exists l, warp d ref = Ok l /\ Z.of_nat (List.length l) = m + 1 /\
    forall k, (Z.of_nat k <= m) -> nth_error l k = Some (warp_at src tgt (Z.of_nat k)).
Proof.
  intros Em Hlen src tgt Hs Ht Hm Hsum Hlong. unfold warp. rewrite Em.
  change (if ref then index2 mp else index1 mp) with src.
  change (if ref then index1 mp else index2 mp) with tgt.
  assert (Hl : List.length tgt = List.length src).
  { subst src tgt. destruct ref; cbn; lia. }
  assert (Hne : tgt <> []) by (destruct Hm as [Hm _]; intros E; rewrite E in Hm; destruct Hm).
  destruct (zmax_spec tgt Hne) as [m' [Ez Hm']]. rewrite (is_max_unique _ _ _ Hm' Hm) in Ez. rewrite Ez. cbn [bind].
  assert (Hm0 : 0 <= m) by (apply Ht; apply Hm).
  unfold solveTies.
  destruct (bincount_spec 0 (fun a _ => a + 1) tgt tgt m Ht eq_refl Hm) as [nn [En [Ln Hn]]].
  rewrite En. cbn [bind].
  destruct (bincount_spec (@ofZ N 0) (fun a w => add a (ofZ w)) tgt src m Ht Hl Hm) as [ss [Es [Lss Hss]]].
  rewrite Es. cbn [bind].
  set (yt := zip_with _ ss nn).
  assert (Ly : List.length yt = Z.to_nat (m + 1)) by (subst yt; rewrite zip_with_length; lia).
  replace (arange (Z.of_nat (List.length nn))) with (arange (Z.of_nat (List.length yt))) by (f_equal; lia).
  replace (arange (m + 1)) with (arange (Z.of_nat (List.length yt))) by (f_equal; lia).
  rewrite interp_arange. cbn [bind].
  (* the values *)
  assert (Hy : forall k, Z.of_nat k <= m ->
    nth_error yt k = Some (div (ofZ (zsum (matched src tgt (Z.of_nat k))))
                               (ofZ (Z.of_nat (List.length (matched src tgt (Z.of_nat k))))))).
  { intros k Hk. subst yt.
    rewrite (zip_with_nth _ ss nn k _ _ (Hss k ltac:(lia)) (Hn k ltac:(lia))).
    f_equal. f_equal.
    - rewrite sum_fold; [f_equal; lia|lia|intros x Hx; apply matched_in, in_combine_l in Hx; auto|].
      pose proof (matched_sum src tgt (Z.of_nat k) Hs). lia.
    - rewrite count_fold. f_equal. rewrite (matched_length tgt tgt src); [lia|exact Hl]. }
  assert (Hnan : forall k, Z.of_nat k <= m -> forall v, nth_error yt k = Some v ->
     isnan v = match matched src tgt (Z.of_nat k) with [] => true | _ => false end).
  { intros k Hk v Hv. rewrite (Hy k Hk) in Hv. injection Hv as <-.
    destruct (matched src tgt (Z.of_nat k)) as [|i l] eqn:El.
    - cbn. apply (law_zero_div N L).
    - apply (law_fin_not_nan N L). apply (law_frac_fin N L); rewrite <- El.
      + pose proof (matched_sum src tgt (Z.of_nat k) Hs).
        assert (0 <= zsum (matched src tgt (Z.of_nat k))) by (apply zsum_nonneg; intros x Hx; apply matched_in, in_combine_l in Hx; auto). lia.
      + split; [rewrite El; cbn; lia|].
        unfold matched. rewrite map_length.
        pose proof (filter_len (fun p : Z * Z => Z.eqb (snd p) (Z.of_nat k)) (combine src tgt)) as G.
        rewrite combine_length in G. lia. }
  clearbody yt.
  assert (Hex : exists y0 yt', yt = y0 :: yt') by (destruct yt as [|y0 yt']; [cbn in Ly; lia|eauto]).
  destruct Hex as [y0 [yt' Eyt]].
  assert (H0 : nth_error yt 0 = Some y0) by (rewrite Eyt; reflexivity).
  pose proof (Hnan 0%nat ltac:(lia) y0 H0) as Hn0. change (Z.of_nat 0) with 0 in Hn0.
  assert (Hmean : forall k, Z.of_nat k <= m -> matched src tgt (Z.of_nat k) <> [] ->
     exists v, nth_error yt k = Some v /\ isnan v = false /\ np_int64 v = mean (matched src tgt (Z.of_nat k))).
  { intros k Hk Hmk. eexists. split; [apply (Hy k Hk)|]. split.
    - rewrite (Hnan k Hk _ (Hy k Hk)). destruct (matched src tgt (Z.of_nat k)); [contradiction|reflexivity].
    - pose proof (matched_sum src tgt (Z.of_nat k) Hs).
      assert (0 <= zsum (matched src tgt (Z.of_nat k))) by (apply zsum_nonneg; intros x Hx; apply matched_in, in_combine_l in Hx; auto).
      assert (Hc : 1 <= Z.of_nat (List.length (matched src tgt (Z.of_nat k))) <= 2 ^ 53).
      { split; [destruct (matched src tgt (Z.of_nat k)); [contradiction|cbn; lia]|].
        unfold matched. rewrite map_length.
        pose proof (filter_len (fun p : Z * Z => Z.eqb (snd p) (Z.of_nat k)) (combine src tgt)) as G.
        rewrite combine_length in G. lia. }
      unfold np_int64. rewrite (law_frac_trunc N L) by lia. fold (mean (matched src tgt (Z.of_nat k))).
      assert (0 <= mean (matched src tgt (Z.of_nat k)) <= 2 ^ 53).
      { unfold mean. split; [apply Z.div_pos; lia|]. apply Z.div_le_upper_bound; [lia|]. nia. }
      unfold INT64_MIN. destruct (_ && _) eqn:E; [reflexivity|lia]. }
  assert (Hrep : exists l, repair yt src = Ok l /\ List.length l = List.length yt /\
     forall k, Z.of_nat k <= m -> option_map np_int64 (nth_error l k) = Some (warp_at src tgt (Z.of_nat k))).
  { replace (repair yt src) with (if isnan y0 then match src with [] => Raise IndexError
      | a :: _ => Ok (map (fun v => if isnan v then ofZ a else v) yt) end else Ok yt) by (rewrite Eyt; reflexivity).
    rewrite Hn0. unfold warp_at.
    destruct (matched src tgt 0) as [|i0 l0] eqn:E0.
    - destruct src as [|a src'] eqn:Esrc; [cbn in Hl; destruct tgt; [contradiction|discriminate]|].
      rewrite <- Esrc in *. eexists. split; [reflexivity|]. split; [apply map_length|].
      intros k Hk. rewrite nth_error_map.
      destruct (matched src tgt (Z.of_nat k)) as [|i l] eqn:El.
      + rewrite (Hy k Hk). cbn [option_map]. rewrite (Hnan k Hk _ (Hy k Hk)), El. f_equal.
        rewrite Esrc. cbn [hd]. apply np_int64_ofZ.
        assert (Ha : 0 <= a) by (apply Hs; rewrite Esrc; left; reflexivity).
        assert (a <= zsum src).
        { rewrite Esrc. unfold zsum. cbn. assert (0 <= zsum src') by (apply zsum_nonneg; intros; apply Hs; rewrite Esrc; right; assumption). unfold zsum in *. lia. }
        lia.
      + destruct (Hmean k Hk) as [v [Hv [Hvn Hvi]]]; [rewrite El; discriminate|].
        rewrite Hv. cbn [option_map]. rewrite Hvn, Hvi, El. reflexivity.
    - exists yt. split; [reflexivity|]. split; [reflexivity|]. intros k Hk.
      destruct (matched src tgt (Z.of_nat k)) as [|i l] eqn:El.
      + rewrite (Hy k Hk). cbn [option_map]. unfold np_int64.
        rewrite (law_trunc_nan N L); [reflexivity|]. rewrite (Hnan k Hk _ (Hy k Hk)), El. reflexivity.
      + destruct (Hmean k Hk) as [v [Hv [Hvn Hvi]]]; [rewrite El; discriminate|].
        rewrite Hv. cbn [option_map]. rewrite Hvi, El. reflexivity. }
  destruct Hrep as [l [El [Hll Hlk]]]. rewrite El. cbn [bind].
  eexists. split; [reflexivity|]. rewrite map_length. split; [lia|].
  intros k Hk. rewrite nth_error_map. apply Hlk. exact Hk.
Qed.
End Warp.
