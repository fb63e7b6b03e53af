(** Thm31.v - integer local costs are computed exactly (proofs for C61). *)
From Coq Require Import ZifyBool ZifyNat.
From Verif Require Import Base Num NumQ NumQLaws NumF NumFLaws StepPattern Window Core Backtrack Dtw Spec Api Tables Vocab Terms
  CoreProof DPProof DtwProof ApiProof ApiThms Uniq Thm2 Thm5 Thm7 Thm27 Derived Laws4 Sim IntSpec.
Open Scope string_scope.
Open Scope list_scope.
Open Scope nat_scope.

Section Two.
Context {N N' : Num}.
Variable L : NumLaws N.
Variable L' : NumLaws N'.
Variable F : NumLaws4 N.
Variable F' : NumLaws4 N'.

(** Integers of bounded size, or NaN in both. *)
Definition ints (b : Z) (v : N) (v' : N') : Prop := exists z, (Z.abs z <= b)%Z /\ v = ofZ z /\ v' = ofZ z.
Definition irel (b : Z) (v : N) (v' : N') : Prop := ints b v v' \/ (v = nan /\ v' = nan).
Definition krel (b : Z) (v : N) (v' : N') : Prop := ints b v v' \/ (~ good v /\ ~ good v').

Lemma nan_bad : ~ @good N nan.
Proof. intros G. apply (law_good_not_nan _ L) in G. rewrite (law_nan _ L) in G. discriminate. Qed.
Lemma nan_bad' : ~ @good N' nan.
Proof. intros G. apply (law_good_not_nan _ L') in G. rewrite (law_nan _ L') in G. discriminate. Qed.
Lemma ints_good b v v' : (b <= 2 ^ 53)%Z -> ints b v v' -> good v /\ good v'.
Proof.
  intros Hb [z [Hz [-> ->]]].
  split; [apply (law_fin_good _ L), (law_fin_ofZ _ L)|apply (law_fin_good _ L'), (law_fin_ofZ _ L')]; lia.
Qed.

Lemma bad_fold (cost : nat -> nat -> N) (l : list (nat * nat * N)) i j c : ~ good c ->
  ~ good (fold_left (fun c a => macc c (snd a) (cost (i - fst (fst a)) (j - snd (fst a)))) l c).
Proof.
  revert c. induction l as [|a l IH]; intros c H; [exact H|]. cbn [fold_left]. apply IH.
  intros G. apply H. eapply (law_macc_good _ L). exact G.
Qed.
End Two.

Section Charge.
Context {N N' : Num}.
Variable L : NumLaws N.
Variable L' : NumLaws N'.
Variable F : NumLaws4 N.
Variable F' : NumLaws4 N'.

Lemma fold_int (cost : nat -> nat -> N) (cost' : nat -> nat -> N') (g : nat -> nat -> option Z) (c : Z)
  (l : list (nat * nat * (Z * Z))) i j : (0 <= c)%Z ->
  (forall a, In a l -> cost (i - fst (fst a)) (j - snd (fst a)) = int_cost (g (i - fst (fst a)) (j - snd (fst a))) /\
                       cost' (i - fst (fst a)) (j - snd (fst a)) = int_cost (g (i - fst (fst a)) (j - snd (fst a))) /\
                       (forall z, g (i - fst (fst a)) (j - snd (fst a)) = Some z -> (Z.abs z <= c)%Z)) ->
  (forall a, In a l -> snd (snd a) = 1%Z /\ (0 <= fst (snd a))%Z) ->
  forall b v v', (0 <= b)%Z -> (c <= 2 ^ 53)%Z ->
    (b + c * fold_right Z.add 0 (map (fun a => fst (snd a)) l) <= 2 ^ 53)%Z ->
    (forall a, In a l -> (fst (snd a) <= 2 ^ 53)%Z) ->
    krel b v v' ->
    krel (b + c * fold_right Z.add 0 (map (fun a => fst (snd a)) l))%Z
      (fold_left (fun c a => macc c (snd a) (cost (i - fst (fst a)) (j - snd (fst a)))) (map (fun a => (fst a, weight (snd a))) l) v)
      (fold_left (fun c a => macc c (snd a) (cost' (i - fst (fst a)) (j - snd (fst a)))) (map (fun a => (fst a, weight (snd a))) l) v').
Proof.
  intros Hc. induction l as [|a l IH]; intros HG HW b v v' Hb Hc53 Hbd Hw53 K.
  - cbn. rewrite Z.mul_0_r, Z.add_0_r. exact K.
  - cbn [map fold_left fold_right fst snd] in *.
    destruct (HW a (or_introl eq_refl)) as [W1 W2]. destruct (HG a (or_introl eq_refl)) as [G1 [G2 G3]].
    pose proof (Hw53 a (or_introl eq_refl)) as W3.
    set (S := fold_right Z.add 0%Z (map (fun a : nat * nat * (Z * Z) => fst (snd a)) l)) in *.
    assert (HS : (0 <= S)%Z).
    { unfold S. clear -HW. induction l as [|x l IHl]; [cbn; lia|]. cbn [map fold_right].
      destruct (HW x (or_intror (or_introl eq_refl))) as [_ X]. assert (0 <= fold_right Z.add 0 (map (fun a : nat * nat * (Z * Z) => fst (snd a)) l))%Z; [|lia].
      apply IHl. intros y [Hy|Hy]; apply HW; [left; exact Hy|right; right; exact Hy]. }
    replace (b + c * (fst (snd a) + S))%Z with ((b + c * fst (snd a)) + c * S)%Z by ring.
    assert (EW : forall M : Num, @weight M (snd a) = ofZ (fst (snd a))) by (intros M; unfold weight; rewrite W1; reflexivity).
    rewrite !EW.
    apply IH; auto; try nia.
    + intros x Hx. apply HG. right. exact Hx.
    + intros x Hx. apply HW. right. exact Hx.
    + intros x Hx. apply Hw53. right. exact Hx.
    + rewrite G1, G2. destruct (g _ _) as [z|] eqn:Ez.
      * destruct K as [[t [Ht [-> ->]]]|[B B']].
        -- specialize (G3 z eq_refl). cbn [int_cost].
           assert (Hp : (Z.abs (fst (snd a) * z) <= c * fst (snd a))%Z) by (rewrite Z.abs_mul, (Z.abs_eq (fst (snd a))) by lia; nia).
           assert (c * fst (snd a) <= 2 ^ 53)%Z by nia.
           left. exists (t + fst (snd a) * z)%Z. split; [lia|].
           split; [apply (law_macc_ofZ _ F)|apply (law_macc_ofZ _ F')]; try lia; nia.
        -- right. split; intros G; [apply B|apply B']; [eapply (law_macc_good _ L)|eapply (law_macc_good _ L')]; exact G.
      * right. cbn [int_cost]. split; intros G.
        -- apply (law_macc_obstacle _ L) in G; [apply (nan_bad L) in G; exact G|]. rewrite (law_le_ofZ _ L) by lia. lia.
        -- apply (law_macc_obstacle _ L') in G; [apply (nan_bad' L') in G; exact G|]. rewrite (law_le_ofZ _ L') by lia. lia.
Qed.

(** ** The end column *)
Lemma forallb_isnan_map (f : nat -> N) (f' : nat -> N') s : (forall j, In j s -> isnan (f j) = isnan (f' j)) ->
  forallb isnan (map f s) = forallb isnan (map f' s).
Proof.
  induction s as [|j s IH]; intros H; [reflexivity|]. cbn [map forallb]. rewrite H by (left; reflexivity). rewrite IH; [reflexivity|].
  intros k Hk. apply H. right. exact Hk.
Qed.
Lemma argmin_sim (f : nat -> N) (f' : nat -> N') s i b v v' :
  (forall j, In j s -> ltb (f j) v = ltb (f' j) v') ->
  (forall j k, In j s -> In k s -> ltb (f j) (f k) = ltb (f' j) (f' k)) ->
  np_argmin_from (map f s) i b v = np_argmin_from (map f' s) i b v'.
Proof.
  revert i b v v'. induction s as [|j s IH]; intros i b v v' H1 H2; [reflexivity|]. cbn [map np_argmin_from].
  rewrite <- (H1 j (or_introl eq_refl)). destruct (ltb (f j) v); apply IH.
  - intros k Hk. apply H2; [right; exact Hk|left; reflexivity].
  - intros k k' Hk Hk'. apply H2; right; assumption.
  - intros k Hk. apply H1. right. exact Hk.
  - intros k k' Hk Hk'. apply H2; right; assumption.
Qed.
Lemma nanargmin_sim (f : nat -> N) (f' : nat -> N') s :
  (forall j, In j s -> isnan (f j) = isnan (f' j)) ->
  (forall j k, In j s -> In k s -> isnan (f j) = false -> isnan (f k) = false -> ltb (f j) (f k) = ltb (f' j) (f' k)) ->
  (forall j, In j s -> isnan (f j) = false -> good (f j) /\ good (f' j)) ->
  nanargmin (map f s) = nanargmin (map f' s).
Proof.
  intros H1 H2 H3. unfold nanargmin. rewrite (forallb_isnan_map f f' s H1). destruct (forallb isnan (map f' s)); [reflexivity|].
  rewrite !map_map. destruct s as [|j s]; [reflexivity|]. cbn [map].
  assert (Q : forall j0 k, In j0 (j :: s) -> In k (j :: s) ->
    ltb (if isnan (f j0) then pinf else f j0) (if isnan (f k) then pinf else f k) =
    ltb (if isnan (f' j0) then pinf else f' j0) (if isnan (f' k) then pinf else f' k)).
  { intros a b Ha Hb. rewrite <- (H1 a Ha), <- (H1 b Hb). destruct (isnan (f a)) eqn:Ea, (isnan (f b)) eqn:Eb.
    - rewrite (law_lt_irrefl _ L), (law_lt_irrefl _ L'). reflexivity.
    - destruct (H3 b Hb Eb) as [G G'].
      assert (X : forall (M : Num) (LM : NumLaws M) (x : M), good x -> ltb pinf x = false).
      { intros M LM x Gx. destruct (ltb pinf x) eqn:E; [|reflexivity]. pose proof (law_lt_trans _ LM _ _ _ E Gx) as C.
        rewrite (law_lt_irrefl _ LM) in C. discriminate. }
      rewrite (X N L), (X N' L'); auto.
    - destruct (H3 a Ha Ea) as [G G']. unfold good in G, G'. rewrite G, G'. reflexivity.
    - apply H2; assumption. }
  f_equal. apply (argmin_sim (fun j0 => if isnan (f j0) then pinf else f j0) (fun j0 => if isnan (f' j0) then pinf else f' j0)).
  - intros k Hk. apply Q; [right; exact Hk|left; reflexivity].
  - intros k k' Hk Hk'. apply Q; right; assumption.
Qed.

(** ** The cells of the problem that is solved *)
Definition gcell (g : mat (option Z)) (i j : nat) : option Z := match mget g i j with Some c => c | None => None end.
Definition pcell (ob : bool) (g : mat (option Z)) (i j : nat) : option Z :=
  if ob then (if i =? 0 then Some 0%Z else gcell g (i - 1) j) else gcell g i j.

Lemma gcell_ok (M : Num) g i j : cell (map_mat (@int_cost M) g) i j = int_cost (gcell g i j).
Proof.
  unfold cell, gcell, mget, map_mat. cbn [nr nc dat]. destruct (_ && _); [|reflexivity].
  rewrite nth_error_map. destruct (nth_error _ _); reflexivity.
Qed.
Lemma gcell_within g c i j z : costs_within c g -> gcell g i j = Some z -> (Z.abs z <= c)%Z.
Proof.
  intros H. unfold gcell, mget. destruct (_ && _); [|discriminate]. destruct (nth_error (dat g) (i * nc g + j)) as [v|] eqn:E; [|discriminate].
  intros ->. apply H. eapply nth_error_In. exact E.
Qed.
Lemma map_mat_wf (M : Num) g : List.length (dat g) = nr g * nc g -> wf_mat (map_mat (@int_cost M) g).
Proof. intros H. unfold wf_mat, map_mat. cbn [nr nc dat]. rewrite map_length. exact H. Qed.
Lemma pcell_ok (M : Num) (o : opts M) g i j : List.length (dat g) = nr g * nc g ->
  i < nr (p_lm o (map_mat int_cost g)) -> j < nc g ->
  cell (p_lm o (map_mat int_cost g)) i j = int_cost (pcell (o_open_begin o) g i j).
Proof.
  intros Hl Hi Hj. rewrite p_lm_nr in Hi. unfold p_lm, pcell. destruct (o_open_begin o).
  - cbn [nr map_mat] in Hi. rewrite padded_cell by (try apply map_mat_wf; auto). destruct (i =? 0); [reflexivity|]. apply gcell_ok.
  - apply gcell_ok.
Qed.
Lemma pcell_within ob g c i j z : (0 <= c)%Z -> costs_within c g -> pcell ob g i j = Some z -> (Z.abs z <= c)%Z.
Proof.
  intros H0 H. unfold pcell. destruct ob; [destruct (i =? 0); [intros E; injection E as <-; lia|]|]; apply gcell_within; exact H.
Qed.

Lemma wdown_le di dj (l : list (nat * nat * (Z * Z))) a : wdown di dj l = true -> In a l ->
  fst (fst a) <= di /\ snd (fst a) <= dj.
Proof.
  revert di dj. induction l as [|[[oi oj] w] l IH]; intros di dj H Ha; [destruct Ha|]. cbn [wdown] in H.
  destruct Ha as [<-|Ha]; [cbn; lia|]. destruct (IH oi oj) as [A B]; [lia|exact Ha|]. lia.
Qed.

Lemma irel_lists b (l : list N) (l' : list N') : Forall2 (irel b) l l' ->
  exists lz, l = map int_cost lz /\ l' = map int_cost lz.
Proof.
  induction 1 as [|v v' l l' H _ [lz [-> ->]]]; [exists []; auto|].
  destruct H as [[z [_ [-> ->]]]|[-> ->]]; [exists (Some z :: lz)|exists (None :: lz)]; auto.
Qed.
Lemma forall2_of_nth {A B} (R : A -> B -> Prop) l l' : List.length l = List.length l' ->
  (forall q x y, nth_error l q = Some x -> nth_error l' q = Some y -> R x y) -> Forall2 R l l'.
Proof.
  revert l'. induction l as [|a l IH]; intros [|b l'] H HR; try discriminate; [constructor|].
  constructor; [apply (HR 0); reflexivity|]. apply IH; [cbn in H; lia|]. intros q x y Hx Hy. apply (HR (S q)); assumption.
Qed.
Lemma reps_forall2 {A B} (R : A -> B -> Prop) n m l l' f f' : reps n m l f -> reps n m l' f' ->
  (forall i j, i < n -> j < m -> R (f i j) (f' i j)) -> Forall2 R l l'.
Proof.
  intros [Hl H] [Hl' H'] HR. apply forall2_of_nth; [congruence|]. intros q x y Hx Hy.
  assert (Hq : q < n * m) by (rewrite <- Hl; apply nth_error_Some; congruence).
  assert (Hm : 0 < m) by nia.
  pose proof (Nat.div_mod q m ltac:(lia)) as D. pose proof (Nat.mod_upper_bound q m ltac:(lia)) as U.
  assert (Hd : q / m < n) by (apply Nat.div_lt_upper_bound; lia).
  assert (Eq : q = q / m * m + q mod m) by lia.
  rewrite Eq, H in Hx by assumption. rewrite Eq, H' in Hy by assumption.
  injection Hx as <-. injection Hy as <-. apply HR; assumption.
Qed.

(** The divisor a hint stands for. *)
Definition divisor (h : string) (n j : nat) : Z :=
  if String.eqb h "N+M" then (Z.of_nat n + Z.of_nat j + 1)%Z else if String.eqb h "N" then Z.of_nat n
  else if String.eqb h "M" then (1 + Z.of_nat j)%Z else 1%Z.
End Charge.

Lemma normalized_int {M : Num} (LM : NumLaws M) h n j z : (Z.abs z <= 2 ^ 53)%Z ->
  normalized h n j (@ofZ M z) = div (ofZ z) (ofZ (divisor h n j)).
Proof.
  intros Hz. unfold normalized, divisor. destruct (String.eqb h "N+M"); [reflexivity|]. destruct (String.eqb h "N"); [reflexivity|].
  destruct (String.eqb h "M"); [reflexivity|]. rewrite <- (Z.mul_1_r z) at 2. symmetry. apply (law_div_exact _ LM); lia.
Qed.
Lemma normalized_nan {M : Num} (LM : NumLaws M) h n j v : (1 <= divisor h n j <= 2 ^ 53)%Z ->
  isnan (@normalized M h n j v) = isnan v.
Proof.
  unfold normalized, divisor. intros H. destruct (String.eqb h "N+M"); [apply (law_div_nan _ LM); exact H|].
  destruct (String.eqb h "N"); [apply (law_div_nan _ LM); exact H|]. destruct (String.eqb h "M"); [apply (law_div_nan _ LM); exact H|]. reflexivity.
Qed.
Lemma divisor_bound h n j m : 0 < n -> j < m -> (1 <= divisor h n j <= Z.of_nat n + Z.of_nat m)%Z.
Proof. intros Hn Hj. unfold divisor. destruct (String.eqb _ _); [lia|]. destruct (String.eqb _ _); [lia|]. destruct (String.eqb _ _); lia. Qed.

Section Calls.
Context {N N' : Num}.
Variable L : NumLaws N.
Variable L' : NumLaws N'.
Variable F : NumLaws4 N.
Variable F' : NumLaws4 N'.

(** ** The recurrence, on integers *)
Definition ibound (k c : Z) (i j : nat) : Z := (k * c * (1 + Z.of_nat i + Z.of_nat j))%Z.
Lemma ibound_nonneg k c i j : (0 <= c)%Z -> (1 <= k)%Z -> (0 <= ibound k c i j)%Z.
Proof. intros. unfold ibound. nia. Qed.
Lemma ibound_cost k c i j : (0 <= c)%Z -> (1 <= k)%Z -> (c <= ibound k c i j)%Z.
Proof. intros. unfold ibound. nia. Qed.
Lemma ibound_all k c i j a b S : (0 <= c)%Z -> (1 <= k)%Z -> i < a -> j < b -> (Z.of_nat a + Z.of_nat b <= S + 1)%Z -> (ibound k c i j <= k * c * S)%Z.
Proof. intros. unfold ibound. apply Z.mul_le_mono_nonneg_l; nia. Qed.
Lemma ibound_step k c i j di dj s : (0 <= c)%Z -> di <= i -> dj <= j ->
  (s <= k * (Z.of_nat di + Z.of_nat dj))%Z -> (ibound k c (i - di) (j - dj) + c * s <= ibound k c i j)%Z.
Proof.
  intros Hc Hdi Hdj Hs. unfold ibound. rewrite (Nat2Z.inj_sub _ _ Hdi), (Nat2Z.inj_sub _ _ Hdj).
  assert (c * s <= c * (k * (Z.of_nat di + Z.of_nat dj)))%Z by (apply Z.mul_le_mono_nonneg_l; assumption). lia.
Qed.
Lemma int_not_nan z : (Z.abs z <= 2 ^ 53)%Z -> isnan (@ofZ N z) = false /\ isnan (@ofZ N' z) = false.
Proof.
  intros H. rewrite (law_fin_not_nan _ L _ (law_fin_ofZ _ L z H)), (law_fin_not_nan _ L' _ (law_fin_ofZ _ L' z H)). auto.
Qed.
Lemma int_cost_rel (v : option Z) b : (b <= 2 ^ 53)%Z -> (forall z, v = Some z -> (Z.abs z <= b)%Z) ->
  isnan (@int_cost N v) = isnan (@int_cost N' v) /\ irel b (@int_cost N v) (@int_cost N' v).
Proof.
  intros Hb H. destruct v as [z|]; cbn [int_cost].
  - specialize (H z eq_refl). destruct (int_not_nan z ltac:(lia)) as [-> ->]. split; [reflexivity|]. left. exists z. auto.
  - rewrite (law_nan _ L), (law_nan _ L'). split; [reflexivity|right; auto].
Qed.
Lemma wvalid_parts wr : wvalid wr = true ->
  wdown (w_di wr) (w_dj wr) (w_add wr) = true /\ (forall a, In a (w_add wr) -> (fst (snd a) <= 2 ^ 53)%Z).
Proof.
  unfold wvalid. intros Wv. apply andb_prop in Wv. destruct Wv as [Wv _]. apply andb_prop in Wv. destruct Wv as [Wv _].
  apply andb_prop in Wv. destruct Wv as [Wv Wk]. apply andb_prop in Wv. destruct Wv as [_ Wd]. split; [exact Wd|].
  rewrite forallb_forall in Wk. intros a Ha. specialize (Wk a Ha). unfold wweight_ok in Wk. lia.
Qed.
Lemma shapes (l : list wrule) : Forall2 same_shape (@productions N l) (@productions N' l).
Proof.
  unfold productions. induction l as [|r l IH]; cbn [map]; constructor; [|exact IH].
  unfold same_shape, production. cbn [r_di r_dj r_add]. rewrite !map_map. auto.
Qed.

Lemma int_bellman (l : list wrule) n m (pc ps : nat -> nat -> option Z) cost cost' seed seed' win k c cmf smf cmf' smf' :
  (0 <= c)%Z -> (1 <= k)%Z ->
  forallb valid_rule (@productions N l) = true -> (forall r, In r l -> wvalid r = true) -> whole_weights k l ->
  (forall i j, i < n -> j < m -> (ibound k c i j <= 2 ^ 53)%Z) ->
  (forall i j, i < n -> j < m -> cost i j = int_cost (pc i j) /\ cost' i j = int_cost (pc i j)) ->
  (forall i j, i < n -> j < m -> seed i j = int_cost (ps i j) /\ seed' i j = int_cost (ps i j)) ->
  (forall i j z, pc i j = Some z -> (Z.abs z <= c)%Z) -> (forall i j z, ps i j = Some z -> (Z.abs z <= c)%Z) ->
  @bellman N (productions l) n m cost seed win cmf smf -> @bellman N' (productions l) n m cost' seed' win cmf' smf' ->
  forall i j, i < n -> j < m -> irel (ibound k c i j) (cmf i j) (cmf' i j) /\ smf i j = smf' i j.
Proof.
  intros Hc Hk Hv HG HWW Hbd Hcost Hseed Hpc Hps HB HB2.
  apply (bellman_sim L L' (productions l) (productions l) (shapes l) Hv n m cost seed cost' seed'
       win (fun i j => irel (ibound k c i j)) (fun i j v v' => i < n /\ j < m /\ krel (ibound k c i j) v v')).
  - intros i j Hi Hj. destruct (Hseed i j Hi Hj) as [-> ->]. apply int_cost_rel; [apply Hbd; assumption|].
    intros z Hz. pose proof (Hps _ _ _ Hz). pose proof (ibound_cost k c i j Hc Hk). lia.
  - intros q r r' i j a a' Hr Hr' Hi Hj Hdi Hdj Hir. split; [exact Hi|]. split; [exact Hj|].
    unfold productions in Hr, Hr'. rewrite nth_error_map in Hr, Hr'. destruct (nth_error l q) as [wr|] eqn:Ewr; [|discriminate].
    injection Hr as <-. injection Hr' as <-. cbn [production r_di r_dj] in Hdi, Hdj, Hir.
    pose proof (nth_error_In _ _ Ewr) as Hin. destruct (HWW wr Hin) as [W1 W2].
    destruct (wvalid_parts wr (HG wr Hin)) as [Wd Wk].
    pose proof (ibound_step k c i j (w_di wr) (w_dj wr) _ Hc Hdi Hdj W2) as Hs.
    pose proof (Hbd i j Hi Hj) as H53. pose proof (ibound_cost k c i j Hc Hk) as Hc1.
    pose proof (ibound_nonneg k c (i - w_di wr) (j - w_dj wr) Hc Hk) as H0.
    set (b0 := ibound k c (i - w_di wr) (j - w_dj wr)) in *.
    assert (X : krel (b0 + c * fold_right Z.add 0 (map (fun a => fst (snd a)) (w_add wr)))%Z
                  (charge cost (production wr) i j a) (charge cost' (production wr) i j a')).
    { unfold charge, production. cbn [r_add].
      apply (fold_int L L' F F' _ _ pc); auto.
      - intros x Hx. destruct (Hcost (i - fst (fst x)) (j - snd (fst x)) ltac:(lia) ltac:(lia)) as [A B].
        split; [exact A|]. split; [exact B|]. intros z Hz. eapply Hpc. exact Hz.
      - lia.
      - lia.
      - destruct Hir as [Hir|[-> ->]]; [left; exact Hir|right; split; [apply (nan_bad L)|apply (nan_bad' L')]]. }
    destruct X as [[z [Hz Ez]]|X]; [left; exists z; split; [lia|exact Ez]|right; exact X].
  - intros i j v v' [Hi [Hj [Hx|[A B]]]]; [|split; intros; contradiction].
    destruct (ints_good L L' _ _ _ (Hbd i j Hi Hj) Hx). split; auto.
  - intros i j v v' u u' Hi Hj [_ [_ [[z [Hz [-> ->]]]|[A _]]]] [_ [_ [[y [Hy [-> ->]]]|[B _]]]] Gv Gu; try contradiction.
    pose proof (Hbd i j Hi Hj). rewrite (law_le_ofZ _ L), (law_le_ofZ _ L'), (law_lt_ofZ _ L), (law_lt_ofZ _ L') by lia. auto.
  - intros i j v v' [_ [_ [Hx|[A _]]]] Gv; [left; exact Hx|contradiction].
  - exact HB.
  - exact HB2.
Qed.

(** ** The end column *)
Lemma int_choose h n m b (last : nat -> N) (last' : nat -> N') :
  h <> "NA" -> 0 < n -> (Z.of_nat n + Z.of_nat m <= 2 ^ 53)%Z -> (0 <= b)%Z -> (b <= 2 ^ 53)%Z ->
  (b * (Z.of_nat n + Z.of_nat m) < 2 ^ 52)%Z ->
  (forall j, j < m -> irel b (last j) (last' j)) ->
  nanargmin (map (fun j => nrm h n j (last j)) (seq 0 m)) = nanargmin (map (fun j => nrm h n j (last' j)) (seq 0 m)).
Proof.
  intros Hna Hn Hnm Hb0 Hb53 Hb HR.
  assert (Hdv : forall j, j < m -> (1 <= divisor h n j <= Z.of_nat n + Z.of_nat m)%Z) by (intros j Hj; apply divisor_bound; assumption).
  assert (En : forall (P : Num) j (v : P), nrm h n j v = normalized h n j v).
  { intros P j v. unfold nrm. destruct (String.eqb_spec h "NA"); [contradiction|reflexivity]. }
  assert (Enan : forall j, j < m -> isnan (last j) = isnan (last' j)).
  { intros j Hj. destruct (HR j Hj) as [[z [Hz [-> ->]]]|[-> ->]].
    - destruct (int_not_nan z ltac:(lia)) as [-> ->]. reflexivity.
    - rewrite (law_nan _ L), (law_nan _ L'). reflexivity. }
  apply (nanargmin_sim L L').
  - intros j Hj. apply in_seq in Hj. rewrite !En.
    pose proof (Hdv j ltac:(lia)). rewrite (normalized_nan L), (normalized_nan L') by lia. apply Enan. lia.
  - intros i j Hi Hj. apply in_seq in Hi. apply in_seq in Hj. rewrite !En. pose proof (Hdv i ltac:(lia)) as Di. pose proof (Hdv j ltac:(lia)) as Dj.
    rewrite !(normalized_nan L) by lia. intros Ni Nj.
    destruct (HR i ltac:(lia)) as [[z [Hz [-> ->]]]|[X _]]; [|rewrite X, (law_nan _ L) in Ni; discriminate].
    destruct (HR j ltac:(lia)) as [[y [Hy [-> ->]]]|[X _]]; [|rewrite X, (law_nan _ L) in Nj; discriminate].
    rewrite !(normalized_int L), !(normalized_int L') by lia.
    assert (Hx : (Z.abs z * divisor h n j + Z.abs y * divisor h n i < 2 ^ 53)%Z).
    { assert (Z.abs z * divisor h n j <= b * (Z.of_nat n + Z.of_nat m))%Z by (apply Z.mul_le_mono_nonneg; lia).
      assert (Z.abs y * divisor h n i <= b * (Z.of_nat n + Z.of_nat m))%Z by (apply Z.mul_le_mono_nonneg; lia). lia. }
    rewrite (law_frac_lt _ F), (law_frac_lt _ F') by lia. reflexivity.
  - intros j Hj. apply in_seq in Hj. rewrite !En. pose proof (Hdv j ltac:(lia)) as Dj. rewrite (normalized_nan L) by lia. intros Nj.
    destruct (HR j ltac:(lia)) as [[y [Hy [-> ->]]]|[X _]]; [|rewrite X, (law_nan _ L) in Nj; discriminate].
    rewrite (normalized_int L), (normalized_int L') by lia.
    split; [apply (law_fin_good _ L), (law_frac_fin _ L)|apply (law_fin_good _ L'), (law_frac_fin _ L')]; lia.
Qed.

(** ** Two well-posed calls *)
Theorem int_calls cdist cdist' x y x' y' (g : mat (option Z)) (o : opts N) (o' : opts N') sp sp' (l : list wrule) w w' c k :
  let lm := map_mat int_cost g in let lm' := map_mat int_cost g in
  well_posed cdist x y o lm sp (productions l) w ->
  well_posed cdist' x' y' o' lm' sp' (productions l) w' ->
  hint sp = hint sp' -> o_open_end o = o_open_end o' -> o_open_begin o = o_open_begin o' ->
  o_distance_only o = o_distance_only o' -> o_keep_internals o = o_keep_internals o' ->
  (forall i j, i < rows_used (o_open_begin o) lm -> j < nc lm ->
     (in_window w (o_window_args o) (rows_used (o_open_begin o) lm) (nc lm) i j <->
      in_window w' (o_window_args o') (rows_used (o_open_begin o) lm) (nc lm) i j)) ->
  List.length (dat g) = nr g * nc g ->
  (0 <= c)%Z -> (1 <= k)%Z -> costs_within c g -> whole_weights k l -> wgood l ->
  (k * c * (Z.of_nat (nr g) + Z.of_nat (nc g)) <= 2 ^ 53)%Z ->
  (o_open_end o = true -> k * c * (Z.of_nat (nr g) + Z.of_nat (nc g)) ^ 2 < 2 ^ 52)%Z ->
  match dtw cdist x y o, dtw cdist' x' y' o' with
  | Ok d, Ok d' => same_int_result d d'
  | Raise e, Raise e' => e = e'
  | _, _ => False
  end.
Proof.
  intros lm lm' WP WP' Eh Eoe Eob Edo Eki EW Hl Hc Hk HC HWW HG Hb Hb2.
  destruct (wp_finish_any L _ _ _ _ _ _ _ _ WP) as [cm [dm [cmf [smf [win [E [Rc [Rs [Hwi HB]]]]]]]]].
  destruct (wp_finish_any L' _ _ _ _ _ _ _ _ WP') as [cm' [dm' [cmf' [smf' [win' [E' [Rc' [Rs' [Hwi' HB']]]]]]]]].
  assert (Er : nr (p_lm o' lm') = nr (p_lm o lm)) by (rewrite !p_lm_nr, <- Eob; reflexivity).
  change (nc lm') with (nc lm) in *. rewrite Er in *.
  assert (Eru : rows_used (o_open_begin o) lm = nr (p_lm o lm)) by (rewrite p_lm_nr; reflexivity). rewrite Eru in *.
  set (R := nr (p_lm o lm)) in *. set (M := nc lm) in *.
  assert (HR : R <= nr g + 1) by (unfold R; rewrite p_lm_nr; unfold lm; cbn [nr map_mat]; clear; destruct (o_open_begin o); lia).
  assert (HRo : o_open_begin o = false -> R = nr g) by (intros Eo; unfold R; rewrite p_lm_nr, Eo; reflexivity).
  assert (HM : M = nc g) by reflexivity.
  pose proof (wp_query _ _ _ _ _ _ _ _ WP) as Hq. change (nr lm) with (nr g) in Hq.
  pose proof (wp_size _ _ _ _ _ _ _ _ WP) as Hsz. rewrite Eru in Hsz. destruct Hsz as [HR0 [HM0 Hsz]]. fold M in HM0.
  pose proof (proj1 (proj2 (proj2 (wp_rules _ _ _ _ _ _ _ _ WP)))) as Hv.
  pose proof (wp_rules _ _ _ _ _ _ _ _ WP) as Hp. pose proof (wp_rules _ _ _ _ _ _ _ _ WP') as Hp'.
  assert (HS : (Z.of_nat R + Z.of_nat M <= (Z.of_nat (nr g) + Z.of_nat (nc g)) + 1)%Z) by (clear -HR HM; lia).
  assert (Hbd : forall i j, i < R -> j < M -> (ibound k c i j <= k * c * (Z.of_nat (nr g) + Z.of_nat (nc g)))%Z).
  { intros i j Hi Hj. exact (ibound_all k c i j R M _ Hc Hk Hi Hj HS). }
  assert (Hbd2 : forall i j, i < R -> j < M -> (ibound k c i j <= 2 ^ 53)%Z).
  { intros i j Hi Hj. eapply Z.le_trans; [apply Hbd; assumption|exact Hb]. }
  assert (Hshape : Forall2 same_shape (@productions N l) (@productions N' l)) by apply shapes.
  assert (Hwin : forall i j, i < R -> j < M -> win' i j = win i j).
  { intros i j Hi Hj. pose proof (Hwi i j Hi Hj) as A. pose proof (Hwi' i j Hi Hj) as B. pose proof (EW i j Hi Hj) as C.
    destruct (win i j), (win' i j); try reflexivity; exfalso.
    - assert (false = true) by (apply B, C, A; reflexivity). discriminate.
    - assert (false = true) by (apply A, C, B; reflexivity). discriminate. }
  assert (HB2 : bellman (productions l) R M (cell (p_lm o' lm')) (p_seed o' lm') win cmf' smf').
  { intros i j Hi Hj. pose proof (HB' i j Hi Hj) as Q. unfold cell_eq in *. rewrite <- (Hwin i j Hi Hj). exact Q. }
  assert (PC : forall a b, a < R -> b < M -> cell (p_lm o lm) a b = int_cost (pcell (o_open_begin o) g a b) /\
                 cell (p_lm o' lm') a b = int_cost (pcell (o_open_begin o) g a b)).
  { intros a b Ha Hb'. split; [apply pcell_ok; [exact Hl|exact Ha|exact Hb']|].
    rewrite Eob. apply pcell_ok; [exact Hl|fold lm'; rewrite Er; exact Ha|exact Hb']. }
  set (ps := fun i j => if o_open_begin o then if Nat.eqb i 0 then Some 0%Z else None
                        else if (Nat.eqb i 0 && Nat.eqb j 0)%bool then gcell g 0 0 else None).
  assert (SIM : forall i j, i < R -> j < M -> irel (ibound k c i j) (cmf i j) (cmf' i j) /\ smf i j = smf' i j).
  { apply (int_bellman l R M (pcell (o_open_begin o) g) ps (cell (p_lm o lm)) (cell (p_lm o' lm')) (p_seed o lm) (p_seed o' lm') win); auto.
    - destruct HG as [_ [G _]]. rewrite forallb_forall in G. exact G.
    - intros i j Hi Hj. unfold p_seed, ps. rewrite <- Eob. destruct (o_open_begin o).
      + unfold pseed. destruct (Nat.eqb i 0); split; reflexivity.
      + unfold seed0. destruct (Nat.eqb i 0 && Nat.eqb j 0)%bool; [|split; reflexivity].
        unfold lm, lm'. rewrite !gcell_ok. split; reflexivity.
    - intros i j z Hz. eapply pcell_within; eauto.
    - intros i j z. unfold ps. destruct (o_open_begin o).
      + destruct (Nat.eqb i 0); [|discriminate]. intros [= <-]. exact Hc.
      + destruct (Nat.eqb i 0 && Nat.eqb j 0)%bool; [|discriminate]. intros Hz. eapply gcell_within; eauto. }
  assert (R1 : R - 1 < R) by (clear -HR0; lia).
  assert (Enan : forall j, j < M -> isnan (cmf (R - 1) j) = isnan (cmf' (R - 1) j)).
  { intros j Hj. destruct (SIM (R - 1) j R1 Hj) as [[[z [Hz [-> ->]]]|[-> ->]] _].
    - destruct (int_not_nan z) as [-> ->]; [|reflexivity]. eapply Z.le_trans; [exact Hz|]. apply Hbd2; assumption.
    - rewrite (law_nan _ L), (law_nan _ L'). reflexivity. }
  assert (Ech : choose o (hint sp) (nr lm) (nc lm) (cmf (R - 1)) = choose o' (hint sp') (nr lm') (nc lm') (cmf' (R - 1))).
  { unfold choose. rewrite <- Eh, <- Eoe. destruct (o_open_end o) eqn:Eo; [|reflexivity].
    destruct (String.eqb_spec (hint sp) "NA") as [|Hna]; [reflexivity|].
    change (nc lm') with M. change (nc lm) with M. change (nr lm') with (nr g). change (nr lm) with (nr g).
    specialize (Hb2 eq_refl).
    apply (int_choose (hint sp) (nr g) M (k * c * (Z.of_nat (nr g) + Z.of_nat (nc g)))); auto.
    - unfold INT_MAX in Hsz. assert (nr g <= R) by (unfold R; rewrite p_lm_nr; unfold lm; cbn [nr map_mat]; clear; destruct (o_open_begin o); lia).
      clear -Hsz H HR0 HM0. nia.
    - clear -Hc Hk. assert (0 <= k * c)%Z by nia. nia.
    - rewrite HM. clear -Hb2. lia.
    - intros j Hj. destruct (SIM (R - 1) j R1 Hj) as [[[z [Hz Q]]|Q] _]; [left|right; exact Q]. exists z. split; [|exact Q].
      eapply Z.le_trans; [exact Hz|]. apply Hbd; assumption. }
  rewrite E, E'. unfold finish_any. change (nr lm') with (nr lm) in *. change (nc lm') with (nc lm) in *. rewrite Ech. change (nc lm) with M.
  destruct (choose o' (hint sp') (nr lm) M (cmf' (R - 1))) as [jm|e| | |] eqn:Ej; cbn [bind]; auto.
  all: try (exfalso; clear -Ej; unfold choose in Ej; destruct (o_open_end o'); [destruct (String.eqb _ _); [discriminate|]; unfold nanargmin in Ej; destruct (forallb _ _); [discriminate|]; destruct (map _ (map _ _)); discriminate|discriminate]).
  assert (Hjm : jm < M) by (apply (choose_bound _ _ _ _ _ _ HM0 Ej)).
  rewrite <- (Enan jm Hjm). destruct (isnan (cmf (R - 1) jm)) eqn:En; [reflexivity|].
  pose proof (SIM (R - 1) jm R1 Hjm) as [Hd _].
  destruct Hd as [[z [Hz [Ez Ez']]]|[X _]]; [|rewrite X, (law_nan _ L) in En; discriminate].
  assert (En' : isnan (cmf' (R - 1) jm) = false) by (rewrite <- (Enan jm Hjm); exact En).
  destruct (traced_exists L _ _ _ _ _ _ _ _ (R - 1) jm Hv HB R1 Hjm En) as [ks [vs [ts [HT _]]]].
  assert (HT' : traced (@productions N' l) smf' (R - 1) jm ks vs ts).
  { eapply traced_sim; [exact Hshape|exact HT|]. intros a b Ha Hb'. symmetry. apply SIM; [clear -R1 Ha; lia|clear -Hjm Hb'; lia]. }
  pose proof (backtrack_path L (productions l) sp R M smf (Mat R M dm) jm ks vs ts Hp eq_refl eq_refl Rs HT HR0 Hjm) as B1.
  pose proof (backtrack_path L' (productions l) sp' R M smf' (Mat R M dm') jm ks vs ts Hp' eq_refl eq_refl Rs' HT' HR0 Hjm) as B2.
  rewrite <- Edo, <- Eob.
  assert (Edm : dm = dm') by (eapply reps_inj; [exact Rs|exact Rs'|]; intros; apply SIM; assumption).
  assert (Ecm : exists lz, cm = map int_cost lz /\ cm' = map int_cost lz).
  { apply (irel_lists (2 ^ 53)). eapply reps_forall2; [exact Rc|exact Rc'|]. intros i j Hi Hj.
    destruct (SIM i j Hi Hj) as [[[y0 [Hy Ey]]|X] _]; [left; exists y0; split; [eapply Z.le_trans; [exact Hy|]; apply Hbd2; assumption|exact Ey]|right; exact X]. }
  destruct Ecm as [lz [Ec Ec']].
  assert (S : forall mp, same_int_result
     (result o lm (qr_of x y) sp w jm (cmf (R - 1) jm) mp (Mat R M cm) (Mat R M dm))
     (result o' lm' (qr_of x' y') sp' w' jm (cmf' (R - 1) jm) mp (Mat R M cm') (Mat R M dm'))).
  { intros mp. unfold same_int_result, result. cbn [r_N r_M r_jmin r_map r_directionMatrix r_distance r_costMatrix r_normalizedDistance].
    split; [reflexivity|]. split; [reflexivity|]. split; [reflexivity|]. split; [reflexivity|].
    split; [rewrite <- Edm, <- Eki, <- Eob; reflexivity|].
    exists z. split; [exact Ez|]. split; [exact Ez'|]. split.
    - rewrite <- Eki, <- Eob. destruct (o_keep_internals o); [|exists None; split; reflexivity].
      destruct (o_open_begin o).
      + exists (Some (drop_first_row (Mat R M lz))). unfold drop_first_row, map_mat. cbn [nr nc dat option_map].
        rewrite Ec, Ec', !skipn_map. split; reflexivity.
      + exists (Some (Mat R M lz)). unfold map_mat. cbn [nr nc dat option_map]. rewrite Ec, Ec'. split; reflexivity.
    - rewrite <- Eh. destruct (String.eqb (hint sp) "NA"); [right; auto|]. left. exists (divisor (hint sp) (nr g) jm).
      change (nr lm') with (nr g). change (nr lm) with (nr g). rewrite Ez, Ez'.
      assert (Hz53 : (Z.abs z <= 2 ^ 53)%Z) by (eapply Z.le_trans; [exact Hz|]; apply Hbd2; assumption).
      rewrite (normalized_int L), (normalized_int L') by exact Hz53.
      split; [|split; reflexivity]. apply (divisor_bound (hint sp) (nr g) jm (nc g) Hq). rewrite <- HM. exact Hjm. }
  destruct (o_distance_only o) eqn:Ed; cbn [bind].
  - destruct (o_open_begin o) eqn:Eb; [reflexivity|]. cbn [andb]. apply S.
  - rewrite B1, B2. cbn [bind]. rewrite andb_false_r. cbn [option_map]. apply S.
Qed.
End Calls.

(** ** The same call in another arithmetic *)
Section Transfer.
Context {N N' : Num}.
Variable L : NumLaws N.
Variable L' : NumLaws N'.

Lemma hint_same k (sp : steppat N) (sp' : steppat N') : lookup k pattern_table = Some sp -> lookup k pattern_table = Some sp' ->
  hint sp = hint sp'.
Proof.
  unfold pattern_table. rewrite !lookup_cons.
  repeat (destruct (String.eqb _ _); [intros H H'; injection H as <-; injection H' as <-; reflexivity|]).
  intros H. discriminate H.
Qed.

Lemma int_transfer cdist cdist' x y x' y' (g : mat (option Z)) (o : iopts) (sp : steppat N) (l : list wrule) (w : winfun N) :
  costs_of cdist' x' y' (map_mat int_cost g) -> native_array x' y' ->
  irules (i_pattern o) = Some l -> wgood l ->
  (forall s, i_window o = ISakoeChiba s -> (Z.abs s <= 2 ^ 53)%Z) ->
  well_posed cdist x y (int_opts o) (map_mat int_cost g) sp (productions l) w ->
  exists (sp' : steppat N') (w' : winfun N'),
    well_posed cdist' x' y' (int_opts o) (map_mat int_cost g) sp' (productions l) w' /\ hint sp = hint sp' /\
    forall i j n m, (Z.of_nat n <= 2 ^ 53)%Z -> (Z.of_nat m <= 2 ^ 53)%Z -> i < n -> j < m ->
      (in_window w (o_window_args (@int_opts N o)) n m i j <-> in_window w' (o_window_args (@int_opts N' o)) n m i j).
Proof.
  intros Hco Hna Hl HG HS [C1 C2 C3 C4 C5 C6 C7 C8 C9 C10].
  assert (X : exists sp' : steppat N', pattern_of (o_step_pattern (@int_opts N' o)) sp' /\ pattern_rules sp' (productions l) /\ hint sp = hint sp').
  { unfold int_opts in *. cbn [o_step_pattern] in *. destruct (i_pattern o) as [k|l' h]; cbn [irules] in Hl.
    - inversion C3; subst. destruct (@predefined_object N' k l Hl) as [sp' [E' Em]]. exists sp'.
      split; [constructor; exact E'|]. split; [exact (wgood_rules L' l sp' HG Em)|]. exact (hint_same k sp sp' H0 E').
    - injection Hl as ->. inversion C3; subst. exists (StepPat (table (productions l)) h).
      split; [constructor|]. split; [apply (wgood_rules L' l); [exact HG|reflexivity]|reflexivity]. }
  assert (Y : exists w' : winfun N', window_of (o_window_type (@int_opts N' o)) w' /\
     (forall n m, window_total w' (o_window_args (@int_opts N' o)) n m) /\
     forall i j n m, (Z.of_nat n <= 2 ^ 53)%Z -> (Z.of_nat m <= 2 ^ 53)%Z -> i < n -> j < m ->
      (in_window w (o_window_args (@int_opts N o)) n m i j <-> in_window w' (o_window_args (@int_opts N' o)) n m i j)).
  { clear C1 C2 C3 C4 C6 C8 C9 C10 X. unfold int_opts in *. cbn [o_window_type o_window_args] in *. destruct (i_window o) as [| |s|f].
    - inversion C5; subst. exists NoWindow. split; [constructor|]. split; [intros; exact I|]. intros. reflexivity.
    - inversion C5; subst. exists Itakura. split; [constructor|]. split; [intros n m i j _ _; eexists; reflexivity|]. intros. reflexivity.
    - inversion C5; subst. exists SakoeChiba. split; [constructor|]. split; [intros n m i j _ _; eexists; reflexivity|].
      intros i j n m Hn Hm Hi Hj. unfold in_window, call_window, sakoeChibaWindow. cbn [String.eqb Ascii.eqb Bool.eqb].
      specialize (HS s eq_refl). rewrite (law_le_ofZ _ L), (law_le_ofZ _ L') by lia. reflexivity.
    - inversion C5; subst. exists (UserWin (fun i j n m _ => Ok (f i j n m))). split; [constructor|]. split; [intros n m i j _ _; eexists; reflexivity|].
      intros. reflexivity. }
  destruct X as [sp' [X1 [X2 X3]]]. destruct Y as [w' [Y1 [Y2 Y3]]]. exists sp', w'. split; [|split; [exact X3|exact Y3]].
  constructor; auto.
  - intros H. rewrite <- X3. apply C9. exact H.
  - intros H. rewrite <- X3. apply C10. exact H.
Qed.
End Transfer.

Lemma ok_pattern {N : Num} cdist x y (o : opts N) (lm : mat N) d : costs_of cdist x y lm -> dtw cdist x y o = Ok d ->
  pattern_of (o_step_pattern o) (r_stepPattern d).
Proof.
  intros HC H. rewrite (dtw_entry _ _ _ _ _ HC) in H.
  destruct (canonicalizeStepPattern (o_step_pattern o)) as [sp| | | |] eqn:Es; try discriminate.
  apply pattern_of_ok. rewrite Es. f_equal. symmetry.
  cbn [bind] in H. set (wf := canonicalizeWindowFunction (o_window_type o)) in *.
  set (cb := match y with None => _ | Some _ => true end) in *.
  destruct (dtw_lm_cases cb lm (qr_of x y) sp wf o) as [[_ [_ E]]|[_ E]]; rewrite E in H; [discriminate|].
  destruct (globalCostMatrix _ _ _ _ _ _) as [[cmx dmx]| | | |]; try discriminate. cbn [bind] in H.
  set (jm := if o_open_end o then _ else _) in H. destruct jm as [jmin| | | |]; try discriminate. cbn [bind] in H.
  set (ds := match nth_error _ _ with Some v => Ok v | None => Raise IndexError end) in H.
  destruct ds as [distance| | | |]; try discriminate. cbn [bind] in H.
  destruct (isnan distance); [discriminate|].
  set (ndd := if negb _ then _ else Ok nan) in H. destruct ndd as [nd| | | |]; try discriminate. cbn [bind] in H.
  set (m0 := if o_distance_only o then Ok None else _) in H. destruct m0 as [mp| | | |]; try discriminate.
  cbn [bind] in H. destruct (o_open_begin o && o_distance_only o); [discriminate|].
  inversion H; subst. reflexivity.
Qed.

(** The same integer call succeeds in both arithmetics, with the same result. *)
Theorem int_dtw_any (N N' : Num) (L : NumLaws N) (L' : NumLaws N') (F : NumLaws4 N) (F' : NumLaws4 N')
  cdist cdist' x y x' y' (g : mat (option Z)) (o : iopts) l c k (d : DTW N) :
  costs_of cdist x y (map_mat int_cost g) -> costs_of cdist' x' y' (map_mat int_cost g) -> native_array x' y' ->
  irules (i_pattern o) = Some l -> wgood l -> whole_weights k l -> (1 <= k)%Z ->
  List.length (dat g) = nr g * nc g -> 0 < nr g -> (0 <= c)%Z -> costs_within c g ->
  (k * c * (Z.of_nat (nr g) + Z.of_nat (nc g)) <= 2 ^ 53)%Z ->
  (i_open_end o = true -> k * c * (Z.of_nat (nr g) + Z.of_nat (nc g)) ^ 2 < 2 ^ 52)%Z ->
  (forall s, i_window o = ISakoeChiba s -> (Z.abs s <= 2 ^ 53)%Z) ->
  dtw cdist x y (int_opts o) = Ok d ->
  exists d' : DTW N', dtw cdist' x' y' (int_opts o) = Ok d' /\ same_int_result d d'.
Proof.
  intros Hco Hco' Hna Hl HG HW Hk Hlen Hr Hc HC Hb Hb2 HS Hd.
  pose proof (ok_pattern _ _ _ _ _ _ Hco Hd) as Hpo.
  assert (Hp : pattern_rules (r_stepPattern d) (productions l)).
  { unfold int_opts in Hpo. cbn [o_step_pattern] in Hpo. destruct (i_pattern o) as [kk|l' h]; cbn [irules] in Hl.
    - inversion Hpo; subst. eapply (named_rules L); eauto.
    - injection Hl as ->. inversion Hpo; subst. apply (wgood_rules L l); [exact HG|reflexivity]. }
  pose proof (ok_well_posed L _ _ _ _ _ _ _ Hco Hd Hp Hr) as WP.
  destruct (int_transfer (N' := N') L L' cdist cdist' x y x' y' g o _ l _ Hco' Hna Hl HG HS WP) as [sp' [w' [WP' [Eh EW]]]].
  pose proof (int_calls L L' F F' cdist cdist' x y x' y' g _ _ _ _ l _ _ c k WP WP' Eh eq_refl eq_refl eq_refl eq_refl) as Q.
  cbn zeta in Q. rewrite Hd in Q.
  destruct (wp_size _ _ _ _ _ _ _ _ WP) as [S1 [S2 S3]].
  assert (forall x, dtw cdist' x' y' (int_opts o) = x -> match x with Ok d' => same_int_result d d' | _ => False end ->
     exists d' : DTW N', dtw cdist' x' y' (int_opts o) = Ok d' /\ same_int_result d d') as Z.
  { intros [d'| | | |] E HH; try contradiction. exists d'. auto. }
  eapply Z; [reflexivity|]. apply Q; auto.
  intros i j Hi Hj. apply EW; auto; unfold INT_MAX in S3; clear - S1 S2 S3; nia.
Qed.

Lemma int_costs {N : Num} cdist (g : mat (option Z)) : List.length (dat g) = nr g * nc g ->
  costs_of cdist (@int_array N g) None (map_mat int_cost g).
Proof. intros H. apply costs_one; [reflexivity|]. unfold wf_mat, map_mat. cbn [dat nr nc]. rewrite map_length. exact H. Qed.

Lemma arith_laws a : NumLaws (arith a).
Proof. destruct a; [exact NumQ_laws|exact NumF_laws|exact NumFMA_laws]. Qed.
Lemma arith_laws4 a : NumLaws4 (arith a).
Proof. destruct a; [exact NumQ_laws4|exact NumF_laws4|exact NumFMA_laws4]. Qed.

(** A call on a matrix of integers gives the same result in all three arithmetics. *)
Theorem integers_exact a b cdist cdist' (g : mat (option Z)) (o : iopts) l c k d :
  irules (i_pattern o) = Some l -> wgood l -> whole_weights k l -> (1 <= k)%Z ->
  List.length (dat g) = nr g * nc g -> 0 < nr g -> (0 <= c)%Z -> costs_within c g ->
  (k * c * (Z.of_nat (nr g) + Z.of_nat (nc g)) <= 2 ^ 53)%Z ->
  (i_open_end o = true -> k * c * (Z.of_nat (nr g) + Z.of_nat (nc g)) ^ 2 < 2 ^ 52)%Z ->
  (forall s, i_window o = ISakoeChiba s -> (Z.abs s <= 2 ^ 53)%Z) ->
  int_dtw a cdist g o = Ok d ->
  exists d', int_dtw b cdist' g o = Ok d' /\ same_int_result d d'.
Proof.
  intros Hl HG HW Hk Hlen Hr Hc HC Hb Hb2 HS Hd.
  apply (int_dtw_any (arith a) (arith b) (arith_laws a) (arith_laws b) (arith_laws4 a) (arith_laws4 b)
           cdist cdist' (int_array g) None (int_array g) None g o l c k); auto.
  - apply int_costs. exact Hlen.
  - apply int_costs. exact Hlen.
  - split; reflexivity.
Qed.

(** Two series whose distance function returns integers. *)
Theorem integer_series a b cdist cdist' x y x' y' xm ym xm' ym' (g : mat (option Z)) (o : iopts) l c k d :
  matrix_of (nd_val x) = Some xm -> matrix_of (nd_val y) = Some ym -> cdist xm ym = Ok (map_mat int_cost g) ->
  matrix_of (nd_val x') = Some xm' -> matrix_of (nd_val y') = Some ym' -> cdist' xm' ym' = Ok (map_mat int_cost g) ->
  irules (i_pattern o) = Some l -> wgood l -> whole_weights k l -> (1 <= k)%Z ->
  List.length (dat g) = nr g * nc g -> 0 < nr g -> (0 <= c)%Z -> costs_within c g ->
  (k * c * (Z.of_nat (nr g) + Z.of_nat (nc g)) <= 2 ^ 53)%Z ->
  (i_open_end o = true -> k * c * (Z.of_nat (nr g) + Z.of_nat (nc g)) ^ 2 < 2 ^ 52)%Z ->
  (forall s, i_window o = ISakoeChiba s -> (Z.abs s <= 2 ^ 53)%Z) ->
  @dtw (arith a) cdist x (Some y) (int_opts o) = Ok d ->
  exists d', @dtw (arith b) cdist' x' (Some y') (int_opts o) = Ok d' /\ same_int_result d d'.
Proof.
  intros X1 X2 X3 Y1 Y2 Y3 Hl HG HW Hk Hlen Hr Hc HC Hb Hb2 HS Hd.
  assert (W : forall N : Num, wf_mat (map_mat (@int_cost N) g)) by (intros N; unfold wf_mat, map_mat; cbn [dat nr nc]; rewrite map_length; exact Hlen).
  apply (int_dtw_any (arith a) (arith b) (arith_laws a) (arith_laws b) (arith_laws4 a) (arith_laws4 b)
           cdist cdist' x (Some y) x' (Some y') g o l c k); auto.
  - exact (costs_two cdist x y xm ym _ X1 X2 X3 (W _)).
  - exact (costs_two cdist' x' y' xm' ym' _ Y1 Y2 Y3 (W _)).
  - exact I.
Qed.

(** The predefined patterns with whole weights. *)
Lemma whole_named kn l : In kn whole_names -> lookup kn predefined = Some l -> whole_weights (weight_rate kn) l.
Proof.
  intros Hin Hl.
  assert (A : forallb (fun kn => match lookup kn predefined with
      | Some l => forallb (fun r => forallb (fun a => (snd (snd a) =? 1)%Z && (0 <=? fst (snd a))%Z)%bool (w_add r) &&
           (fold_right Z.add 0 (map (fun a => fst (snd a)) (w_add r)) <=? weight_rate kn * (Z.of_nat (w_di r) + Z.of_nat (w_dj r)))%Z)%bool l
      | None => false end) whole_names = true) by (vm_compute; reflexivity).
  rewrite forallb_forall in A. specialize (A kn Hin). rewrite Hl in A. rewrite forallb_forall in A.
  intros r Hr. specialize (A r Hr). apply andb_prop in A. destruct A as [A B]. apply Z.leb_le in B. split; [|exact B].
  rewrite forallb_forall in A. intros x Hx. specialize (A x Hx). apply andb_prop in A. destruct A as [A1 A2].
  apply Z.eqb_eq in A1. apply Z.leb_le in A2. split; assumption.
Qed.
Theorem integers_exact_named a b cdist cdist' (g : mat (option Z)) (o : iopts) kn c d :
  i_pattern o = IName kn -> In kn whole_names ->
  List.length (dat g) = nr g * nc g -> 0 < nr g -> (0 <= c)%Z -> costs_within c g ->
  (weight_rate kn * c * (Z.of_nat (nr g) + Z.of_nat (nc g)) <= 2 ^ 53)%Z ->
  (i_open_end o = true -> weight_rate kn * c * (Z.of_nat (nr g) + Z.of_nat (nc g)) ^ 2 < 2 ^ 52)%Z ->
  (forall s, i_window o = ISakoeChiba s -> (Z.abs s <= 2 ^ 53)%Z) ->
  int_dtw a cdist g o = Ok d ->
  exists d', int_dtw b cdist' g o = Ok d' /\ same_int_result d d'.
Proof.
  intros Hp Hin Hlen Hr Hc HC Hb Hb2 HS Hd.
  assert (X : exists l, lookup kn predefined = Some l).
  { assert (A : forallb (fun kn => match lookup kn predefined with Some _ => true | None => false end) whole_names = true) by (vm_compute; reflexivity).
    rewrite forallb_forall in A. specialize (A kn Hin). destruct (lookup kn predefined) as [l|]; [exists l; reflexivity|discriminate]. }
  destruct X as [l El].
  apply (integers_exact a b cdist cdist' g o l c (weight_rate kn) d); auto.
  - rewrite Hp. exact El.
  - eapply predefined_good; eauto.
  - apply whole_named; assumption.
  - unfold weight_rate. destruct (String.eqb kn "mori2006"); lia.
Qed.
