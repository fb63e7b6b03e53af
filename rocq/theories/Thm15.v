(** Thm15.v - malformed step patterns and oversized problems: what the native code does. *)
From Coq Require Import ZifyBool ZifyNat.
From Verif Require Import Base Num StepPattern Window Core Backtrack Dtw Spec Api Tables Vocab Terms
  CoreProof DPProof DtwProof ApiProof ApiThms Thm7 Thm14.
Open Scope string_scope.
Open Scope list_scope.
Open Scope nat_scope.


Section Thm15.
Context {N : Num}.

Lemma is_int_c (v : N) z : is_int v z -> c_int v = Ok z /\ i32 (z - 1) = Ok (z - 1)%Z.
Proof.
  intros [H1 H2]. unfold c_int. rewrite H1. split; [apply i32_ok; lia|apply i32_ok]. unfold INT_MIN, INT_MAX in *. lia.
Qed.

Lemma copy_row_cases (sp : steppat N) i r z : int_pattern sp -> nth_error (mx sp) i = Some r -> is_int (c0 r) z ->
  (1 <= z <= Z.of_nat (List.length (mx sp)) /\ exists c, copy_row (get_p sp) (Z.of_nat (List.length (mx sp))) (Z.of_nat i) = Ok c /\ pn c = z - 1)%Z \/
  (~ (1 <= z <= Z.of_nat (List.length (mx sp))) /\ copy_row (get_p sp) (Z.of_nat (List.length (mx sp))) (Z.of_nat i) = Exit)%Z.
Proof.
  intros [Hns HF] Hr Hz.
  assert (Hi : (i < List.length (mx sp))%nat) by (apply nth_error_Some; congruence).
  rewrite Forall_forall in HF. destruct (HF r (nth_error_In _ _ Hr)) as [a [b [c [Ha [Hb Hc]]]]].
  assert (a = z) by (destruct Ha as [Ha _], Hz as [Hz _]; congruence). subst a.
  destruct (is_int_c _ _ Ha) as [A1 A2]. destruct (is_int_c _ _ Hb) as [B1 _]. destruct (is_int_c _ _ Hc) as [C1 _].
  destruct (get_p_nth sp i Hi) as [G0 [G1 [G2 G3]]].
  rewrite nth_error_map, Hr in G0, G1, G2, G3. cbn [option_map] in G0, G1, G2, G3.
  set (ns := Z.of_nat (List.length (mx sp))) in *. unfold copy_row, EP. unfold INT_MAX in *.
  assert (K : forall k, (0 <= k <= 3)%Z -> i32 (k * ns + Z.of_nat i) = Ok (k * ns + Z.of_nat i)%Z).
  { intros k Hk. apply i32_ok. unfold INT_MIN, INT_MAX. subst ns. nia. }
  rewrite !K by lia. cbn [bind].
  replace (0 * ns + Z.of_nat i)%Z with (Z.of_nat i) by lia.
  rewrite (rd_nat _ _ _ G0). cbn [bind]. rewrite A1. cbn [bind]. rewrite A2. cbn [bind].
  replace (1 * ns + Z.of_nat i)%Z with (Z.of_nat (List.length (mx sp) + i)) by lia.
  rewrite (rd_nat _ _ _ G1). cbn [bind]. rewrite C1. cbn [bind].
  replace (2 * ns + Z.of_nat i)%Z with (Z.of_nat (2 * List.length (mx sp) + i)) by lia.
  rewrite (rd_nat _ _ _ G2). cbn [bind]. rewrite B1. cbn [bind].
  replace (3 * ns + Z.of_nat i)%Z with (Z.of_nat (3 * List.length (mx sp) + i)) by lia.
  rewrite (rd_nat _ _ _ G3). cbn [bind].
  destruct (((z - 1 <? 0) || (ns <=? z - 1))%Z) eqn:E; [right|left]; (split; [lia|]); [reflexivity|].
  eexists. split; reflexivity.
Qed.

Lemma copy_loop_exit (sp : steppat N) : int_pattern sp ->
  forall i cnt acc, (exists k r z, i <= k < i + cnt /\ nth_error (mx sp) k = Some r /\ is_int (c0 r) z /\
      ~ (1 <= z <= Z.of_nat (List.length (mx sp)))%Z) -> i + cnt <= List.length (mx sp) ->
  loop (Z.of_nat i) cnt (fun i acc => r <- copy_row (get_p sp) (Z.of_nat (List.length (mx sp))) i ;; Ok (acc ++ [r])) acc = Exit.
Proof.
  intros Hp i cnt. revert i. induction cnt as [|cnt IH]; intros i acc [k [r [z [Hk [Hr [Hz Hbad]]]]]] Hle; [lia|].
  cbn [loop].
  destruct (nth_error (mx sp) i) as [r0|] eqn:Er; [|apply nth_error_None in Er; lia].
  pose proof Hp as [_ HF]. rewrite Forall_forall in HF. destruct (HF r0 (nth_error_In _ _ Er)) as [a [_ [_ [Ha _]]]].
  destruct (copy_row_cases sp i r0 a Hp Er Ha) as [[Ok1 [c [E _]]]|[_ E]]; rewrite E; [|reflexivity].
  cbn [bind]. replace (Z.of_nat i + 1)%Z with (Z.of_nat (S i)) by lia. apply IH; [|lia].
  exists k, r, z. split; [|auto].
  destruct (Nat.eq_dec k i) as [->|]; [|lia]. exfalso. apply Hbad.
  assert (a = z) by (rewrite Er in Hr; injection Hr as ->; destruct Ha as [Ha _], Hz as [Hz _]; congruence). subst. exact Ok1.
Qed.

(** What closed-begin dtw() does up to the native call. *)
Lemma to_native cdist x y o (lm : mat N) sp w wm v : costs_of cdist x y lm -> native_array x y ->
  pattern_of (o_step_pattern o) sp -> window_of (o_window_type o) w ->
  window_matrix w (nr lm) (nc lm) (o_window_args o) = Ok wm -> o_open_begin o = false ->
  0 < nr lm -> 0 < nc lm -> (Z.of_nat (nr lm) <= INT_MAX)%Z -> (Z.of_nat (nc lm) <= INT_MAX)%Z -> mx sp <> [] ->
  (forall n m dat, computeCM (Z.of_nat (nc lm)) (Z.of_nat (nr lm)) wm n (Z.of_nat (List.length (mx sp))) (get_p sp) m dat = v) ->
  v = Exit \/ v = UB ->
  dtw cdist x y o = match v with Exit => Exit | _ => UB end.
Proof.
  intros HC Hna Hs Hw Hwm Hb Hn Hm Hni Hmi Hne Hv Hcase.
  rewrite (dtw_entry _ _ _ _ _ HC). apply pattern_of_ok in Hs. rewrite Hs. cbn [bind].
  rewrite (window_of_canon _ _ Hw). unfold dtw_lm. rewrite Hb. cbn [bind].
  assert (Ec : (match y with Some _ => true | None => is_double x && is_corder x end) = true).
  { destruct y; [reflexivity|]. destruct Hna as [-> ->]. reflexivity. }
  assert (Eg : globalCostMatrix (match y with Some _ => true | None => is_double x && is_corder x end) lm sp w None (o_window_args o)
     = match v with Exit => Exit | _ => UB end).
  { rewrite Ec. unfold globalCostMatrix. rewrite Hwm. cbn [bind].
    pose proof (costs_of_wf _ _ _ _ HC) as Hwf. unfold wf_mat in Hwf.
    unfold mget. destruct (Nat.ltb_spec 0 (nr lm)); [|lia]. destruct (Nat.ltb_spec 0 (nc lm)); [|lia]. cbn [andb].
    destruct (nth_error (dat lm) (0 * nc lm + 0)) as [c|] eqn:Ed.
    2:{ apply nth_error_None in Ed. nia. }
    cbn [bind]. unfold computeCM_wrapper. cbn [negb nc nr dat].
    destruct (Nat.eqb_spec (nr lm) 0); [lia|]. destruct (Nat.eqb_spec (nc lm) 0); [lia|]. cbn [orb].
    destruct (Nat.eqb_spec (List.length (get_p sp)) 0) as [E0|_].
    { unfold get_p in E0. rewrite !app_length, !map_length in E0. destruct (mx sp); [contradiction|cbn in E0; lia]. }
    rewrite !i32_ok by (unfold INT_MIN, INT_MAX in *; lia). cbn [bind]. unfold get_n_rows. rewrite Hv.
    destruct Hcase as [-> | ->]; reflexivity. }
  rewrite Eg. destruct Hcase as [-> | ->]; reflexivity.
Qed.

(** A pattern id outside 1..number of rows terminates the process. *)
Theorem bad_id_exits cdist x y o (lm : mat N) sp w : costs_of cdist x y lm -> native_array x y ->
  pattern_of (o_step_pattern o) sp -> window_of (o_window_type o) w ->
  window_total w (o_window_args o) (nr lm) (nc lm) -> o_open_begin o = false ->
  0 < nr lm -> 0 < nc lm -> (Z.of_nat (nr lm) <= INT_MAX)%Z -> (Z.of_nat (nc lm) <= INT_MAX)%Z ->
  int_pattern sp ->
  (exists r z, In r (mx sp) /\ is_int (c0 r) z /\ ~ (1 <= z <= Z.of_nat (List.length (mx sp)))%Z) ->
  dtw cdist x y o = Exit.
Proof.
  intros HC Hna Hs Hw Ht Hb Hn Hm Hni Hmi Hp [r [z [Hr [Hz Hbad]]]].
  destruct (window_matrix_ok _ _ _ _ Hn Hm Ht) as [wm Hwm].
  rewrite (to_native cdist x y o lm sp w wm Exit); auto.
  - intros E. rewrite E in Hr. destruct Hr.
  - intros l d s. unfold computeCM, copy_rows. apply In_nth_error in Hr. destruct Hr as [k Hk].
    change 0%Z with (Z.of_nat 0). rewrite Nat2Z.id.
    rewrite (copy_loop_exit sp Hp 0 (List.length (mx sp)) []); [reflexivity| |lia].
    exists k, r, z. split; [|auto]. assert (k < List.length (mx sp)) by (apply nth_error_Some; congruence). lia.
Qed.

(** A problem with more than 2^31 - 1 cells overflows an int. *)
Theorem oversized_overflows (L : NumLaws N) cdist x y o (lm : mat N) sp rules w : costs_of cdist x y lm -> native_array x y ->
  pattern_of (o_step_pattern o) sp -> window_of (o_window_type o) w ->
  window_total w (o_window_args o) (nr lm) (nc lm) -> o_open_begin o = false ->
  (Z.of_nat (nr lm) <= INT_MAX)%Z -> (Z.of_nat (nc lm) <= INT_MAX)%Z ->
  (Z.of_nat (nr lm) * Z.of_nat (nc lm) > INT_MAX)%Z -> pattern_rules sp rules ->
  dtw cdist x y o = UB.
Proof.
  intros HC Hna Hs Hw Ht Hb Hni Hmi Hbig Hp.
  assert (Hn : 0 < nr lm) by (unfold INT_MAX in *; nia). assert (Hm : 0 < nc lm) by (unfold INT_MAX in *; nia).
  destruct (window_matrix_ok _ _ _ _ Hn Hm Ht) as [wm Hwm].
  rewrite (to_native cdist x y o lm sp w wm UB); auto; try (unfold INT_MAX in *; nia).
  - intros E. destruct Hp as [Em [Hne _]]. rewrite E in Em. destruct rules as [|r rs]; [contradiction|]. discriminate.
  - intros l d s. unfold computeCM. rewrite (copy_rows_rules L sp rules Hp). cbn [bind].
    destruct (rd _ _) as [c| | | |] eqn:Er.
    + cbn [bind]. unfold i32, in_i32. destruct (_ && _)%Z eqn:E; [lia|reflexivity].
    + exfalso. revert Er. unfold rd. destruct (_ <? 0)%Z; [discriminate|]. destruct (nth_error _ _); discriminate.
    + exfalso. revert Er. unfold rd. destruct (_ <? 0)%Z; [discriminate|]. destruct (nth_error _ _); discriminate.
    + reflexivity.
    + exfalso. revert Er. unfold rd. destruct (_ <? 0)%Z; [discriminate|]. destruct (nth_error _ _); discriminate.
Qed.
End Thm15.

(** Concrete malformed patterns (binary64). *)
From Verif Require Import NumQ NumQLaws NumF NumFLaws Examples.

Definition is_ub {A} (r : out A) : bool := match r with UB => true | _ => false end.
Lemma is_ub_ok {A} (r : out A) : is_ub r = true -> r = UB.
Proof. destruct r; try discriminate. reflexivity. Qed.
Definition is_exit {A} (r : out A) : bool := match r with Exit => true | _ => false end.
Lemma is_exit_ok {A} (r : out A) : is_exit r = true -> r = Exit.
Proof. destruct r; try discriminate. reflexivity. Qed.


(** A negative displacement reads past the end of the cost matrix. *)
Definition zrow (a b c d : Z) : row NumF := Row (ofZ a) (ofZ b) (ofZ c) (ofZ d).
Definition with_rows (l : list (row NumF)) : opts NumF := mkOpts (SPObj (StepPat l "NA")) WTNone [] false false false false.
Theorem negative_step_ub :
  run (ints 2 2 [1;2;3;4]%Z) (with_rows [zrow 1 (-1) 0 (-1); zrow 1 0 0 1]) = UB.
Proof. apply is_ub_ok. vm_compute. reflexivity. Qed.
(** Productions not numbered in ascending order write past the end of the candidates. *)
Theorem descending_ids_ub :
  run (ints 2 2 [1;2;3;4]%Z) (with_rows [zrow 2 1 1 (-1); zrow 2 0 0 1; zrow 1 0 1 (-1); zrow 1 0 0 1]) = UB.
Proof. apply is_ub_ok. vm_compute. reflexivity. Qed.
(** Productions numbered from 0. *)
Theorem zero_id_exit :
  run (ints 2 2 [1;2;3;4]%Z) (with_rows [zrow 0 1 1 (-1); zrow 0 0 0 1]) = Exit.
Proof. apply is_exit_ok. vm_compute. reflexivity. Qed.
