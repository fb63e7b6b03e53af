(** DtwProof.v - what a call of dtw() returns, in terms of walks. *)
From Coq Require Import ZifyBool ZifyNat.
From Verif Require Import Base Num StepPattern Window Core Backtrack Dtw Spec Api CoreProof DPProof.
Open Scope string_scope.
Open Scope list_scope.
Open Scope Z_scope.

Section DtwProof.
Context {N : Num}.
Variable L : NumLaws N.

(** ** Arrays as functions *)

Lemma cell_reps (lm : mat N) : wf_mat lm -> reps (nr lm) (nc lm) (dat lm) (cell lm).
Proof.
  intros H. split; [exact H|]. intros i j Hi Hj. unfold cell, mget.
  destruct (Nat.ltb_spec i (nr lm)), (Nat.ltb_spec j (nc lm)); try lia. cbn [andb].
  destruct (nth_error (dat lm) (i * nc lm + j)) eqn:E; [reflexivity|].
  apply nth_error_None in E. unfold wf_mat in H. pose proof (flat_lt (nr lm) (nc lm) i j Hi Hj). lia.
Qed.

Lemma mget_reps {A} (mt : mat A) f i j : reps (nr mt) (nc mt) (dat mt) f ->
  (i < nr mt)%nat -> (j < nc mt)%nat -> mget mt i j = Some (f i j).
Proof.
  intros [_ H] Hi Hj. unfold mget.
  destruct (Nat.ltb_spec i (nr mt)), (Nat.ltb_spec j (nc mt)); try lia. cbn [andb]. auto.
Qed.

Lemma nth_error_firstn {A} (l : list A) k i : nth_error (firstn k l) i = if Nat.ltb i k then nth_error l i else None.
Proof.
  revert k i. induction l as [|x xs IH]; intros k i.
  - rewrite firstn_nil. destruct (Nat.ltb i k), i; reflexivity.
  - destruct k as [|k]; [destruct i; reflexivity|]. destruct i as [|i]; [reflexivity|].
    cbn [firstn nth_error]. rewrite IH. reflexivity.
Qed.
Lemma nth_error_skipn {A} (l : list A) k i : nth_error (skipn k l) i = nth_error l (k + i).
Proof.
  revert l. induction k as [|k IH]; intros l; [reflexivity|].
  destruct l as [|x xs]; [destruct i; reflexivity|]. cbn [skipn Nat.add nth_error]. apply IH.
Qed.

Lemma nth_error_ext {A} (l l' : list A) : (forall i, nth_error l i = nth_error l' i) -> l = l'.
Proof.
  revert l'. induction l as [|x xs IH]; intros [|y ys] H; try reflexivity.
  - specialize (H 0%nat). discriminate.
  - specialize (H 0%nat). discriminate.
  - f_equal.
    + specialize (H 0%nat). simpl in H. congruence.
    + apply IH. intros i. exact (H (S i)).
Qed.

Lemma nth_error_seq s n i : nth_error (seq s n) i = if Nat.ltb i n then Some (s + i)%nat else None.
Proof.
  destruct (Nat.ltb_spec i n).
  - rewrite (nth_error_nth' _ 0%nat) by (rewrite seq_length; lia). rewrite seq_nth by lia. reflexivity.
  - apply nth_error_None. rewrite seq_length. lia.
Qed.

Lemma row_of_reps {A} (n m : nat) (l : list A) f i : reps n m l f -> (i < n)%nat ->
  row_of (Mat n m l) i = map (f i) (seq 0 m).
Proof.
  intros [Hl Hf] Hi. apply nth_error_ext. intros j. unfold row_of. cbn [nc dat].
  rewrite nth_error_firstn, nth_error_skipn, nth_error_map, nth_error_seq.
  destruct (Nat.ltb_spec j m); [|reflexivity]. cbn [option_map Nat.add]. apply Hf; assumption.
Qed.

(** ** The window matrix *)

Definition win_spec (wf : winfun N) (kw : kwargs N) n m (win : nat -> nat -> bool) : Prop :=
  forall i j, (i < n)%nat -> (j < m)%nat -> (win i j = true <-> in_window wf kw n m i j).

Lemma mapM_total {A B} (f : A -> out B) l : (forall x, In x l -> exists y, f x = Ok y) -> exists r, mapM f l = Ok r.
Proof.
  induction l as [|a l IH]; intros H; [exists []; reflexivity|].
  destruct (H a (or_introl eq_refl)) as [y Hy].
  destruct IH as [r Hr]; [intros x Hx; apply H; right; exact Hx|].
  exists (y :: r). simpl. rewrite Hy. simpl. rewrite Hr. reflexivity.
Qed.

Lemma indices_in n m i j : In (i, j) (indices n m) <-> (i < n)%nat /\ (j < m)%nat.
Proof.
  unfold indices. rewrite in_flat_map. split.
  - intros [a [Ha Hb]]. apply in_map_iff in Hb. destruct Hb as [b [E Hb]]. inversion E; subst.
    rewrite in_seq in *. lia.
  - intros [Hi Hj]. exists i. rewrite in_seq. split; [lia|]. apply in_map_iff. exists j.
    rewrite in_seq. split; [reflexivity|lia].
Qed.

Lemma bind_window_ok (wf : winfun N) kw i j n m b : call_window wf i j n m kw = Ok b -> bind_window wf kw = Ok tt.
Proof.
  destruct wf, kw as [|[k v] [|? ?]]; cbn [call_window bind_window]; try discriminate; try reflexivity;
    destruct (String.eqb k "window_size"); try discriminate; reflexivity.
Qed.

Lemma window_matrix_ok (wf : winfun N) (kw : kwargs N) n m : (0 < n)%nat -> (0 < m)%nat -> window_total wf kw n m ->
  exists wm, window_matrix wf n m kw = Ok wm.
Proof.
  intros Hn Hm H. unfold window_matrix.
  destruct wf; try (eexists; reflexivity);
    (destruct (H 0%nat 0%nat Hn Hm) as [b0 Hb0]; rewrite (bind_window_ok _ _ _ _ _ _ _ Hb0); cbn [bind]); apply mapM_total; intros [i j] Hin;
    apply indices_in in Hin; destruct (H i j ltac:(lia) ltac:(lia)) as [b Hb]; cbn [fst snd];
    rewrite Hb; eexists; reflexivity.
Qed.

Lemma window_matrix_total (wf : winfun N) (kw : kwargs N) n m wm : window_matrix wf n m kw = Ok wm -> window_total wf kw n m.
Proof.
  assert (G : forall w : winfun N, mapM (fun ij : nat * nat =>
                 b <- call_window w (Z.of_nat (fst ij)) (Z.of_nat (snd ij)) (Z.of_nat n) (Z.of_nat m) kw ;;
                 Ok (if (b : bool) then 1 else 0)) (indices n m) = Ok wm ->
     forall i j, (i < n)%nat -> (j < m)%nat ->
     exists b, call_window w (Z.of_nat i) (Z.of_nat j) (Z.of_nat n) (Z.of_nat m) kw = Ok b).
  { intros w H i j Hi Hj.
    destruct (mapM_nth _ _ _ _ _ H (indices_nth n m i j Hi Hj)) as [y [_ Hy]]. cbn [fst snd] in Hy.
    destruct (call_window w _ _ _ _ kw) as [b| | | |]; try discriminate. eauto. }
  intros H. unfold window_matrix in H. unfold window_total.
  destruct wf; auto; (destruct (bind_window _ kw) as [[]| | | |]; try discriminate; apply G; exact H).
Qed.

Lemma window_matrix_spec (wf : winfun N) (kw : kwargs N) n m wm : window_matrix wf n m kw = Ok wm ->
  exists win : nat -> nat -> bool, reps n m wm (fun i j => if win i j then 1 else 0) /\ win_spec wf kw n m win.
Proof.
  assert (G : forall w : winfun N, mapM (fun ij : nat * nat =>
                 b <- call_window w (Z.of_nat (fst ij)) (Z.of_nat (snd ij)) (Z.of_nat n) (Z.of_nat m) kw ;;
                 Ok (if (b : bool) then 1 else 0)) (indices n m) = Ok wm ->
     exists win : nat -> nat -> bool, reps n m wm (fun i j => if win i j then 1 else 0) /\
       forall i j, (i < n)%nat -> (j < m)%nat ->
         (win i j = true <-> call_window w (Z.of_nat i) (Z.of_nat j) (Z.of_nat n) (Z.of_nat m) kw = Ok true)).
  { intros w H.
    exists (fun i j => match call_window w (Z.of_nat i) (Z.of_nat j) (Z.of_nat n) (Z.of_nat m) kw with
                       | Ok b => b | _ => false end).
    split; [split|].
    - rewrite (mapM_length _ _ _ H), indices_length. reflexivity.
    - intros i j Hi Hj. destruct (mapM_nth _ _ _ _ _ H (indices_nth n m i j Hi Hj)) as [y [Hy1 Hy2]].
      cbn [fst snd] in Hy2. rewrite Hy1.
      destruct (call_window w _ _ _ _ kw) as [b| | | |]; try discriminate.
      cbn in Hy2. congruence.
    - intros i j Hi Hj. destruct (call_window w _ _ _ _ kw) as [b| | | |];
      (split; [intros E | intros E]); try discriminate; try congruence. }
  intros H. unfold window_matrix in H. unfold win_spec, in_window.
  destruct wf; try (destruct (bind_window _ kw) as [[]| | | |]; try discriminate; apply G; exact H).
  exists (fun _ _ => true). split; [|tauto]. inversion H; subst. split; [apply repeat_length|].
  intros i j Hi Hj. apply repeat_nth. apply flat_lt; assumption.
Qed.

(** ** The cumulative cost matrix *)

Definition seed0 (lm : mat N) (i j : nat) : N :=
  if (Nat.eqb i 0 && Nat.eqb j 0)%bool then cell lm 0 0 else nan.

(** what is known of the initial matrix *)
Definition seed_spec (lm : mat N) (seed : option (mat N)) (f : nat -> nat -> N) : Prop :=
  match seed with
  | None => f = seed0 lm
  | Some s => nr s = nr lm /\ nc s = nc lm /\ reps (nr lm) (nc lm) (dat s) f
  end.

Lemma gcm_inv cbuf (lm : mat N) sp wf seed kw r : globalCostMatrix cbuf lm sp wf seed kw = Ok r ->
  cbuf = true /\ size_ok (nr lm) (nc lm) /\ window_total wf kw (nr lm) (nc lm).
Proof.
  unfold globalCostMatrix. destruct (window_matrix _ _ _ _) as [wm| | | |] eqn:Ew; try discriminate.
  cbn [bind]. apply window_matrix_total in Ew.
  set (c := match seed with Some s => Ok s | None => _ end).
  destruct c as [cm| | | |]; try discriminate. cbn [bind].
  unfold computeCM_wrapper. destruct cbuf; [|discriminate]. cbn [negb].
  destruct (Nat.eqb (nr lm) 0 || Nat.eqb (nc lm) 0 || Nat.eqb (List.length (get_p sp)) 0) eqn:E0; [discriminate|].
  cbn [nr nc dat].
  unfold i32 at 1. destruct (in_i32 (Z.of_nat (nc lm))); [|discriminate]. cbn [bind].
  unfold i32 at 1. destruct (in_i32 (Z.of_nat (nr lm))); [|discriminate]. cbn [bind].
  unfold computeCM. destruct (copy_rows _ _); try discriminate. cbn [bind].
  destruct (rd _ _); try discriminate. cbn [bind].
  unfold i32 at 1. destruct (in_i32 (Z.of_nat (nr lm) * Z.of_nat (nc lm))) eqn:Es; [|discriminate].
  intros _. split; [reflexivity|]. split; [|exact Ew]. unfold size_ok. unfold in_i32 in Es. lia.
Qed.

Lemma gcm_run (lm : mat N) sp wf seed kw rules seedf :
  pattern_rules sp rules -> wf_mat lm -> seed_spec lm seed seedf ->
  size_ok (nr lm) (nc lm) -> window_total wf kw (nr lm) (nc lm) ->
  exists cm sm cmf smf win,
    globalCostMatrix true lm sp wf seed kw = Ok (Mat (nr lm) (nc lm) cm, Mat (nr lm) (nc lm) sm) /\
    reps (nr lm) (nc lm) cm cmf /\ reps (nr lm) (nc lm) sm smf /\
    win_spec wf kw (nr lm) (nc lm) win /\
    bellman rules (nr lm) (nc lm) (cell lm) seedf win cmf smf.
Proof.
  intros Hp Hlm Hseed [Hn [Hm Hs]] Hw.
  destruct (window_matrix_ok wf kw _ _ Hn Hm Hw) as [wm Ewm].
  destruct (window_matrix_spec wf kw _ _ _ Ewm) as [win [Hwm Hwin]].
  unfold globalCostMatrix. rewrite Ewm. cbn [bind].
  assert (Hc : exists cmx, match seed with
        | Some s => Ok s
        | None => match mget lm 0 0 with
            | Some v => Ok (Mat (nr lm) (nc lm) (upd (repeat nan (nr lm * nc lm)) 0 v))
            | None => Raise IndexError
            end
        end = Ok cmx /\ nr cmx = nr lm /\ nc cmx = nc lm /\ reps (nr lm) (nc lm) (dat cmx) seedf).
  { destruct seed as [s|]; cbn in Hseed.
    - exists s. split; [reflexivity|]. exact Hseed.
    - rewrite (mget_reps lm (cell lm) 0 0 (cell_reps lm Hlm)) by assumption.
      eexists. split; [reflexivity|]. cbn [nr nc dat]. split; [reflexivity|]. split; [reflexivity|].
      subst seedf.
      split; [rewrite upd_length; apply repeat_length|]. intros i j Hi Hj.
      pose proof (flat_lt (nr lm) (nc lm) i j Hi Hj).
      rewrite nth_error_upd. unfold seed0. rewrite repeat_length.
      destruct (Nat.eqb_spec (i * nc lm + j) 0).
      + replace i with 0%nat by nia. replace j with 0%nat by nia.
        destruct (Nat.ltb_spec 0 (nr lm * nc lm)); [reflexivity|nia].
      + rewrite repeat_nth by assumption.
        destruct (Nat.eqb_spec i 0), (Nat.eqb_spec j 0); try reflexivity. subst. cbn in *. lia. }
  destruct Hc as [cmx [-> [Hr [Hcc Hrep]]]]. cbn [bind].
  unfold computeCM_wrapper. cbn [negb].
  assert (Hgp : (0 < List.length (get_p sp))%nat).
  { unfold get_p. rewrite !app_length, !map_length. destruct Hp as [-> [Hne _]].
    pose proof (table_length_ge 1 rules). unfold table. destruct rules; [congruence|]. simpl List.length in *. lia. }
  destruct (Nat.eqb (nr lm) 0 || Nat.eqb (nc lm) 0 || Nat.eqb (List.length (get_p sp)) 0) eqn:E0; [lia|].
  cbn [nr nc dat]. rewrite !i32_ok by (unfold INT_MIN, INT_MAX in *; nia). cbn [bind].
  assert (Hrl : Z.of_nat (List.length rules) <= INT_MAX).
  { destruct Hp as [_ [_ [_ [Hf _]]]]. pose proof (table_length_ge 1 rules). unfold table in *.
    unfold INT_MAX in *. lia. }
  destruct (computeCM_ok L rules (nr lm) (nc lm) (cell lm) seedf win (dat lm) wm (cell_reps lm Hlm) Hwm Hs)
    with (s := sp) (cm := dat cmx) (sm := repeat (-1) (List.length (dat lm)))
    as [cm' [sm' [cmf [smf [E [A [B C]]]]]]]; auto; try apply Hp.
  { rewrite repeat_length. exact Hlm. }
  rewrite E. cbn [bind]. rewrite Hr, Hcc.
  exists cm', sm', cmf, smf, win. split; [reflexivity|]. auto.
Qed.

(** ** After the cost matrix (lines 436-466) *)

Definition nrm (norm : string) (n j : nat) (v : N) : N :=
  if String.eqb norm "NA" then v else normalized norm n j v.

Lemma combine_seq_map {A B} (g : nat -> A) (h : nat * A -> B) s m :
  map h (combine (seq s m) (map g (seq s m))) = map (fun j => h (j, g j)) (seq s m).
Proof. revert s. induction m as [|m IH]; intros s; [reflexivity|]. simpl. f_equal. apply IH. Qed.

Lemma normalize_row_map norm n m (g : nat -> N) :
  normalize_row norm n (map g (seq 0 m)) = map (fun j => nrm norm n j (g j)) (seq 0 m).
Proof.
  unfold normalize_row, nrm, normalized. rewrite map_length, seq_length.
  destruct (String.eqb norm "NA"); [reflexivity|].
  destruct (String.eqb norm "N+M"); [rewrite combine_seq_map; reflexivity|].
  destruct (String.eqb norm "N"); [rewrite map_map; reflexivity|].
  destruct (String.eqb norm "M"); [rewrite combine_seq_map; reflexivity|]. reflexivity.
Qed.

(** The choice of the end column. *)
Definition choose (o : opts N) (norm : string) (n m : nat) (last : nat -> N) : out nat :=
  if o_open_end o then
    if String.eqb norm "NA"
    then Raise (ValueError "Open-end alignments require normalizable step patterns")
    else nanargmin (map (fun j => nrm norm n j (last j)) (seq 0 m))
  else Ok (m - 1)%nat.

Lemma np_argmin_bound (l : list N) i b v : (b <= i)%nat -> (np_argmin_from l i b v < i + List.length l \/ np_argmin_from l i b v = b)%nat.
Proof.
  revert i b v. induction l as [|x xs IH]; intros i b v Hb; simpl; [auto|].
  destruct (ltb x v).
  - destruct (IH (i + 1)%nat i x ltac:(lia)); lia.
  - destruct (IH (i + 1)%nat b v ltac:(lia)); lia.
Qed.

Lemma nanargmin_bound (l : list N) j : nanargmin l = Ok j -> (j < List.length l)%nat.
Proof.
  unfold nanargmin. destruct (forallb isnan l); [discriminate|].
  destruct (map _ l) as [|x xs] eqn:E; [discriminate|]. intros H. inversion H; subst.
  assert (Hl : List.length l = S (List.length xs)).
  { rewrite <- (map_length (fun x => if isnan x then pinf else x) l), E. reflexivity. }
  destruct (np_argmin_bound xs 1 0 x ltac:(lia)); lia.
Qed.

Lemma choose_bound o norm n m last j : (0 < m)%nat -> choose o norm n m last = Ok j -> (j < m)%nat.
Proof.
  unfold choose. intros Hm. destruct (o_open_end o).
  - destruct (String.eqb norm "NA"); [discriminate|]. intros H.
    apply nanargmin_bound in H. rewrite map_length, seq_length in H. exact H.
  - intros H. inversion H. lia.
Qed.

(** The mapping after the open-begin shift (lines 470-473). *)
Definition shift_mapping (mp : mapping) : mapping :=
  Mapping (map Z.pred (tl (index1 mp))) (tl (index2 mp))
          (map Z.pred (tl (index1s mp))) (tl (index2s mp)) (stepsTaken mp).

(** [dtw_lm] as a chain of explicit cases. *)
Lemma dtw_lm_cases cbuf (lm : mat N) qr sp wf o :
  let n := nr lm in let m := nc lm in
  let lm1 := if o_open_begin o then Mat (n + 1) m (repeat (ofZ 0) m ++ dat lm) else lm in
  let seed := if o_open_begin o
              then Some (Mat (n + 1) m (repeat (ofZ 0) m ++ repeat nan (n * m))) else None in
  let cb := if o_open_begin o then true else cbuf in
  o_open_begin o = true /\ hint sp <> "N" /\
    dtw_lm cbuf lm qr sp wf o = Raise (ValueError "Open-begin requires step patterns with 'N' normalization (e.g. asymmetric, or R-J types (c)). See Tormene et al.")
  \/
  (o_open_begin o = true -> hint sp = "N") /\
  dtw_lm cbuf lm qr sp wf o =
   ('(cmx, dmx) <- globalCostMatrix cb lm1 sp wf seed (o_window_args o) ;;
    let lastrow := row_of cmx (nr cmx - 1) in
    let lastcol := normalize_row (hint sp) n lastrow in
    jmin <- (if o_open_end o then
             if String.eqb (hint sp) "NA"
             then Raise (ValueError "Open-end alignments require normalizable step patterns")
             else nanargmin lastcol
           else Ok (m - 1)%nat) ;;
    distance <- (match nth_error lastrow jmin with Some v => Ok v | None => Raise IndexError end) ;;
    if isnan distance then Raise no_path else
    nd <- (if negb (String.eqb (hint sp) "NA")
         then match nth_error lastcol jmin with Some v => Ok v | None => Raise IndexError end
         else Ok nan) ;;
    mapping0 <- (if o_distance_only o then Ok None
               else mp <- backtrack sp dmx (Z.of_nat jmin) ;; Ok (Some mp)) ;;
    if o_open_begin o && o_distance_only o then Raise AttributeError else
    Ok (mkDTW n m (o_open_end o) (o_open_begin o) wf (o_window_args o) sp jmin distance nd
          (if o_open_begin o then option_map shift_mapping mapping0 else mapping0)
          (if o_keep_internals o then Some (if o_open_begin o then drop_first_row cmx else cmx) else None)
          (if o_keep_internals o then Some (if o_open_begin o then drop_first_row dmx else dmx) else None)
          (if o_keep_internals o then Some (if o_open_begin o then drop_first_row lm1 else lm1) else None)
          (if o_keep_internals o then option_map fst qr else None)
          (if o_keep_internals o then option_map snd qr else None))).
Proof.
  intros n m lm1 seed cb. subst n m lm1 seed cb. unfold dtw_lm.
  destruct (o_open_begin o) eqn:Eb.
  - destruct (String.eqb (hint sp) "N") eqn:Eh.
    + right. apply String.eqb_eq in Eh. split; [auto|]. cbn [negb bind].
      destruct (globalCostMatrix _ _ _ _ _ _) as [[cmx dmx]| | | |]; try reflexivity. cbn [bind].
      set (jm := if o_open_end o then _ else _). destruct jm as [jmin| | | |]; try reflexivity. cbn [bind].
      set (ds := match nth_error _ _ with Some v => Ok v | None => Raise IndexError end).
      destruct ds as [distance| | | |]; try reflexivity. cbn [bind].
      destruct (isnan distance); [reflexivity|].
      set (ndd := if negb _ then _ else Ok nan). destruct ndd as [nd| | | |]; try reflexivity. cbn [bind].
      destruct (o_distance_only o); [reflexivity|].
      destruct (backtrack sp dmx (Z.of_nat jmin)) as [mp| | | |]; reflexivity.
    + left. apply String.eqb_neq in Eh. split; [reflexivity|]. split; [exact Eh|]. reflexivity.
  - right. split; [discriminate|]. cbn [negb bind].
    destruct (globalCostMatrix _ _ _ _ _ _) as [[cmx dmx]| | | |]; reflexivity.
Qed.

(** ** The padded problem *)

Lemma padded_wf (lm : mat N) : wf_mat lm -> wf_mat (padded lm).
Proof. unfold wf_mat, padded. cbn. intros H. rewrite app_length, repeat_length, H. lia. Qed.

Definition pseed (i j : nat) : N := if Nat.eqb i 0 then ofZ 0 else nan.

Lemma pseed_spec (lm : mat N) : seed_spec (padded lm)
  (Some (Mat (nr lm + 1) (nc lm) (repeat (ofZ 0) (nc lm) ++ repeat nan (nr lm * nc lm)))) pseed.
Proof.
  cbn. split; [reflexivity|]. split; [reflexivity|]. split.
  - rewrite app_length, !repeat_length. lia.
  - intros i j Hi Hj. unfold pseed. destruct (Nat.eqb_spec i 0).
    + subst. cbn. rewrite nth_error_app1 by (rewrite repeat_length; exact Hj). apply repeat_nth. exact Hj.
    + rewrite nth_error_app2 by (rewrite repeat_length; nia). rewrite repeat_length.
      apply repeat_nth. nia.
Qed.

(** ** One statement for both kinds of begin *)

(** The matrix, sources and allowed cells of the problem that is solved. *)
Definition p_lm (o : opts N) (lm : mat N) : mat N := if o_open_begin o then padded lm else lm.
Definition p_seed (o : opts N) (lm : mat N) : nat -> nat -> N :=
  if o_open_begin o then pseed else seed0 lm.

Record solution (o : opts N) (lm : mat N) (sp : steppat N) (wf : winfun N) (rules : list (rule N))
       (cmx : mat N) (dmx : mat Z) (cmf : nat -> nat -> N) (smf : nat -> nat -> Z)
       (win : nat -> nat -> bool) : Prop := mkSol {
  sol_dim : nr cmx = nr (p_lm o lm) /\ nc cmx = nc lm /\ nr dmx = nr (p_lm o lm) /\ nc dmx = nc lm;
  sol_cm : reps (nr (p_lm o lm)) (nc lm) (dat cmx) cmf;
  sol_sm : reps (nr (p_lm o lm)) (nc lm) (dat dmx) smf;
  sol_win : win_spec wf (o_window_args o) (nr (p_lm o lm)) (nc lm) win;
  sol_bell : bellman rules (nr (p_lm o lm)) (nc lm) (cell (p_lm o lm)) (p_seed o lm) win cmf smf
}.

Definition p_walk (o : opts N) (lm : mat N) (rules : list (rule N)) (win : nat -> nat -> bool) :=
  walk rules (cell (p_lm o lm)) (nr (p_lm o lm)) (nc lm) (src (p_seed o lm)) (alw (p_seed o lm) win).

(** Result object for given pieces. *)
Definition result (o : opts N) (lm : mat N) (qr : option (nd N * nd N)) (sp : steppat N) (wf : winfun N)
  (jmin : nat) (v : N) (mp : option mapping) (cmx : mat N) (dmx : mat Z) : DTW N :=
  mkDTW (nr lm) (nc lm) (o_open_end o) (o_open_begin o) wf (o_window_args o) sp jmin v
    (if String.eqb (hint sp) "NA" then nan else normalized (hint sp) (nr lm) jmin v)
    mp
    (if o_keep_internals o then Some (if o_open_begin o then drop_first_row cmx else cmx) else None)
    (if o_keep_internals o then Some (if o_open_begin o then drop_first_row dmx else dmx) else None)
    (if o_keep_internals o then Some (if o_open_begin o then drop_first_row (padded lm) else lm) else None)
    (if o_keep_internals o then option_map fst qr else None)
    (if o_keep_internals o then option_map snd qr else None).

Lemma p_lm_nr o lm : nr (p_lm o lm) = (if o_open_begin o then nr lm + 1 else nr lm)%nat.
Proof. unfold p_lm. destruct (o_open_begin o); reflexivity. Qed.
Lemma p_lm_nc o lm : nc (p_lm o lm) = nc lm.
Proof. unfold p_lm. destruct (o_open_begin o); reflexivity. Qed.

(** Main lemma: complete description of [dtw_lm]. *)
Theorem dtw_lm_run cbuf (lm : mat N) qr sp wf o rules :
  pattern_rules sp rules -> wf_mat lm ->
  (o_open_begin o = true -> hint sp = "N") ->
  (o_open_begin o = true \/ cbuf = true) ->
  size_ok (nr (p_lm o lm)) (nc lm) ->
  window_total wf (o_window_args o) (nr (p_lm o lm)) (nc lm) ->
  exists cmx dmx cmf smf win, solution o lm sp wf rules cmx dmx cmf smf win /\
    let last := cmf (nr (p_lm o lm) - 1)%nat in
    match choose o (hint sp) (nr lm) (nc lm) last with
    | Ok jmin =>
        (jmin < nc lm)%nat /\
        if isnan (last jmin) then dtw_lm cbuf lm qr sp wf o = Raise no_path
        else exists ks vs ts,
          p_walk o lm rules win ks vs ts ((nr (p_lm o lm) - 1)%nat, jmin) (last jmin) /\
          usable ks (last jmin) /\ (List.length ks <= nr (p_lm o lm) - 1 + jmin)%nat /\
          dtw_lm cbuf lm qr sp wf o =
            if o_open_begin o && o_distance_only o then Raise AttributeError else
            Ok (result o lm qr sp wf jmin (last jmin)
                  (if o_distance_only o then None
                   else Some (if o_open_begin o then shift_mapping (mapping_of ks vs ts)
                              else mapping_of ks vs ts)) cmx dmx)
    | Raise e => dtw_lm cbuf lm qr sp wf o = Raise e
    | _ => False
    end.
Proof.
  intros Hp Hlm Hob Hcb Hsz Hwt.
  destruct (dtw_lm_cases cbuf lm qr sp wf o) as [[Eb [Eh _]]|[_ E]]; [exfalso; auto|].
  assert (Hrun : exists cm sm cmf smf win,
    globalCostMatrix (if o_open_begin o then true else cbuf)
      (if o_open_begin o then Mat (nr lm + 1) (nc lm) (repeat (ofZ 0) (nc lm) ++ dat lm) else lm) sp wf
      (if o_open_begin o then Some (Mat (nr lm + 1) (nc lm) (repeat (ofZ 0) (nc lm) ++ repeat nan (nr lm * nc lm))) else None)
      (o_window_args o) = Ok (Mat (nr (p_lm o lm)) (nc lm) cm, Mat (nr (p_lm o lm)) (nc lm) sm) /\
    reps (nr (p_lm o lm)) (nc lm) cm cmf /\ reps (nr (p_lm o lm)) (nc lm) sm smf /\
    win_spec wf (o_window_args o) (nr (p_lm o lm)) (nc lm) win /\
    bellman rules (nr (p_lm o lm)) (nc lm) (cell (p_lm o lm)) (p_seed o lm) win cmf smf).
  { unfold p_lm, p_seed in *. destruct (o_open_begin o).
    - destruct (gcm_run (padded lm) sp wf _ (o_window_args o) rules pseed Hp (padded_wf lm Hlm) (pseed_spec lm) Hsz Hwt)
        as [cm [sm [cmf [smf [win H]]]]].
      exists cm, sm, cmf, smf, win. exact H.
    - destruct Hcb as [Hcb|Hcb]; [discriminate|]. subst cbuf.
      destruct (gcm_run lm sp wf None (o_window_args o) rules (seed0 lm) Hp Hlm eq_refl Hsz Hwt)
        as [cm [sm [cmf [smf [win H]]]]].
      exists cm, sm, cmf, smf, win. exact H. }
  destruct Hrun as [cm [sm [cmf [smf [win [Eg [Hcm [Hsm [Hwin HB]]]]]]]]].
  rewrite Eg in E. cbn [bind nr nc] in E.
  set (R := nr (p_lm o lm)) in *. set (m := nc lm) in *.
  destruct Hsz as [HR [Hm Hs]].
  rewrite (row_of_reps R m cm cmf (R - 1) Hcm ltac:(lia)) in E.
  cbv zeta in E. rewrite normalize_row_map in E.
  exists (Mat R m cm), (Mat R m sm), cmf, smf, win. split; [constructor; auto|].
  cbv zeta.
  change (if o_open_end o
     then if String.eqb (hint sp) "NA"
       then Raise (ValueError "Open-end alignments require normalizable step patterns")
       else nanargmin (map (fun j => nrm (hint sp) (nr lm) j (cmf (R - 1)%nat j)) (seq 0 m))
     else Ok (m - 1)%nat) with (choose o (hint sp) (nr lm) m (cmf (R - 1)%nat)) in E.
  destruct (choose o (hint sp) (nr lm) m (cmf (R - 1)%nat)) as [jmin|e| | |] eqn:Ec.
  2:{ exact E. }
  2-4: exfalso; unfold choose, nanargmin in Ec;
    repeat match type of Ec with
    | (if ?b then _ else _) = _ => destruct b
    | match ?x with _ => _ end = _ => destruct x
    end; discriminate.
  pose proof (choose_bound _ _ _ _ _ _ Hm Ec) as Hj. split; [exact Hj|].
  cbn [bind] in E. rewrite !nth_error_map, !nth_error_seq in E.
  destruct (Nat.ltb_spec jmin m); [|lia]. cbn [option_map Nat.add bind] in E.
  destruct (isnan (cmf (R - 1)%nat jmin)) eqn:En; [exact E|].
  destruct (backtrack_ok L rules sp R m (cell (p_lm o lm)) (p_seed o lm) win cmf smf (Mat R m sm)
              Hp HB eq_refl eq_refl Hsm jmin HR Hj En) as [ks [vs [ts [W [U [Hlen B]]]]]].
  exists ks, vs, ts. split; [exact W|]. split; [exact U|]. split; [exact Hlen|].
  rewrite E, B. cbn [bind].
  unfold result, nrm.
  destruct (String.eqb (hint sp) "NA"); cbn [negb bind];
  destruct (o_distance_only o), (o_open_begin o); cbn [bind andb option_map]; reflexivity.
Qed.

(** A call that returns satisfies the preconditions of [dtw_lm_run]. *)
Lemma dtw_lm_inv cbuf (lm : mat N) qr sp wf o d : dtw_lm cbuf lm qr sp wf o = Ok d ->
  (o_open_begin o = true -> hint sp = "N") /\
  (o_open_begin o = true \/ cbuf = true) /\
  size_ok (nr (p_lm o lm)) (nc lm) /\
  window_total wf (o_window_args o) (nr (p_lm o lm)) (nc lm).
Proof.
  intros H. destruct (dtw_lm_cases cbuf lm qr sp wf o) as [[_ [_ E]]|[Hh E]]; [congruence|].
  split; [exact Hh|]. rewrite H in E. symmetry in E.
  destruct (globalCostMatrix _ _ _ _ _ _) as [r| | | |] eqn:G; try discriminate.
  apply gcm_inv in G. destruct G as [G1 [G2 G3]]. rewrite <- p_lm_nc with (o := o).
  unfold p_lm in *. destruct (o_open_begin o); auto.
Qed.

End DtwProof.
