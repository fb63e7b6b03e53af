(** HeapFrame.v - no call changes an object that existed before (proofs for C69). *)
From Verif Require Import Base Num StepPattern Window Core Backtrack Dtw CountPaths Warp Heap HeapSpec.
Open Scope string_scope.
Open Scope list_scope.
Open Scope nat_scope.
Open Scope prog_scope.

Section Frame.
Context {N : Num}.
Notation heap := (heap N).

Lemma upd_length {A} (l : list A) i v : List.length (upd l i v) = List.length l.
Proof. revert i. induction l as [|x l IH]; intros [|i]; cbn; auto. Qed.
Lemma upd_app_r {A} (l t : list A) i v : List.length l <= i -> upd (l ++ t) i v = l ++ upd t (i - List.length l) v.
Proof.
  revert i. induction l as [|x l IH]; intros i H; cbn in *; [rewrite Nat.sub_0_r; reflexivity|].
  destruct i as [|i]; [lia|]. cbn. f_equal. apply IH. lia.
Qed.
Lemma upd_app_l {A} (l t : list A) i v : i < List.length l -> upd (l ++ t) i v = upd l i v ++ t.
Proof.
  revert i. induction l as [|x l IH]; intros i H; cbn in *; [lia|]. destruct i as [|i]; [reflexivity|]. cbn. f_equal. apply IH. lia.
Qed.
Lemma upd_upd {A} (l : list A) i u v : upd (upd l i u) i v = upd l i v.
Proof. revert i. induction l as [|x l IH]; intros [|i]; cbn; auto. f_equal. apply IH. Qed.
Lemma nth_upd_same {A} (l : list A) i v : i < List.length l -> nth_error (upd l i v) i = Some v.
Proof. revert i. induction l as [|x l IH]; intros [|i] H; cbn in *; try lia; auto. apply IH. lia. Qed.
Lemma nth_upd_other {A} (l : list A) i j v : i <> j -> nth_error (upd l i v) j = nth_error l j.
Proof. revert i j. induction l as [|x l IH]; intros [|i] [|j] H; cbn; auto; try congruence. Qed.

(** [keeps h p Q]: run on [h] or more, p leaves [h] alone, and what it returns satisfies [Q]. *)
Definition keeps (h : heap) {A} (p : prog N A) (Q : A -> Prop) : Prop :=
  forall t, (exists t', snd (p (h ++ t)) = h ++ t') /\ forall a, fst (p (h ++ t)) = Ok a -> Q a.

Lemma keeps_ret h A (a : A) (Q : A -> Prop) : Q a -> keeps h (ret a) Q.
Proof. intros H t. split; [exists t; reflexivity|]. intros b E. injection E as <-. exact H. Qed.
Lemma keeps_fail h A e (Q : A -> Prop) : keeps h (fail e) Q.
Proof. intros t. split; [exists t; reflexivity|discriminate]. Qed.
Lemma keeps_lift h A (o : out A) : keeps h (lift o) (fun _ => True).
Proof. intros t. split; [exists t; reflexivity|auto]. Qed.
Lemma keeps_see h A (f : heap -> option A) : keeps h (see f) (fun _ => True).
Proof. intros t. unfold see. destruct (f (h ++ t)); split; try (exists t; reflexivity); auto. Qed.
Lemma keeps_new (h : heap) b : keeps h (new b) (fun l => List.length h <= l).
Proof.
  intros t. unfold new. split; [exists (t ++ [b]); cbn [snd]; rewrite app_assoc; reflexivity|].
  intros a E. injection E as <-. rewrite app_length. lia.
Qed.
Lemma keeps_put (h : heap) l b : List.length h <= l -> keeps h (put l b) (fun _ => True).
Proof.
  intros H t. unfold put. destruct (l <? _); split; auto; [|exists t; reflexivity].
  exists (upd t (l - List.length h) b). cbn [snd]. apply upd_app_r. exact H.
Qed.
Lemma keeps_setattr (h : heap) l k v : List.length h <= l -> keeps h (setattr l k v) (fun _ => True).
Proof.
  intros H t. unfold setattr. destruct (load_fields (h ++ t) l) as [f|]; [apply keeps_put; exact H|]. split; auto. exists t. reflexivity.
Qed.
Lemma keeps_delattr (h : heap) l k : List.length h <= l -> keeps h (delattr l k) (fun _ => True).
Proof.
  intros H t. unfold delattr. destruct (load_fields (h ++ t) l) as [f|]; [|split; auto; exists t; reflexivity].
  destruct (lookup k f); [apply keeps_put; exact H|]. split; auto. exists t. reflexivity.
Qed.
Lemma keeps_getref (h : heap) l k : keeps h (getref l k) (fun _ => True).
Proof.
  intros t. unfold getref. destruct (load_fields (h ++ t) l) as [f|]; [destruct (lookup k f) as [[]|]|]; split; auto; exists t; reflexivity.
Qed.
Lemma keeps_then (h : heap) A B (p : prog N A) (f : A -> prog N B) Q R :
  keeps h p Q -> (forall a, Q a -> keeps h (f a) R) -> keeps h (andthen p f) R.
Proof.
  intros Hp Hf t. unfold andthen. destruct (Hp t) as [[t' E] H]. destruct (p (h ++ t)) as [[a|e| | |] h'] eqn:Ep; cbn [fst snd] in *; subst h';
    try (split; [exists t'; reflexivity|discriminate]).
  apply (Hf a (H a eq_refl)).
Qed.
Lemma keeps_weaken (h : heap) A (p : prog N A) (Q R : A -> Prop) : (forall a, Q a -> R a) -> keeps h p Q -> keeps h p R.
Proof. intros H K t. destruct (K t) as [K1 K2]. split; auto. Qed.
Lemma keeps_any (h : heap) A (p : prog N A) Q : keeps h p Q -> keeps h p (fun _ => True).
Proof. apply keeps_weaken. auto. Qed.

Ltac kstep :=
  first
  [ apply keeps_fail
  | apply keeps_ret; first [exact I | assumption | (cbn; assumption) | (split; cbn; assumption) | idtac]
  | eapply keeps_then; [first [apply keeps_see | apply keeps_lift | apply keeps_new | apply keeps_getref
        | (apply keeps_put; assumption) | (apply keeps_setattr; assumption) | (apply keeps_delattr; assumption)]
      | let a := fresh "a" in let H := fresh "K" in intros a H ]
  | match goal with |- keeps _ (if ?b then _ else _) _ => destruct b end ].

Lemma keeps_wrapper (h : heap) wm lm nsteps dir cm : List.length h <= cm ->
  keeps h (h_wrapper wm lm nsteps dir cm) (fun l => List.length h <= l).
Proof. intros H. open_wrapper. repeat kstep. apply keeps_new. Qed.

Lemma keeps_global (h : heap) lm sp wf seed args : (forall p, seed = Some p -> List.length h <= p) ->
  keeps h (h_globalCostMatrix lm sp wf seed args) (fun l => List.length h <= l).
Proof.
  intros H. open_global. repeat kstep.
  apply (keeps_then _ _ _ _ _ (fun l => List.length h <= l)).
  - destruct seed as [p|]; [apply keeps_ret; apply H; reflexivity|].
    kstep. apply (keeps_then _ _ _ _ _ (fun _ => True)); [destruct (mget _ 0 0); repeat kstep|intros v _].
    repeat kstep.
  - intros c Hc. apply (keeps_then _ _ _ _ _ (fun l => List.length h <= l)); [apply keeps_wrapper; exact Hc|]. intros o Ho. repeat kstep.
Qed.

Lemma keeps_local (h : heap) a : keeps h (h_local_costs a) (fun _ => True).
Proof.
  open_local. destruct (ha_y a) as [y|]; repeat kstep.
  - destruct (nd_val _); repeat kstep. destruct (nd_val _); repeat kstep.
  - destruct (nd_val _); repeat kstep.
Qed.

Theorem keeps_dtw (h : heap) E a : keeps h (h_dtw E a) (fun l => List.length h <= l).
Proof.
  open_dtw. eapply keeps_then; [apply keeps_local|]. intros [lm qr] _.
  apply (keeps_then _ _ _ _ _ (fun _ => True)).
  { destruct (ha_step_pattern a) as [l|s]; [apply keeps_ret; exact I|]. destruct (lookup s (e_patterns E)); [apply keeps_ret; exact I|apply keeps_fail]. }
  intros sp _. do 2 kstep.
  apply (keeps_then _ _ _ _ _ (fun q => forall p, snd q = Some p -> List.length h <= p)).
  { destruct (ha_open_begin a); [|apply keeps_ret; discriminate]. destruct (negb _); [apply keeps_fail|]. do 3 kstep.
    apply keeps_ret. cbn. intros p E0. injection E0 as <-. assumption. }
  intros [lm1 seed] Hs. cbn in Hs.
  eapply keeps_then; [apply keeps_global; exact Hs|]. intros out Ho.
  do 10 kstep.
  apply (keeps_then _ _ _ _ _ (fun _ => True)).
  { destruct (ha_open_end a); [|apply keeps_ret; exact I]. destruct (String.eqb _ "NA"); [apply keeps_fail|apply keeps_lift]. }
  intros jmin _. kstep.
  apply (keeps_then _ _ _ _ _ (fun _ => True)). { destruct (nth_error _ jmin); [apply keeps_ret; exact I|apply keeps_fail]. }
  intros v _. kstep. destruct (isnan v); [apply keeps_fail|].
  apply (keeps_then _ _ _ _ _ (fun _ => True)).
  { destruct (negb _); [|apply keeps_ret; exact I]. destruct (nth_error _ jmin); [apply keeps_ret; exact I|apply keeps_fail]. }
  intros nv _. kstep.
  apply (keeps_then _ _ _ _ _ (fun _ => True)).
  { destruct (ha_distance_only a); [apply keeps_ret; exact I|]. do 12 kstep. apply keeps_setattr. assumption. }
  intros _ _.
  apply (keeps_then _ _ _ _ _ (fun _ => True)).
  { destruct (ha_open_begin a); [|apply keeps_ret; exact I]. repeat kstep. }
  intros lm2 _.
  apply (keeps_then _ _ _ _ _ (fun _ => True)); [|intros _ _; apply keeps_ret; assumption].
  destruct (ha_keep_internals a).
  - kstep. destruct qr as [[x y]|]; [|apply keeps_ret; exact I]. kstep. apply keeps_setattr. assumption.
  - kstep. apply keeps_delattr. assumption.
Qed.

Theorem keeps_T (h : heap) sp : keeps h (h_T sp) (fun l => List.length h <= l).
Proof. open_T. repeat kstep. apply keeps_new. Qed.
Theorem keeps_countPaths (h : heap) l : keeps h (h_countPaths l) (fun _ => True).
Proof. open_countPaths. kstep. apply keeps_lift. Qed.
Theorem keeps_warp (h : heap) l b : keeps h (h_warp l b) (fun l => List.length h <= l).
Proof. open_warp. repeat kstep. apply keeps_new. Qed.
Theorem keeps_warpArea (h : heap) l : keeps h (h_warpArea l) (fun _ => True).
Proof. open_warpArea. kstep. apply keeps_lift. Qed.

Lemma left_keeps (h : heap) A (p : prog N A) Q t h' : keeps h p Q -> left_by (p (h ++ t)) = Some h' -> exists t', h' = h ++ t'.
Proof.
  intros K. destruct (K t) as [[t' E] _]. unfold left_by. destruct (p (h ++ t)) as [[]]; cbn [snd] in E; intros Q0; try discriminate;
    injection Q0 as <-; exists t'; exact E.
Qed.

(** One call, run in a heap that starts with [h], leaves [h] as it is. *)
Lemma step_keeps E e (h : heap) t h' : is_call e -> step E e (h ++ t) = Some h' -> exists t', h' = h ++ t'.
Proof.
  destruct e; cbn [is_call step]; intros H Q; try contradiction.
  - eapply left_keeps; [apply keeps_dtw|exact Q].
  - eapply left_keeps; [apply keeps_T|exact Q].
  - eapply left_keeps; [apply keeps_countPaths|exact Q].
  - eapply left_keeps; [apply keeps_warp|exact Q].
  - eapply left_keeps; [apply keeps_warpArea|exact Q].
  - injection Q as <-. exists (t ++ [b]). rewrite app_assoc. reflexivity.
Qed.

Theorem run_keeps E es (h : heap) h' : (forall e, In e es -> is_call e) -> run E es h = Some h' -> unchanged h h'.
Proof.
  intros H. assert (G : forall es t, (forall e, In e es -> is_call e) -> run E es (h ++ t) = Some h' -> unchanged h h').
  { clear es H. induction es as [|e es IH]; cbn [run]; intros t H Q.
    - injection Q as <-. exists t. reflexivity.
    - destruct (step E e (h ++ t)) as [h1|] eqn:S1; [|discriminate].
      destruct (step_keeps _ _ _ _ _ (H e (or_introl eq_refl)) S1) as [t1 ->]. apply (IH t1); auto. intros e' I. apply H. right. exact I. }
  intros Q. apply (G es [] H). rewrite app_nil_r. exact Q.
Qed.

(** Single objects, when the program that uses the package also changes objects *)
Lemma step_at E e (h : heap) h' l : step E e h = Some h' -> l < List.length h -> (forall b, e <> EvWrite l b) ->
  nth_error h' l = nth_error h l /\ List.length h <= List.length h'.
Proof.
  intros Q Hl Hw. destruct (match e with EvWrite _ _ => true | _ => false end) eqn:B.
  - destruct e; try discriminate. cbn [step] in Q. unfold put in Q. destruct (l0 <? List.length h) eqn:L; cbn in Q; [|discriminate]. injection Q as <-.
    split; [|rewrite upd_length; lia]. apply nth_upd_other. intros ->. exact (Hw b eq_refl).
  - assert (C : is_call e) by (destruct e; try discriminate; exact I). rewrite <- (app_nil_r h) in Q.
    destruct (step_keeps _ _ _ _ _ C Q) as [t' ->]. rewrite nth_error_app1 by exact Hl. split; [reflexivity|]. rewrite app_length. lia.
Qed.
Theorem run_at E es (h : heap) h' l : run E es h = Some h' -> l < List.length h -> (forall b, ~ In (EvWrite l b) es) ->
  nth_error h' l = nth_error h l /\ List.length h <= List.length h'.
Proof.
  revert h. induction es as [|e es IH]; cbn [run]; intros h Q Hl Hw; [injection Q as <-; auto|].
  destruct (step E e h) as [h1|] eqn:S1; [|discriminate].
  destruct (step_at _ _ _ _ l S1 Hl) as [E1 L1]; [intros b ->; exact (Hw b (or_introl eq_refl))|].
  destruct (IH h1 Q ltac:(lia)) as [E2 L2]; [intros b I; exact (Hw b (or_intror I))|]. split; [congruence|lia].
Qed.
End Frame.
