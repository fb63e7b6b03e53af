(** CountEx.v - concrete cases for path counting. *)
From Coq Require Import ZifyBool ZifyNat.
From Verif Require Import Base Num StepPattern Window Core Backtrack Dtw CountPaths Spec Api Tables Vocab Terms CountSpec
  CoreProof DtwProof ApiThms CountProof CountThm CountThm2 NumQ NumQLaws NumF NumFLaws Examples Thm8 Derived.
Open Scope string_scope.
Open Scope list_scope.
Open Scope nat_scope.

(** countPaths returns z on the result. *)
Definition count_is {N : Num} (z : Z) (d : DTW N) : bool :=
  match countPaths d with Ok c => Z.eqb c z | _ => false end.
Definition count_raises {N : Num} (e : exn) (d : DTW N) : bool :=
  match countPaths d, e with
  | Raise TypeError, TypeError => true
  | Raise (ValueError m), ValueError m' => String.eqb m m'
  | _, _ => false
  end.

Lemma exCount : succeeds mA (oKeep "symmetric2") "symmetric2" NoWindow (fun d => count_is 25 d).
Proof. ex_ok NumF_laws. Qed.
Lemma exCountEnd : succeeds mA (named "asymmetric" WTNone [] true false true false) "asymmetric" NoWindow (fun d => count_is 8 d).
Proof. ex_ok NumF_laws. Qed.
Lemma exCountSC : succeeds mA (named "symmetric2" (WTName "sakoechiba") (ws 1) true false false false) "symmetric2" SakoeChiba
   (fun d => count_is 15 d).
Proof. ex_ok NumF_laws. Qed.

(** The size condition of the counting theorems is met by small problems. *)
Lemma fit_case : counts_fit (@productions NumF (match lookup "symmetric2" predefined with Some l => l | None => [] end)) mA NoWindow [].
Proof.
  apply counts_fit_small.
  - vm_compute. reflexivity.
  - intros i j _ _. eexists. reflexivity.
  - vm_compute. discriminate.
Qed.

(** window_args without a window: dtw() does not mind, countPaths does. *)
Lemma exArgs : succeeds mA (named "symmetric2" WTNone (ws 1) true false false false) "symmetric2" NoWindow
   (fun d => count_raises TypeError d).
Proof. ex_ok NumF_laws. Qed.
Lemma exVel : succeeds mA (named "_symmetricVelichkoZagoruyko" WTNone [] true false false false) "_symmetricVelichkoZagoruyko" NoWindow
   (fun d => count_raises (ValueError "cannot convert float NaN to integer") d).
Proof. ex_ok NumF_laws. Qed.

(** Open begin: the number of admitted alignments of the problem that was solved. *)
Lemma open_count {N : Num} (rules : list (rule N)) (lm : mat N) w kw i j : forallb valid_rule rules = true ->
  window_callable w kw (nr lm + 1) (nc lm) -> i < nr lm + 1 -> j < nc lm ->
  numbers (admitted_open rules lm w kw (i, j)) (cnt rules (srcb true) (okb (nr lm + 1) (nc lm) w kw) i j).
Proof.
  intros Hv Hw Hi Hj. eapply numbers_ext; [|apply (cnt_numbers rules Hv (nr lm + 1) (nc lm)); assumption].
  intros [s ks]. cbn [fst snd]. unfold admitted_open, open_walk. cbn [fst snd]. apply runs_iff; auto.
  - intros a b. unfold srcb, open_source. cbn [orb]. rewrite andb_true_r. destruct (a =? 0); split; eauto; try discriminate. intros [c E]. discriminate.
  - intros a b _ Ha Hb. rewrite (okb_window rules w kw (nr lm + 1) (nc lm) a b Hw Ha Hb Hv). unfold srcb. cbn [orb]. rewrite andb_true_r.
    split; intros [A B]; (split; [lia || exact A|lia || exact A]) || (split; [exact B|destruct a; [lia|reflexivity]]).
Qed.

Definition m13 : mat NumF := ints 1 3 [1;1;1]%Z.
Definition asym_rules : list (rule NumF) := productions (match lookup "asymmetric" predefined with Some l => l | None => [] end).

Lemma open_mismatch :
  succeeds m13 (named "asymmetric" WTNone [] true false false true) "asymmetric" NoWindow (fun d => count_is 1 d) /\
  numbers (admitted_open asym_rules m13 NoWindow [] (end_cell true m13 (nc m13 - 1))) 3.
Proof.
  split; [ex_ok NumF_laws|]. unfold end_cell.
  assert (E : cnt asym_rules (srcb true) (@okb NumF 2 3 NoWindow []) 1 2 = 3) by (vm_compute; reflexivity).
  rewrite <- E. apply (open_count asym_rules m13 NoWindow []).
  - vm_compute. reflexivity.
  - intros i j _ _. eexists. reflexivity.
  - cbn. lia.
  - cbn. lia.
Qed.

(** The window is evaluated on different cells: no path counted, yet one was found. *)
Lemma open_window_mismatch :
  succeeds (ints 2 3 [1;1;1;1;1;1]%Z : mat NumF) (named "asymmetric" (WTName "sakoechiba") (ws 0) true false false true)
    "asymmetric" SakoeChiba (fun d => count_is 0 d && align_is [0;1]%Z [1;2]%Z [1;2]%Z d).
Proof. ex_ok NumF_laws. Qed.
