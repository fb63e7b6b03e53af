(** Examples10.v - concrete cases for the open-begin and whole-matrix forms of C01, C05, C10, C13, C22, C36 and C42. *)
From Coq Require Import ZifyBool ZifyNat.
From Verif Require Import Base Num StepPattern Window Core Backtrack Dtw Spec Api Tables Vocab Terms
  NumF NumFLaws CoreProof DtwProof ApiThms Derived Thm1 Thm8 Thm10 Warp Examples Examples3 Examples9.
Open Scope string_scope.
Open Scope list_scope.
Open Scope nat_scope.

(** A path of infinite cost, through the cell (0,1); the distance is that of the diagonal. *)
Definition mInf : mat NumF := Mat 2 2 [ofZ 1; pinf; ofZ 1; ofZ 1].
Lemma infinite_path_case :
  succeeds mInf (oKeep "symmetric2") "symmetric2" NoWindow (dist_is 3) /\
  exists l c ks vs ts, lookup "symmetric2" predefined = Some l /\
    closed_walk (productions l) mInf NoWindow [] ks vs ts (1, 1) c /\ isnan c = false /\ ltb c pinf = false.
Proof.
  split; [ex_ok NumF_laws|].
  destruct (lookup "symmetric2" predefined) as [l|] eqn:El; [|vm_compute in El; discriminate].
  vm_compute in El. injection El as <-.
  match goal with |- exists l c ks vs ts, Some ?l0 = _ /\ _ => set (R := @productions NumF l0) end.
  assert (W0 : closed_walk R mInf NoWindow [] [] [(0, 0)] [(0, 0)] (0, 0) (cell mInf 0 0)) by (apply walk_start; [reflexivity|cbn; lia|cbn; lia]).
  pose proof (walk_step R (cell mInf) 2 2 (closed_source mInf) (in_window NoWindow [] 2 2) _ _ _ 0 0 _ 2 _ W0 eq_refl ltac:(cbn; lia) ltac:(cbn; lia) I) as W1.
  pose proof (walk_step R (cell mInf) 2 2 (closed_source mInf) (in_window NoWindow [] 2 2) _ _ _ 0 1 _ 3 _ W1 eq_refl ltac:(cbn; lia) ltac:(cbn; lia) I) as W2.
  eexists _, _, _, _, _. split; [reflexivity|]. split; [exact W2|]. split; vm_compute; reflexivity.
Qed.

(** Matrices as lists of integers *)
Definition cells_are (g : option (mat NumF)) (l : list (option Z)) : bool :=
  match g with
  | Some g => (List.length (dat g) =? List.length l) &&
      forallb (fun p => match snd p with Some z => eqb (fst p) (ofZ z) | None => isnan (fst p) end) (combine (dat g) l)
  | None => false
  end.

(** Open end: the last row of the matrix is 8 6 5 6; with hint N+M the least normalized value is 5/6, in column 2. *)
Lemma last_row_case :
  succeeds mA (named "symmetric2" WTNone [] true false true false) "symmetric2" NoWindow
    (fun d => (r_jmin d =? 2) && dist_is 5 d &&
       cells_are (r_costMatrix d) [Some 1; Some 6; Some 8; Some 12; Some 4; Some 3; Some 9; Some 11; Some 8; Some 5; Some 5; Some 6]%Z).
Proof. ex_ok NumF_laws. Qed.

(** Open begin with a band: the code measures it from the padded query. *)
Lemma band_open_case :
  succeeds mA (named "asymmetric" (WTName "sakoechiba") (ws 1) true false true true) "asymmetric" SakoeChiba
    (fun d => dist_is 3 d && align_is [0;1;2]%Z [0;1;2]%Z [1;2;2]%Z d &&
       cells_are (r_costMatrix d) [Some 1; Some 5; Some 2; None; None; Some 2; Some 7; Some 4; None; None; Some 3; Some 3]%Z).
Proof. ex_ok NumF_laws. Qed.

(** Open begin around a missing and an infinite cost *)
Lemma obstacle_open_case :
  succeeds mB (named "asymmetric" WTNone [] true false true true) "asymmetric" NoWindow
    (fun d => dist_is 3 d && align_is [0;1;2]%Z [0;1;2]%Z [1;2;2]%Z d).
Proof. ex_ok NumF_laws. Qed.

(** Open begin with a pattern that may skip query sample 0: steps 3 = (2,1) and 1 = (1,1); warpArea raises. *)
Definition area_ok (d : DTW NumF) : bool := match warpArea d with Ok v => negb (isnan v) | _ => false end.
Definition area_fails (d : DTW NumF) : bool := match warpArea d with Raise _ => true | _ => false end.
Lemma area_open_case :
  succeeds mB (named "typeIIc" WTNone [] true false true true) "typeIIc" NoWindow
    (fun d => align_is [1;2]%Z [1;2]%Z [3;1]%Z d && area_fails d) /\
  succeeds mA (named "asymmetric" WTNone [] true false true true) "asymmetric" NoWindow
    (fun d => align_is [0;1;2]%Z [0;1;2]%Z [1;2;2]%Z d && area_ok d).
Proof. split; ex_ok NumF_laws. Qed.
