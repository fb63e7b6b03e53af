(** Examples4.v - concrete cases for C34 to C36. *)
From Coq Require Import ZifyBool ZifyNat.
From Verif Require Import Base Num StepPattern Window Core Backtrack Dtw Spec Api Tables Vocab Terms
  CoreProof DtwProof NumQ NumQLaws NumF NumFLaws ApiThms Derived Thm4 Thm8 Thm10 Examples Thm14 Thm15 Warp WarpSpec Thm16.
Open Scope string_scope.
Open Scope list_scope.
Open Scope nat_scope.

Definition warp_is (ref : bool) (l : list Z) (d : DTW NumF) : bool :=
  match warp d ref with Ok l' => zlist_eqb l' l | _ => false end.
(** The area, in thousandths. *)
Definition area_is (z : Z) (d : DTW NumF) : bool :=
  match warpArea d with Ok a => eqb (mul a (ofZ 1000)) (ofZ z) | _ => false end.

(** Ties: two query indices are matched to reference index 2, two reference indices to
    query index 4; the size is within the limit of the theorems. *)
Lemma warp_ties_case : succeeds m5 (oKeep "symmetricP1") "symmetricP1" NoWindow
  (fun d => warp_is false [0;1;2;4;4]%Z d && warp_is true [0;1;2;2;3]%Z d && area_is 1000 d &&
    ((Z.of_nat (List.length (mx (r_stepPattern d))) + 1) * (Z.of_nat (nr m5 + nc m5) * Z.of_nat (nr m5 + nc m5)) <? 2 ^ 53)%Z).
Proof. ex_ok NumF_laws. Qed.
Lemma gapless_case : In "symmetricP1" (gapless_names true) /\ In "symmetricP1" (gapless_names false) /\
  In "asymmetric" (gapless_names true) /\ ~ In "asymmetric" (gapless_names false).
Proof. split; [|split; [|split]]; vm_compute; intuition discriminate. Qed.
(** Warping the query under the asymmetric pattern: reference index 2 is skipped. *)
Lemma warp_gap_case : succeeds mA (oKeep "asymmetric") "asymmetric" NoWindow
  (fun d => align_is [0;1;2]%Z [0;1;3]%Z [2;3]%Z d && warp_is false [0; 1; -9223372036854775808; 2]%Z d && warp_is true [0;1;3]%Z d && area_is 500 d).
Proof. ex_ok NumF_laws. Qed.
(** An open-begin alignment that starts at reference index 2. *)
Definition mTail : mat NumF := ints 4 5 [9;9;0;9;9; 3;9;9;9;0; 4;2;1;9;0; 9;9;9;9;0]%Z.
Lemma warp_open_case : succeeds mTail (named "asymmetric" WTNone [] true false true true) "asymmetric" NoWindow
  (fun d => warp_is false [0;0;0;0;2]%Z d && warp_is true [2;4;4;4]%Z d && area_is 6000 d).
Proof. ex_ok NumF_laws. Qed.
(** The identity alignment. *)
Lemma area_identity_case : succeeds mSq (oKeep "symmetric2") "symmetric2" NoWindow
  (fun d => align_is [0;1;2]%Z [0;1;2]%Z [1;1]%Z d && area_is 0 d).
Proof. ex_ok NumF_laws. Qed.
(** Query index 1 is skipped: the curve there is half way between its neighbours. *)
Definition mSkip : mat NumF := ints 5 4 [0;9;9;9; 9;9;9;9; 9;0;9;9; 9;9;9;9; 9;9;9;0]%Z.
Lemma area_gap_case : succeeds mSkip (oKeep "typeIIa") "typeIIa" NoWindow
  (fun d => match r_map d with Some mp => zlist_eqb (index1 mp) [0;2;3;4]%Z && zlist_eqb (index2 mp) [0;1;2;3]%Z | None => false end
            && area_is 1000 d && warp_is true [0; -9223372036854775808; 1; 2; 3]%Z d).
Proof. ex_ok NumF_laws. Qed.
Lemma area_distonly_case : succeeds mA (named "symmetric2" WTNone [] true true false false) "symmetric2" NoWindow
  (fun d => match r_map d with None => true | _ => false end).
Proof. ex_ok NumF_laws. Qed.
