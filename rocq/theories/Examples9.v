(** Examples9.v - concrete cases for C55 to C60. *)
From Coq Require Import ZifyBool ZifyNat QArith Qcanon.
From Verif Require Import Base Num StepPattern Window Core Backtrack Dtw Spec Api Tables Vocab Terms CountPaths CountSpec
  NumQ NumQLaws NumF NumFLaws CoreProof ApiThms Derived Thm8 Thm10 Thm13 CountEx Examples Examples3 Examples7 Examples8 SeriesSpec PathSpec.
Open Scope string_scope.
Open Scope list_scope.
Open Scope nat_scope.

(** A band of half-width 1 as a mask *)
Definition mBand : mat NumF :=
  Mat 3 4 (map ofZ [1;5]%Z ++ [nan; nan] ++ map ofZ [3;1;6]%Z ++ [nan; nan] ++ map ofZ [2;1;1]%Z).
Lemma mask_case : masked false SakoeChiba (ws 1) mA mBand /\
  succeeds mA (named "symmetric2" (WTName "sakoechiba") (ws 1) true false false false) "symmetric2" SakoeChiba
    (fun d => dist_is 6 d && align_is [0;1;2;2]%Z [0;1;2;3]%Z [1;1;2]%Z d) /\
  succeeds mBand (oKeep "symmetric2") "symmetric2" NoWindow
    (fun d => dist_is 6 d && align_is [0;1;2;2]%Z [0;1;2;3]%Z [1;1;2]%Z d).
Proof.
  split; [|split; ex_ok NumF_laws]. split; [reflexivity|]. split; [reflexivity|].
  intros i j Hi Hj. cbn in Hi, Hj.
  destruct i as [|[|[|]]]; try lia; (destruct j as [|[|[|[|]]]]; try lia); (split;
    [intros H; first [exfalso; destruct H as [[_ [A B]]|H]; [first [discriminate A|discriminate B]|vm_compute in H; discriminate H]|reflexivity]
    |intros H; first [exfalso; apply H; first [right; vm_compute; reflexivity|left; repeat split; reflexivity]|reflexivity]]).
Qed.

(** typeIIIc has inner points, which the window does not see but missing costs do *)
Definition mInDiag : mat NumF := Mat (nr mIn) (nc mIn) (map (fun ij => if (fst ij =? snd ij)%nat then cell mIn (fst ij) (snd ij) else nan) (indices (nr mIn) (nc mIn))).
Lemma mask_inner_differs :
  succeeds mIn (named "typeIIIc" (WTName "sakoechiba") (ws 0) true false false false) "typeIIIc" SakoeChiba (dist_is 0) /\
  succeeds mInDiag (oKeep "typeIIIc") "typeIIIc" NoWindow (dist_is 9).
Proof. split; ex_ok NumF_laws. Qed.

(** open_end stops at reference sample 2; the reference cut there *)
Lemma prefix_case :
  succeeds mA (named "symmetric2" WTNone [] true false true false) "symmetric2" NoWindow
    (fun d => dist_is 5 d && (r_jmin d =? 2) && align_is [0;1;2]%Z [0;1;2]%Z [1;1]%Z d) /\
  succeeds (leading mA 3 3) (named "symmetric2" WTNone [] true false false false) "symmetric2" NoWindow
    (fun d => dist_is 5 d && (r_jmin d =? 2) && align_is [0;1;2]%Z [0;1;2]%Z [1;1]%Z d).
Proof. split; ex_ok NumF_laws. Qed.

(** the full result passes through (1,1): the leading 2 x 2 block *)
Lemma passes_case :
  succeeds mA (oKeep "symmetric2") "symmetric2" NoWindow
    (fun d => dist_is 6 d && align_is [0;1;2;2]%Z [0;1;2;3]%Z [1;1;2]%Z d &&
      match r_costMatrix d with Some cm => match mget cm 1 1 with Some v => eqb v (ofZ 3) | None => false end | None => false end) /\
  succeeds (leading mA 2 2) (oKeep "symmetric2") "symmetric2" NoWindow
    (fun d => dist_is 3 d && align_is [0;1]%Z [0;1]%Z [1]%Z d).
Proof. split; ex_ok NumF_laws. Qed.

(** a longer reference *)
Lemma longer_case :
  succeeds (leading mA 3 2) (named "symmetric2" WTNone [] true false true false) "symmetric2" NoWindow
    (fun d => (r_jmin d =? 1) && ltb (div (ofZ 99) (ofZ 100)) (r_normalizedDistance d)) /\
  succeeds mA (named "symmetric2" WTNone [] true false true false) "symmetric2" NoWindow
    (fun d => (r_jmin d =? 2) && ltb (r_normalizedDistance d) (div (ofZ 99) (ofZ 100))).
Proof. split; ex_ok NumF_laws. Qed.

(** counts *)
Lemma count_case : succeeds mA (oKeep "symmetric2") "symmetric2" NoWindow
    (fun d => count_is (Z.of_nat (delannoy 2 3)) d && count_is 25 d) /\
  succeeds mA (oKeep "asymmetric") "asymmetric" NoWindow
    (fun d => count_is (Z.of_nat (trinomial 2 3)) d && count_is 2 d) /\
  delannoy 4 4 = 321 /\ trinomial 5 5 = 51.
Proof. split; [ex_ok NumF_laws|split; [ex_ok NumF_laws|split; vm_compute; reflexivity]]. Qed.

(** open_begin starts at reference sample 1; the reference from there on, and from elsewhere *)
Definition mSuf : mat NumQ := ints 3 5 [4;1;2;5;3; 6;3;1;4;2; 5;4;3;2;1]%Z.
Lemma suffix_case :
  succeeds mSuf (named "asymmetric" WTNone [] true false false true) "asymmetric" NoWindow
    (fun d => dist_is 3 d && align_is [0;1;2]%Z [1;2;4]%Z [1;2;3]%Z d) /\
  succeeds (trailing mSuf 1) (named "asymmetric" WTNone [] true false false false) "asymmetric" NoWindow
    (fun d => dist_is 3 d && align_is [0;1;2]%Z [0;1;3]%Z [2;3]%Z d) /\
  succeeds (trailing mSuf 2) (named "asymmetric" WTNone [] true false false false) "asymmetric" NoWindow (dist_is 4).
Proof. split; [|split]; ex_ok NumQ_laws. Qed.
