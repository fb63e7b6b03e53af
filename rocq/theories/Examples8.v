(** Examples8.v - concrete cases for C52 (time reversal), C53 (zero distance) and
    C54 (bounds). *)
From Coq Require Import ZifyBool ZifyNat QArith Qcanon.
From Verif Require Import Base Num StepPattern Window Core Backtrack Dtw Spec Api Tables Vocab Terms
  NumQ NumQLaws NumF NumFLaws CoreProof ApiThms Derived Thm8 Thm10 Examples Examples3 Examples7 SeriesSpec Thm23 Thm24 Thm25.
Open Scope string_scope.
Open Scope list_scope.
Open Scope nat_scope.

(** Backwards in time: symmetric1, with a band *)
Definition mRev : mat NumQ := ints 3 3 [0;1;9; 9;3;1; 9;9;4]%Z.
Definition bandQ (z : Z) : kwargs NumQ := [("window_size", ofZ z)].
Lemma rev_symmetric1 :
  succeeds mRev (named "symmetric1" (WTName "sakoechiba") (bandQ 1) true false false false) "symmetric1" SakoeChiba
    (fun d => dist_is 6 d && align_is [0;0;1;2]%Z [0;1;2;2]%Z [2;1;3]%Z d) /\
  succeeds (rot mRev) (named "symmetric1" (WTName "sakoechiba") (bandQ 1) true false false false) "symmetric1" SakoeChiba
    (fun d => dist_is 6 d && align_is [0;1;2;2]%Z [0;0;1;2]%Z [3;1;2]%Z d) /\
  window_reversible SakoeChiba (bandQ 1) 3 3.
Proof. split; [ex_ok NumQ_laws|split; [ex_ok NumQ_laws|apply reversible_sakoe; reflexivity]]. Qed.

(** symmetric2 pays the first cell once and the last one twice: not the same backwards *)
Definition mDiag : mat NumQ := ints 2 2 [0;9; 9;1]%Z.
Lemma rev_symmetric2_differs :
  succeeds mDiag (oQ "symmetric2") "symmetric2" NoWindow (dist_is 2) /\
  succeeds (rot mDiag) (oQ "symmetric2") "symmetric2" NoWindow (dist_is 1).
Proof. split; ex_ok NumQ_laws. Qed.

(** open_end forwards is open_begin backwards *)
Definition mOpen : mat NumQ := ints 3 4 [0;3;5;9; 2;1;4;8; 7;1;2;3]%Z.
Lemma rev_open :
  succeeds mOpen (named "asymmetric" WTNone [] true false true false) "asymmetric" NoWindow
    (fun d => dist_is 2 d && align_is [0;1;2]%Z [0;1;1]%Z [2;1]%Z d) /\
  succeeds (rot mOpen) (named "asymmetric" WTNone [] true false false true) "asymmetric" NoWindow
    (fun d => dist_is 2 d && align_is [0;1;2]%Z [2;2;3]%Z [1;1;2]%Z d).
Proof. split; ex_ok NumQ_laws. Qed.

(** Comparing every sample of one series with every sample of the other by f *)
Definition cdist_of {N : Num} (f : list N -> list N -> N) (xm ym : mat N) : out (mat N) :=
  Ok (Mat (nr xm) (nr ym) (map (fun ij => f (sample xm (fst ij)) (sample ym (snd ij))) (indices (nr xm) (nr ym)))).
Lemma cdist_of_entrywise : forall (N : Num) (f : list N -> list N -> N), entrywise (cdist_of f) f.
Proof.
  intros N f xm ym _ _ _. eexists. split; [reflexivity|]. split; [|split; [reflexivity|split; [reflexivity|]]].
  - unfold wf_mat. cbn [nr nc dat]. rewrite map_length. apply indices_length.
  - intros i j Hi Hj. unfold cell. cbn [nr nc dat]. set (g := fun ij => _).
    unfold mget. cbn [nr nc dat]. rewrite (proj2 (Nat.ltb_lt j _) Hj), (proj2 (Nat.ltb_lt i _) Hi), (map_nth_error g _ _ (indices_nth _ _ _ _ Hi Hj)). reflexivity.
Qed.
(** squared Euclidean distance *)
Definition sq (a b : list NumQ) : NumQ :=
  fold_left (fun s p => add s (mul (sub (fst p) (snd p)) (sub (fst p) (snd p)))) (combine a b) (ofZ 0).
Definition xRev : mat NumQ := ints 3 2 [1;2; 3;4; 5;0]%Z.
Definition yRev : mat NumQ := ints 2 2 [1;1; 4;4]%Z.
Lemma series_backwards :
  backwards xRev (ints 3 2 [5;0; 3;4; 1;2]%Z) /\ backwards yRev (ints 2 2 [4;4; 1;1]%Z) /\
  checkOk (dtw (cdist_of sq) (NdArray (Nd2 xRev) true true) (Some (NdArray (Nd2 yRev) true true)) (oQ "symmetric1"))
    (dist_is 19) = true /\
  checkOk (dtw (cdist_of sq) (NdArray (Nd2 (ints 3 2 [5;0; 3;4; 1;2]%Z)) true true)
            (Some (NdArray (Nd2 (ints 2 2 [4;4; 1;1]%Z)) true true)) (oQ "symmetric1")) (dist_is 19) = true.
Proof.
  split; [|split; [|split; vm_compute; reflexivity]].
  - split; [reflexivity|split; [reflexivity|]]. intros i k Hi Hk. cbn in Hi, Hk.
    destruct i as [|[|[|i]]]; [| | |lia]; destruct k as [|[|k]]; try reflexivity; lia.
  - split; [reflexivity|split; [reflexivity|]]. intros i k Hi Hk. cbn in Hi, Hk.
    destruct i as [|[|i]]; [| |lia]; destruct k as [|[|k]]; try reflexivity; lia.
Qed.

(** Zero distance: both series are [1;2;3] with repetitions *)
Definition absdiff (xs ys : list Z) : mat NumF :=
  ints (List.length xs) (List.length ys) (flat_map (fun a => map (fun b => Z.abs (a - b)) ys) xs).
Lemma zero_case :
  succeeds (absdiff [1;1;2;3] [1;2;2;3;3])%Z (oKeep "symmetric2") "symmetric2" NoWindow (dist_is 0) /\
  stretched [1;2;3]%Z [1;1;2;3]%Z /\ stretched [1;2;3]%Z [1;2;2;3;3]%Z.
Proof.
  split; [ex_ok NumF_laws|]. split.
  - apply st_again. repeat constructor.
  - apply st_new, st_again, st_new, st_again. repeat constructor.
Qed.
Lemma zero_labels : forall i j a b, nth_error [1;1;2;3]%Z i = Some a -> nth_error [1;2;2;3;3]%Z j = Some b ->
  eqb (cell (absdiff [1;1;2;3] [1;2;2;3;3])%Z i j) (ofZ 0) = true <-> a = b.
Proof.
  intros i j a b Ha Hb.
  destruct i as [|[|[|[|i]]]]; cbn in Ha; try discriminate Ha; try (injection Ha as <-);
  (destruct j as [|[|[|[|[|j]]]]]; cbn in Hb; try discriminate Hb; try (injection Hb as <-));
  try (destruct i; discriminate Ha); try (destruct j; discriminate Hb);
  vm_compute; split; congruence.
Qed.
Lemma nonzero_case : succeeds (absdiff [1;2;1] [1;2])%Z (oKeep "symmetric2") "symmetric2" NoWindow (dist_is 1).
Proof. ex_ok NumF_laws. Qed.

(** Bounds: row minima inside the band, and the lock-step sum *)
Definition lb5 (i : nat) : NumF := ofZ (nth i [0;1;0;1;1]%Z 0%Z).
Lemma bounds_case :
  succeeds m5 (named "symmetric1" (WTName "sakoechiba") (ws 1) true false false false) "symmetric1" SakoeChiba
    (fun d => dist_is 4 d && leb (running_sum (ofZ 1) lb5 4) (r_distance d) && eqb (running_sum (ofZ 1) lb5 4) (ofZ 3) &&
              leb (r_distance d) (running_sum (ofZ 1) (fun i => cell m5 i i) 4)
              && eqb (running_sum (ofZ 1) (fun i => cell m5 i i) 4) (ofZ 6)) /\
  forallb (fun i => forallb (fun j => (1 <? i - j) || (1 <? j - i) ||
     (leb (ofZ 0) (lb5 i) && leb (lb5 i) (cell m5 i j))) (seq 0 5)) (seq 0 5) = true.
Proof. split; [ex_ok NumF_laws|vm_compute; reflexivity]. Qed.
