(** Examples17.v - concrete cases for C68 (weak triangle inequality). *)
From Coq Require Import QArith Qcanon ZifyBool ZifyNat.
From Verif Require Import Base Num NumQ NumQLaws StepPattern Window Core Backtrack Dtw Spec Api Tables Vocab Terms
  Derived Examples Examples7 SeriesSpec Examples8 TriSpec Tri2.
Open Scope string_scope.
Open Scope list_scope.
Open Scope nat_scope.

(** x = 1 1 1, y = 1 0, z = 0 0 0, compared by the absolute difference *)
Definition tXY : mat NumQ := ints 3 2 [0;1; 0;1; 0;1]%Z.
Definition tYZ : mat NumQ := ints 2 3 [1;1;1; 0;0;0]%Z.
Definition tXZ : mat NumQ := ints 3 3 [1;1;1; 1;1;1; 1;1;1]%Z.
Lemma t_triangle : triangle tXY tYZ tXZ.
Proof.
  split; [reflexivity|]. split; [reflexivity|]. split; [reflexivity|]. intros i j k Hi Hj Hk. cbn in Hi, Hj, Hk.
  destruct i as [|[|[|i]]]; [| | |lia]; (destruct j as [|[|j]]; [| |lia]); (destruct k as [|[|[|k]]]; [| | |lia]);
    do 3 eexists; (split; [reflexivity|]); (split; [reflexivity|]); (split; [reflexivity|]);
    (split; [discriminate|]); (split; discriminate).
Qed.

(** The distance of x and z is 3, more than the sum 1 + 1 of the distances through y: DTW is not a metric,
    although the local costs are one. *)
Lemma t_runs :
  succeeds tXY (oQ "symmetric1") "symmetric1" NoWindow (dist_is 1) /\
  succeeds tYZ (oQ "symmetric1") "symmetric1" NoWindow (dist_is 1) /\
  succeeds tXZ (oQ "symmetric1") "symmetric1" NoWindow (dist_is 3).
Proof. split; [|split]; ex_ok NumQ_laws. Qed.

(** with bands one sample wide, and a band two samples wide for the third call *)
Lemma t_runs_band :
  succeeds tXY (named "symmetric2" (WTName "sakoechiba") (bandQ 1) true false false false) "symmetric2" SakoeChiba (dist_is 2) /\
  succeeds tYZ (named "symmetric2" (WTName "sakoechiba") (bandQ 1) true false false false) "symmetric2" SakoeChiba (dist_is 1) /\
  succeeds tXZ (named "symmetric2" (WTName "sakoechiba") (bandQ 2) true false false false) "symmetric2" SakoeChiba (dist_is 5) /\
  windows_compose SakoeChiba (bandQ 1) SakoeChiba (bandQ 1) SakoeChiba (bandQ 2) 3 2 3.
Proof.
  split; [ex_ok NumQ_laws|]. split; [ex_ok NumQ_laws|]. split; [ex_ok NumQ_laws|].
  apply (compose_sakoe (qc_ofZ 1) (qc_ofZ 1) 3 2 3); discriminate.
Qed.

(** the same as three series of samples *)
Definition absdiff (a b : list NumQ) : NumQ :=
  match a, b with
  | [u], [v] => if leb u v then sub v u else sub u v
  | _, _ => nan
  end.
Definition ser (l : list Z) : ndarray NumQ := NdArray (Nd1 (map ofZ l)) true true.
Lemma t_series :
  checkOk (dtw (cdist_of absdiff) (ser [1;1;1]%Z) (Some (ser [1;0]%Z)) (oQ "symmetric1")) (dist_is 1) = true /\
  checkOk (dtw (cdist_of absdiff) (ser [1;0]%Z) (Some (ser [0;0;0]%Z)) (oQ "symmetric1")) (dist_is 1) = true /\
  checkOk (dtw (cdist_of absdiff) (ser [1;1;1]%Z) (Some (ser [0;0;0]%Z)) (oQ "symmetric1")) (dist_is 3) = true.
Proof. split; [|split]; vm_compute; reflexivity. Qed.
