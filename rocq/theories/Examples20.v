(** Examples20.v - concrete cases for C73 (arguments of windows) and C74 (looser step patterns). *)
From Coq Require Import QArith Qcanon ZifyBool ZifyNat.
From Verif Require Import Base Num NumQ NumQLaws NumF NumFLaws StepPattern Window Core Backtrack Dtw Spec Api Tables Vocab Terms
  Derived Examples Examples7 SeriesSpec Examples8 ArgSpec Thm34 PatSpec Looser.
Import ListNotations.
Open Scope string_scope.
Open Scope list_scope.
Open Scope nat_scope.

(** ** Arguments of windows *)
Definition m20 : mat NumQ := ints 2 3 [1;5;1; 1;0;1]%Z.
Definition b20 (k : string) (t : string) (kw : kwargs NumQ) : opts NumQ := named k (WTName t) kw false false false false.
Definition is_type_error {A} (x : out A) : bool := match x with Raise TypeError => true | _ => false end.
(** Arguments that fit, a misspelt name, none, one too many; and arguments for "none". *)
Lemma args20 :
  succeeds m20 (b20 "symmetric2" "sakoechiba" [("window_size", ofZ 1)]) "symmetric2" SakoeChiba (dist_is 2) /\
  takes SakoeChiba [("window_size", @ofZ NumQ 1)] /\ ~ takes SakoeChiba [("windowSize", @ofZ NumQ 1)] /\ ~ takes (@SakoeChiba NumQ) [] /\ ~ takes Itakura [("window_size", @ofZ NumQ 1)] /\
  is_type_error (run m20 (b20 "symmetric2" "sakoechiba" [("windowSize", ofZ 1)])) = true /\
  is_type_error (run m20 (b20 "symmetric2" "slantedband" [])) = true /\
  is_type_error (run m20 (b20 "symmetric2" "itakura" [("window_size", ofZ 1)])) = true /\
  is_type_error (run m20 (b20 "symmetric2" "sakoe" [])) = true /\
  succeeds m20 (b20 "symmetric2" "none" [("window_size", ofZ 1)]) "symmetric2" NoWindow (dist_is 2).
Proof.
  split; [ex_ok NumQ_laws|]. split; [eexists; reflexivity|]. split; [intros [s E]; discriminate E|]. split; [intros [s E]; discriminate E|].
  split; [intros E; discriminate E|].
  split; [vm_compute; reflexivity|]. split; [vm_compute; reflexivity|]. split; [vm_compute; reflexivity|]. split; [vm_compute; reflexivity|].
  ex_ok NumQ_laws.
Qed.

(** ** Step patterns *)
Definition l20 : mat NumQ := ints 3 4 [1;1;9;9; 9;9;1;9; 9;9;9;1]%Z.
Lemma l20_nonneg : nonneg_costs l20.
Proof.
  intros i j Hi Hj. left. cbn in Hi, Hj. destruct i as [|[|[|i]]]; [| | |lia]; (destruct j as [|[|[|[|j]]]]; [| | | |lia]); vm_compute; reflexivity.
Qed.
(** The distances of the Sakoe-Chiba patterns of slope 0, 1/2, 1 and 2 on one problem. *)
Lemma slopes20 :
  succeeds l20 (oQ "symmetric1") "symmetric1" NoWindow (dist_is 4) /\
  succeeds l20 (oQ "symmetric2") "symmetric2" NoWindow (dist_is 6) /\
  succeeds l20 (oQ "symmetricP05") "symmetricP05" NoWindow (dist_is 22) /\
  succeeds l20 (oQ "symmetricP1") "symmetricP1" NoWindow (dist_is 22) /\
  succeeds l20 (oQ "symmetricP2") "symmetricP2" NoWindow (dist_is 38) /\
  listed looser_any_window "symmetric1" "symmetric2" /\ listed looser_no_window "symmetric2" "symmetricP05" /\
  listed looser_any_window "symmetricP05" "symmetricP1" /\ listed looser_no_window "symmetricP1" "symmetricP2".
Proof.
  split; [ex_ok NumQ_laws|]. split; [ex_ok NumQ_laws|]. split; [ex_ok NumQ_laws|]. split; [ex_ok NumQ_laws|]. split; [ex_ok NumQ_laws|].
  split; [|split; [|split]]; (eexists; split; [reflexivity|cbn; tauto]).
Qed.
(** With a window that excludes cell (1,1) symmetricP1 passes it and is cheaper than symmetric2, which would have to stop there. *)
Definition w20 : winfun NumQ := UserWin (fun i j n m kw => Ok (negb ((i =? 1)%Z && (j =? 1)%Z))).
Lemma window20 :
  succeeds m20 (named "symmetricP1" (WTFun w20) [] true false false false) "symmetricP1" w20 (dist_is 2) /\
  succeeds m20 (named "symmetric2" (WTFun w20) [] true false false false) "symmetric2" w20 (dist_is 8).
Proof. split; ex_ok NumQ_laws. Qed.
