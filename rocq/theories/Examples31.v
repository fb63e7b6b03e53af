(** Examples31.v - concrete cases for C86 (the order of the rows of a step pattern). *)
From Coq Require Import Permutation ZifyBool ZifyNat.
From Verif Require Import Base Num NumF NumFLaws StepPattern Window Core Backtrack Dtw Spec Api Tables Vocab Terms ApiProof ApiThms Examples.
From Verif Require RowSpec Reorder.
Import ListNotations.
Open Scope string_scope.
Open Scope list_scope.
Open Scope nat_scope.

(** symmetricP1 with its rows (0-2: first production, 3-4: second, 5-7: third) in the order [l]. *)
Definition rearranged {N : Num} (l : list nat) : steppat N :=
  StepPat (flat_map (fun k => match nth_error (mx (@symmetricP1 N)) k with Some r => [r] | None => [] end) l) (hint (@symmetricP1 N)).
Definition mixed31 : list nat := [0; 3; 5; 1; 6; 4; 2; 7].
Lemma mixed_perm : Permutation (seq 0 8) mixed31.
Proof. apply NoDup_Permutation; [apply seq_NoDup| |].
  - unfold mixed31. repeat (constructor; [cbn; intuition discriminate|]). constructor.
  - intros x. cbn. intuition auto.
Qed.
Lemma mixed_same {N : Num} (L : NumLaws N) : RowSpec.same_productions (@symmetricP1 N) (rearranged mixed31).
Proof.
  split; [reflexivity|]. split; [|split].
  - change (mx (@symmetricP1 N)) with (mx (@rearranged N (seq 0 8))). cbn [rearranged mx].
    apply Permutation_flat_map, mixed_perm.
  - intros k Hk. change (Datatypes.length (mx (@symmetricP1 N))) with 8 in Hk.
    assert (K : (k = 1 \/ k = 2 \/ k = 3 \/ k = 4 \/ k = 5 \/ k = 6 \/ k = 7 \/ k = 8)%Z) by lia.
    unfold RowSpec.rows_of_production.
    repeat (destruct K as [->|K]; [cbn; rewrite ?(law_eq_ofZ _ L) by lia; reflexivity|]). subst k; cbn; rewrite ?(law_eq_ofZ _ L) by lia; reflexivity.
  - reflexivity.
Qed.

Local Definition zrow {N : Num} (q : Z * Z * Z * Z) : row N := let '(a, b, c, d) := q in Row (ofZ a) (ofZ b) (ofZ c) (ofZ d).
Lemma starts_zrow {N : Num} (L : NumLaws N) l : Forall (fun q => Z.abs (snd q) <= 100)%Z l ->
  List.filter (fun r : row N => (np_int32 (c3 r) =? -1)%Z) (map zrow l) = map zrow (List.filter (fun q => (snd q =? -1)%Z) l).
Proof.
  induction 1 as [|[[[a b] c] d] l H _ IH]; [reflexivity|]. cbn [map List.filter zrow c3 snd] in *. rewrite IH.
  replace (np_int32 (@ofZ N d)) with d; [destruct (d =? -1)%Z; reflexivity|].
  unfold np_int32. rewrite (law_trunc_ofZ _ L) by lia. unfold in_i32, INT_MIN, INT_MAX.
  destruct ((-2147483648 <=? d)%Z && (d <=? 2147483647)%Z)%bool eqn:E; [reflexivity|lia].
Qed.
(** The table of symmetricP1 meets the hypothesis on patterns, and its starting rows stay in order. *)
Lemma mixed_rules {N : Num} (L : NumLaws N) : (exists l, lookup "symmetricP1" predefined = Some l /\ pattern_rules (@symmetricP1 N) (productions l)) /\
  RowSpec.same_starts (@symmetricP1 N) (rearranged mixed31).
Proof.
  split; [destruct (predefined_rules L "symmetricP1" (@symmetricP1 N) eq_refl) as [l H]; exists l; exact H|].
  unfold RowSpec.same_starts.
  change (mx (@symmetricP1 N)) with (map (@zrow N) [(1,1,2,-1);(1,0,1,2);(1,0,0,1);(2,1,1,-1);(2,0,0,2);(3,2,1,-1);(3,1,0,2);(3,0,0,1)]%Z).
  change (mx (@rearranged N mixed31)) with (map (@zrow N) [(1,1,2,-1);(2,1,1,-1);(3,2,1,-1);(1,0,1,2);(3,1,0,2);(2,0,0,2);(1,0,0,1);(3,0,0,1)]%Z).
  rewrite !(starts_zrow L) by (repeat constructor; cbn; lia). reflexivity.
Qed.

(** The theorem applied: symmetricP1 in the mixed order on a cost matrix with an obstacle. *)
Definition with_rows (l : list nat) : opts NumF := mkOpts (SPObj (rearranged l)) WTNone [] true false false false.
Lemma mixed_runs : checkOk (run mB (with_rows mixed31)) (fun d => dist_is 6 d && align_is [0;1;2;2]%Z [0;1;2;3]%Z [2;1]%Z d && steps_are [0;1;2]%Z [0;1;3]%Z d) = true /\
  checkOk (run mB (oKeep "symmetricP1")) (fun d => dist_is 6 d && align_is [0;1;2;2]%Z [0;1;2;3]%Z [2;1]%Z d && steps_are [0;1;2]%Z [0;1;3]%Z d) = true.
Proof.
  split; vm_compute; reflexivity.
Qed.
(** Why the last row matters: with the rows of the second production at the end, the number of productions is read as 2
    and the C code writes outside its arrays. *)
Lemma last_matters : match run mB (with_rows [0;1;2;5;6;7;3;4]) with UB => true | _ => false end = true /\
  (forall k, In k [1; 2; 3]%Z -> RowSpec.rows_of_production (@rearranged NumF [0;1;2;5;6;7;3;4]) k = RowSpec.rows_of_production (@symmetricP1 NumF) k).
Proof.
  split; [vm_compute; reflexivity|].
  intros k Hk. unfold RowSpec.rows_of_production.
  destruct Hk as [<-|[<-|[<-|[]]]]; cbn; rewrite ?(law_eq_ofZ _ NumF_laws) by lia; reflexivity.
Qed.
