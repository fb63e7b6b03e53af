(** Examples24.v - concrete cases for C81 (the built-in checks of the native core). *)
From Verif Require Import Base Num NumQ NumQLaws NumF NumFLaws StepPattern Window Core Examples SelfTest SelfSpec SelfThm.
Import ListNotations.
Open Scope list_scope.
Open Scope nat_scope.

(** Boolean comparison of a matrix of doubles with integers. *)
Definition cells_eq (m : mat NumF) (l : list Z) : bool :=
  (List.length (dat m) =? List.length l) && forallb (fun p => leb (fst p) (@ofZ NumF (snd p)) && leb (@ofZ NumF (snd p)) (fst p)) (combine (dat m) l).
(** The call with TS=5: the computed matrix and the directions, and the specification's numbers. *)
Lemma self24 :
  match @test_computeCM NumF 5 with
  | Ok (cm, sm) => cells_eq cm [1;3;6;10;15; 3;5;9;14;20; 6;9;14;21;29; 10;14;21;30;41; 15;20;29;41;55] &&
                   forallb (fun p => (fst p =? snd p)%Z) (combine (tl (dat sm)) [3;3;3;3; 1;2;2;2;2; 1;2;2;2;2; 1;2;2;2;2; 1;2;2;2;2])
  | _ => false
  end%Z = true /\
  border_then_diagonal 4 4 = 55 /\ border_then_diagonal 4 1 = 20 /\ border_then_diagonal 1 3 = 14 /\ border_then_diagonal 0 4 = 15.
Proof. vm_compute. repeat split; reflexivity. Qed.
(** 46340 is the largest TS whose matrix can be indexed with ints. *)
Lemma largest24 : (46340 * 46340 <= INT_MAX)%Z /\ (INT_MAX < 46341 * 46341)%Z.
Proof. split; vm_compute; [discriminate|reflexivity]. Qed.
