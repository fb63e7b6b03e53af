(** Examples7.v - concrete cases for the properties on printing (C50) and on shifted
    costs (C51). *)
From Coq Require Import ZifyBool ZifyNat QArith Qcanon Ascii.
From Verif Require Import Base Num StepPattern Window Core Backtrack Dtw Spec Api Tables Vocab Terms
  NumQ NumQLaws NumF NumFLaws ApiThms Derived Thm8 Thm10 Examples Print PrintSpec Thm22.
Open Scope string_scope.
Open Scope list_scope.
Open Scope nat_scope.

(** "{:2.2g}" on the integers below one hundred *)
Definition fmt_small {N : Num} (w : N) : string :=
  match trunc w with
  | Some z => let s := show_int z in if Nat.ltb (String.length s) 2 then append " " s else s
  | None => "nan"
  end.

(** The text of symmetric2 as in the documentation (dtw/stepPattern.py:239-247). *)
Definition out_is (x : out string) (s : string) : bool :=
  match x with Ok t => String.eqb t s | _ => false end.
Lemma symmetric2_text : out_is (str_pattern fmt_small (@symmetric2 NumF))
"Step pattern recursion:
 g[i,j] = min(
     g[i-1,j-1] + 2 * d[i  ,j  ] ,
     g[i  ,j-1] +     d[i  ,j  ] ,
     g[i-1,j  ] +     d[i  ,j  ] ,
 ) 

Normalization hint: N+M
" = true.
Proof. vm_compute. reflexivity. Qed.

(** Two-point production: symmetricP1. *)
Lemma symmetricP1_text : out_is (str_pattern fmt_small (@symmetricP1 NumF))
"Step pattern recursion:
 g[i,j] = min(
     g[i-1,j-2] + 2 * d[i  ,j-1] +     d[i  ,j  ] ,
     g[i-1,j-1] + 2 * d[i  ,j  ] ,
     g[i-2,j-1] + 2 * d[i-1,j  ] +     d[i  ,j  ] ,
 ) 

Normalization hint: N+M
" = true.
Proof. vm_compute. reflexivity. Qed.

Lemma repr_text : match run (mA : mat NumF) (oKeep "symmetric2") with
  | Ok d => String.eqb (repr_dtw d) "DTW alignment object of size (query x reference): 3 x 4"
  | _ => false end = true.
Proof. vm_compute. reflexivity. Qed.

(** Shifted costs: a detour that pays off becomes too long when every cost is raised by
    5, for symmetric1 (hint NA) ... *)
Definition mQ : mat NumQ := ints 3 3 [0;1;9; 9;3;1; 9;9;0]%Z.
Definition five : Qc := Q2Qc 5.
Definition oQ (k : string) : opts NumQ := named k WTNone [] true false false false.
Lemma shift_symmetric1 :
  succeeds mQ (oQ "symmetric1") "symmetric1" NoWindow
    (fun d => dist_is 2 d && align_is [0;0;1;2]%Z [0;1;2;2]%Z [2;1;3]%Z d) /\
  succeeds (plus_cost five mQ) (oQ "symmetric1") "symmetric1" NoWindow
    (fun d => dist_is 18 d && align_is [0;1;2]%Z [0;1;2]%Z [1;1]%Z d).
Proof. split; ex_ok NumQ_laws. Qed.
(** ... but not for symmetric2 (hint N+M): the distance 3 becomes 3 + 5 * (1 + 2 + 2). *)
Lemma shift_symmetric2 :
  succeeds mQ (oQ "symmetric2") "symmetric2" NoWindow
    (fun d => dist_is 3 d && align_is [0;0;1;2]%Z [0;1;2;2]%Z [2;1;3]%Z d) /\
  succeeds (plus_cost five mQ) (oQ "symmetric2") "symmetric2" NoWindow
    (fun d => dist_is 28 d && align_is [0;0;1;2]%Z [0;1;2;2]%Z [2;1;3]%Z d).
Proof. split; ex_ok NumQ_laws. Qed.
Lemma shift_asymmetric :
  succeeds mQ (named "asymmetric" WTNone [] true false true true) "asymmetric" NoWindow
    (fun d => dist_is 1 d) /\
  succeeds (plus_cost five mQ) (named "asymmetric" WTNone [] true false true true) "asymmetric" NoWindow
    (fun d => dist_is 16 d).
Proof. split; ex_ok NumQ_laws. Qed.
