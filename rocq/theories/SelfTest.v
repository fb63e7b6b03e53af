(** SelfTest.v - model of the built-in checks of the native core: dtw/_dtw_utils.pyx:85-112 (_test_computeCM) and
    dtw/_globalCostMatrix.py:46-70 (_test_computeCM2), which have the same text. *)
From Verif Require Import Base Num StepPattern Window Core.
Open Scope list_scope.
Open Scope Z_scope.

Section SelfTest.
Context {N : Num}.

(** _dtw_utils.pyx:91-94, _globalCostMatrix.py:52-55: tlm, a C-contiguous array of doubles.
    (The two loops are modelled by the list of the values they store, row by row.) *)
Definition test_lm (ts : nat) : mat N :=
  Mat ts ts (List.map (fun ij => ofZ ((Z.of_nat (fst ij) + 1) * (Z.of_nat (snd ij) + 1))) (indices ts ts)).

(** _dtw_utils.pyx:96-99, _globalCostMatrix.py:57-60: tnstepsp and tdir *)
Definition test_nsteps : Z := 6.
Definition test_dir : list N :=
  List.map ofZ [1; 1; 2; 2; 3; 3; 0; 0; 1; 0; 1; 0; 1; 0; 1; 0; 0; 0; -1; 1; -1; 1; -1; 1].

(** _dtw_utils.pyx:85-112, _globalCostMatrix.py:46-70.  [ts] is TS (numpy rejects negative sizes before anything else).
    tcm[0,0] = tlm[0,0] raises IndexError when TS is 0. *)
Definition test_computeCM (ts : nat) : out (mat N * mat Z) :=
  match mget (test_lm ts) 0 0 with
  | None => Raise IndexError
  | Some v =>
      computeCM_wrapper true (Mat ts ts (repeat 1 (ts * ts))) (test_lm ts) test_nsteps test_dir
                        (Mat ts ts (upd (repeat nan (ts * ts)) 0 v))
  end.
End SelfTest.
