(** CountPaths.v - model of dtw/countPaths.py *)
From Verif Require Import Base Num StepPattern Window Dtw.
Open Scope string_scope.
Open Scope list_scope.
Open Scope Z_scope.

Section CountPaths.
Context {N : Num}.

(** Lines 93-99: the sum over the first npats starting points. *)
Definition count_cell (m : mat N) (deltas : list (Z * Z)) (ii jj : nat) (k : Z) (np : N)
  : out N :=
  d <- (match nth_error deltas (Z.to_nat k) with Some d => Ok d | None => Raise IndexError end) ;;
  let ni := Z.of_nat ii - fst d in
  let nj := Z.of_nat jj - snd d in
  if (0 <=? ni) && (0 <=? nj) then v <- py_get2 m ni nj ;; Ok (add np v)
  else Ok np.

(** Lines 83-101: one cell of the double loop. *)
Definition count_visit (wf : winfun N) (wargs : kwargs N) (npats : Z) (deltas : list (Z * Z))
           (ij : nat * nat) (m : mat N) : out (mat N) :=
  let '(ii, jj) := ij in
  let set (v : N) := Mat (nr m) (nc m) (upd (dat m) (ii * nc m + jj) v) in
  c <- py_get2 m (Z.of_nat ii) (Z.of_nat jj) ;;
  if isfin c then Ok m else
  b <- call_window wf (Z.of_nat ii) (Z.of_nat jj) (Z.of_nat (nr m)) (Z.of_nat (nc m)) wargs ;;
  if negb b then Ok (set (ofZ 0)) else
  np <- loop 0 (Z.to_nat npats) (count_cell m deltas ii jj) (ofZ 0) ;;
  Ok (set np).

(** Lines 65-101: the matrix of counts (what debug=True returns). *)
Definition countMatrix (nN nM : nat) (openBegin : bool) (sp : steppat N)
           (wf : winfun N) (wargs : kwargs N) : out (mat N) :=
  if Nat.eqb nN 0 || (negb openBegin && Nat.eqb nM 0) then Raise IndexError else
  let m0 := if openBegin
            then Mat nN nM (repeat (ofZ 1) nM ++ repeat nan ((nN - 1) * nM))
            else Mat nN nM (upd (repeat nan (nN * nM)) 0 (ofZ 1)) in
  npats <- get_n_patterns sp ;;
  let deltas := mkDirDeltas sp in
  foldM (count_visit wf wargs npats deltas) (indices nN nM) m0.

(** dtw/countPaths.py:26-110, debug=False. *)
Definition countPaths (d : DTW N) : out Z :=
  m <- countMatrix (r_N d) (r_M d) (r_openBegin d) (r_stepPattern d)
                   (r_windowFunction d) (r_windowArgs d) ;;
  let lastrow := row_of m (nr m - 1) in
  r <- (if r_openEnd d then Ok (np_sum lastrow)
        else match nth_error lastrow (nc m - 1) with
             | Some v => Ok v | None => Raise IndexError end) ;;
  match trunc r with
  | Some z => Ok z
  | None => if isnan r then Raise (ValueError "cannot convert float NaN to integer")
            else Raise OverflowError
  end.

End CountPaths.
