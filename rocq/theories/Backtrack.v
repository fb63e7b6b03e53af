(** Backtrack.v - model of dtw/_backtrack.py *)
From Verif Require Import Base Num StepPattern.
Open Scope Z_scope.

Section Backtrack.
Context {N : Num}.

(** Lines 32-35: drop the rows whose two displacements are both zero. *)
Definition drop_null (rows : list (row N)) : list (row N) :=
  List.filter (fun r => negb (eqb (c1 r) (ofZ 0)) || negb (eqb (c2 r) (ofZ 0))) rows.

(** Lines 40-44: the displacements of rule q, converted to int, reversed. *)
Definition steps_of (rows : list (row N)) (q : Z) : list (Z * Z) :=
  List.rev (List.map (fun r => (np_int64 (c1 r), np_int64 (c2 r)))
                     (List.filter (fun r => eqb (c0 r) (ofZ q)) rows)).

(** The dictionary of lines 39-44: keys 1..npat. *)
Definition stepsCache (s : steppat N) (npat q : Z) : out (list (Z * Z)) :=
  if (1 <=? q) && (q <=? npat) then Ok (steps_of (drop_null (mx s)) q)
  else Raise KeyError.

(** The lists ii, jj, iis, jjs, ss of lines 46-51. *)
Record mapping := Mapping
  { index1 : list Z; index2 : list Z; index1s : list Z; index2s : list Z;
    stepsTaken : list Z }.

(** Lines 53-74.  [fuel] bounds the number of iterations; see [backtrack].  When a
    rule has no non-null row, [k] is unbound or stale: an exception either way
    (IndexError here). *)
Fixpoint backtrack_loop (fuel : nat) (sp : steppat N) (npat : Z) (sm : mat Z)
         (i j : Z) (acc : mapping) : out mapping :=
  match fuel with
  | O => Diverge
  | Datatypes.S fuel' =>
      if (i =? 0) && (j =? 0) then Ok acc else
      s <- py_get2 sm i j ;;
      if s =? INT_MIN then Ok acc else
      steps <- stepsCache sp npat s ;;
      match List.rev steps with
      | nil => Raise IndexError
      | last :: _ =>
          let ii := fold_left (fun l d => (i - fst d) :: l) steps (index1 acc) in
          let jj := fold_left (fun l d => (j - snd d) :: l) steps (index2 acc) in
          let i' := i - fst last in
          let j' := j - snd last in
          backtrack_loop fuel' sp npat sm i' j'
            (Mapping ii jj (i' :: index1s acc) (j' :: index2s acc) (s :: stepsTaken acc))
      end
  end.

(** dtw/_backtrack.py:26-82.  Every iteration that does not raise has its indices in
    -n..n-1 and -m..m-1 and the next state is a function of (i,j), so running for
    more than 4nm iterations means running forever. *)
Definition backtrack (sp : steppat N) (sm : mat Z) (jmin : Z) : out mapping :=
  let n := Z.of_nat (nr sm) in
  npat <- get_n_patterns sp ;;
  let i := n - 1 in
  let j := jmin in
  backtrack_loop (4 * nr sm * nc sm + 1) sp npat sm i j
                 (Mapping [i] [j] [i] [j] []).

End Backtrack.
