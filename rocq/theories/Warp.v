(** Warp.v - model of dtw/warp.py and dtw/warpArea.py *)
From Verif Require Import Base Num StepPattern Window Core Backtrack Dtw.
Open Scope string_scope.
Open Scope list_scope.
Open Scope Z_scope.

(** ** numpy and scipy functions used *)

(** numpy.max of a 1-D integer array (dtw/warp.py:111). *)
Definition zmax (l : list Z) : out Z :=
  match l with
  | nil => Raise (ValueError "zero-size array to reduction operation maximum")
  | x :: xs => Ok (fold_left Z.max xs x)
  end.

(** numpy.arange(n) *)
Definition arange (n : Z) : list Z := List.map Z.of_nat (seq 0 (Z.to_nat n)).

(** numpy.bincount (dtw/warp.py:28-29): one accumulator per value 0..max(x); the
    entries of x are visited in order, each updating its accumulator.  Negative
    entries raise ValueError, so do weights of another length. *)
Definition bincount {A} (zero : A) (step : A -> Z -> A) (x y : list Z) : out (list A) :=
  if existsb (fun v => v <? 0) x
  then Raise (ValueError "'list' argument must have no negative elements")
  else if negb (Nat.eqb (List.length x) (List.length y))
  then Raise (ValueError "The weights and list don't have the same length.")
  else match x with
  | nil => Ok nil
  | _ =>
    mx <- zmax x ;;
    Ok (fold_left (fun acc vw =>
                     match nth_error acc (Z.to_nat (fst vw)) with
                     | Some a => upd acc (Z.to_nat (fst vw)) (step a (snd vw))
                     | None => acc
                     end) (combine x y) (repeat zero (Z.to_nat (mx + 1))))
  end.

Section Warp.
Context {N : Num}.

(** dtw/warp.py:27-30 _solveTies: s/n with s a sum of doubles, n an integer count *)
Definition solveTies (x y : list Z) : out (list Z * list N) :=
  n <- bincount 0 (fun a _ => a + 1) x x ;;
  s <- bincount (@ofZ N 0) (fun a w => add a (ofZ w)) x y ;;
  Ok (arange (Z.of_nat (List.length n)), zip_with (fun a b => div a (ofZ b)) s n).

(** scipy.interpolate.interp1d(x, y), linear, evaluated at the integers q.

    With double values and integer nodes scipy delegates to numpy.interp, after
    sorting the nodes (stable merge sort); points outside the range of the nodes
    raise ValueError (bounds_error is the default).  numpy.interp looks for the
    last node not above the point: at a node it returns its value, otherwise the
    value on the segment (for a NaN result, the computation is retried from the
    other end of the segment).  Simplified: an empty list of nodes raises
    ValueError. *)
Fixpoint insert_node (p : Z * N) (l : list (Z * N)) : list (Z * N) :=
  match l with
  | nil => [p]
  | q :: l' => if fst p <=? fst q then p :: l else q :: insert_node p l'
  end.
Definition sort_nodes (l : list (Z * N)) : list (Z * N) := fold_right insert_node nil l.

Fixpoint last_node (l : list (Z * N)) (x : Z) : nat :=
  match l with
  | _ :: ((b :: _) as l') => if fst b <=? x then S (last_node l' x) else O
  | _ => O
  end.

Definition on_segment (a b : Z * N) (x : Z) : N :=
  let slope := div (sub (snd b) (snd a)) (sub (ofZ (fst b)) (ofZ (fst a))) in
  let v := add (mul slope (sub (ofZ x) (ofZ (fst a)))) (snd a) in
  if isnan v then
    let v' := add (mul slope (sub (ofZ x) (ofZ (fst b)))) (snd b) in
    if isnan v' && eqb (snd a) (snd b) then snd a else v'
  else v.

Definition interp_at (l : list (Z * N)) (x : Z) : out N :=
  match l with
  | nil => Raise (ValueError "x and y arrays must have at least 1 entries")
  | first :: _ =>
      let j := last_node l x in
      match nth_error l j, nth_error l (S j) with
      | Some a, Some b =>
          if x <? fst first then Raise (ValueError "A value in x_new is below the interpolation range's minimum value")
          else Ok (if fst a =? x then snd a else on_segment a b x)
      | Some a, None =>
          if x <? fst first then Raise (ValueError "A value in x_new is below the interpolation range's minimum value")
          else if fst a <? x then Raise (ValueError "A value in x_new is above the interpolation range's maximum value")
          else Ok (snd a)
      | None, _ => Raise IndexError
      end
  end.

Definition interp1d (x : list Z) (y : list N) (q : list Z) : out (list N) :=
  if negb (Nat.eqb (List.length x) (List.length y))
  then Raise (ValueError "x and y arrays must be equal in length along interpolation axis.")
  else mapM (interp_at (sort_nodes (combine x y))) q.

(** The repair of a NaN at the start, dtw/warp.py:119-121 and dtw/warpArea.py:91-93 *)
Definition repair (ii : list N) (iset : list Z) : out (list N) :=
  match ii with
  | nil => Raise IndexError
  | v0 :: _ =>
      if isnan v0 then
        match iset with
        | nil => Raise IndexError
        | a :: _ => Ok (List.map (fun v => if isnan v then ofZ a else v) ii)
        end
      else Ok ii
  end.

(** dtw/warp.py:38-122 *)
Definition warp (d : DTW N) (index_reference : bool) : out (list Z) :=
  match r_map d with
  | None => Raise AttributeError
  | Some mp =>
      let iset := if index_reference then index2 mp else index1 mp in
      let jset := if index_reference then index1 mp else index2 mp in
      jmax <- zmax jset ;;
      '(xt, yt) <- solveTies jset iset ;;
      ii <- interp1d xt yt (arange (jmax + 1)) ;;
      ii' <- repair ii iset ;;
      Ok (List.map np_int64 ii')
  end.

(** numpy.linspace(0, stop, num) for an integer stop (dtw/warpArea.py:95,
    dtw/dtwPlot.py): 0..num-1 times stop/(num-1), the last point set to stop;
    a zero step is replaced by dividing first. *)
Definition linspace0 (stop num : Z) : list N :=
  let d := num - 1 in
  let step := div (ofZ stop) (@ofZ N d) in
  let pts := List.map (fun k =>
       if d <=? 0 then mul (ofZ k) (ofZ stop)
       else if eqb step (ofZ 0) then mul (div (ofZ k) (ofZ d)) (ofZ stop)
       else mul (ofZ k) step) (arange num) in
  if 1 <? num then removelast pts ++ [ofZ stop] else pts.

(** dtw/warpArea.py:85-98 *)
Definition warpArea (d : DTW N) : out N :=
  match r_map d with
  | None => Raise AttributeError
  | Some mp =>
      ii <- interp1d (index1 mp) (List.map ofZ (index2 mp)) (arange (Z.of_nat (r_N d))) ;;
      ii' <- repair ii (index2 mp) ;;
      let dg := linspace0 (Z.of_nat (r_M d) - 1) (Z.of_nat (r_N d)) in
      let ad := zip_with (fun a b => vabs (sub a b)) ii' dg in
      Ok (np_sum ad)
  end.

End Warp.
