(** Exact.v - the cost of an alignment in exact real arithmetic (specification, used to
    state how accurate the computed distance is).

    Nothing here rounds: [val] reads a stored number as a real, weights are the
    fractions of Tables.v, sums and products are those of the real numbers. *)
From Coq Require Import Reals.
From Flocq Require Import BinarySingleNaN.
From Verif Require Import Base Num NumF NumFLaws StepPattern Window Spec Tables.
Open Scope string_scope.
Open Scope list_scope.
Open Scope nat_scope.

Section Exact.
Context {N : Num}.
Variable val : N -> R.

Definition real_weight (q : Z * Z) : R := (IZR (fst q) / IZR (snd q))%R.

(** The cost [c], plus weight times local cost for each point charged by production [r]
    arriving at (i,j). *)
Definition real_charge (cost : nat -> nat -> R) (r : wrule) (i j : nat) (c : R) : R :=
  fold_left (fun c a => (c + real_weight (snd a) * cost (i - fst (fst a))%nat (j - snd (fst a))%nat)%R)
            (w_add r) c.

(** [real_walk .. ks q c]: from a source cell, the productions [ks] (numbered from 1) lead
    to [q] through allowed cells, at the exact cost [c]. *)
Inductive real_walk (l : list wrule) (cost : nat -> nat -> R) (n m : nat)
  (source : nat -> nat -> option R) (allowed : nat -> nat -> Prop)
  : list nat -> point -> R -> Prop :=
| real_start : forall i j c, source i j = Some c -> i < n -> j < m ->
    real_walk l cost n m source allowed [] (i, j) c
| real_step : forall ks i0 j0 c k r,
    real_walk l cost n m source allowed ks (i0, j0) c ->
    nth_error l k = Some r ->
    i0 + w_di r < n -> j0 + w_dj r < m ->
    allowed (i0 + w_di r) (j0 + w_dj r) ->
    real_walk l cost n m source allowed (ks ++ [S k]) (i0 + w_di r, j0 + w_dj r)
      (real_charge cost r (i0 + w_di r) (j0 + w_dj r) c).

(** The alignments of a call, with their exact costs: from (0,0) whose local cost is paid;
    with open begin, from any cell of a row of zeros put before the query. *)
Definition exact_walk (open_begin : bool) (l : list wrule) (lm : mat N) (w : winfun N)
  (kw : kwargs N) : list nat -> point -> R -> Prop :=
  if open_begin then
    real_walk l (fun i j => match i with O => 0%R | S i' => val (cell lm i' j) end)
      (nr lm + 1) (nc lm)
      (fun i j => if i =? 0 then Some 0%R else None)
      (fun i j => 1 <= i /\ in_window w kw (nr lm + 1) (nc lm) i j)
  else
    real_walk l (fun i j => val (cell lm i j)) (nr lm) (nc lm)
      (fun i j => if (i =? 0) && (j =? 0) then Some (val (cell lm 0 0)) else None)
      (in_window w kw (nr lm) (nc lm)).

(** The cell where alignments ending in reference column [j] end. *)
Definition exact_end (open_begin : bool) (lm : mat N) (j : nat) : point :=
  (if open_begin then nr lm else nr lm - 1, j).

(** [E] is the least exact cost of an alignment ending in column [j]. *)
Definition least_exact (open_begin : bool) (l : list wrule) (lm : mat N) (w : winfun N)
  (kw : kwargs N) (j : nat) (E : R) : Prop :=
  (exists ks, exact_walk open_begin l lm w kw ks (exact_end open_begin lm j) E) /\
  (forall ks c, exact_walk open_begin l lm w kw ks (exact_end open_begin lm j) c -> (E <= c)%R).

End Exact.

(** The predefined patterns whose weights are 0, 1 or 2. *)
Definition integer_weights : list string :=
  ["symmetric1"; "symmetric2"; "asymmetric"; "_asymmetricItakura"; "symmetricP0"; "asymmetricP0";
   "_asymmetricP0b"; "symmetricP05"; "symmetricP1"; "symmetricP2"; "typeIa"; "typeIb"; "typeIc";
   "typeId"; "typeIbs"; "typeIIa"; "typeIIb"; "typeIIc"; "typeIIIc"; "typeIVc"; "rigid"].

(** binary64 arithmetic, with separate or fused multiply-add (the same as NumF and NumFMA). *)
Definition macF (a w x : f64) : f64 := f_add a (f_mul w x).
Definition macFMA (a w x : f64) : f64 := Bfma mode_NE w x a.
Definition double (fused : bool) : Num := NumG (if fused then macFMA else macF).
(** The real number a finite double stands for. *)
Definition value {fused : bool} (x : double fused) : R := B2R (x : f64).
(** Finite non-negative costs. *)
Definition costs_fine {fused : bool} (lm : mat (double fused)) : Prop := forall i j, i < nr lm -> j < nc lm ->
  is_finite (cell lm i j : f64) = true /\ (0 <= value (cell lm i j))%R.
(** No cost strictly between 0 and 2^-1020. *)
Definition costs_not_tiny {fused : bool} (lm : mat (double fused)) : Prop := forall i j, i < nr lm -> j < nc lm ->
  value (cell lm i j) = 0%R \/ (/ 2 ^ 1020 <= value (cell lm i j))%R.
