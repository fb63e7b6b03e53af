(** Dtw.v - model of the main entry point, dtw/dtw.py *)
From Verif Require Import Base Num StepPattern Window Core Backtrack.
Open Scope string_scope.
Open Scope list_scope.
Open Scope Z_scope.

Section Dtw.
Context {N : Num}.

(** numpy arrays passed by the user, by number of dimensions. *)
Inductive nd : Type :=
| Nd0 (v : N)
| Nd1 (l : list N)
| Nd2 (m : mat N)
| NdMore (ndim : nat).           (* three or more dimensions *)

(** An array argument.  [is_double] and [is_corder]: element type double, and
    row-major memory layout after numpy.array(x) (which keeps Fortran order). *)
Record ndarray := NdArray { nd_val : nd; is_double : bool; is_corder : bool }.

(** A step_pattern argument: an object (it has the attribute mx) or a name. *)
Inductive sparg : Type :=
| SPObj (s : steppat N)
| SPName (s : string).

(** dtw/dtw.py:505-510 _canonicalizeStepPattern followed by the attribute access
    [.hint] of line 404 *)
Definition canonicalizeStepPattern (s : sparg) : out (steppat N) :=
  match s with
  | SPObj p => Ok p
  | SPName n => match lookup n pattern_table with
                | Some p => Ok p
                | None => Raise AttributeError
                end
  end.

(** The attributes of the returned DTW object (dtw/dtw.py:48-74); [None] means the
    attribute is absent. *)
Record DTW := mkDTW {
  r_N : nat; r_M : nat;
  r_openEnd : bool; r_openBegin : bool;
  r_windowFunction : winfun N; r_windowArgs : kwargs N;
  r_stepPattern : steppat N;
  r_jmin : nat;
  r_distance : N; r_normalizedDistance : N;
  r_map : option mapping;           (* index1, index2, index1s, index2s, stepsTaken *)
  r_costMatrix : option (mat N); r_directionMatrix : option (mat Z);
  r_localCostMatrix : option (mat N);
  r_query : option nd; r_reference : option nd
}.

(** The keyword arguments of dtw() except x, y, dist_method (dtw/dtw.py:130-138). *)
Record opts := mkOpts {
  o_step_pattern : sparg;
  o_window_type : wtype N;
  o_window_args : kwargs N;
  o_keep_internals : bool;
  o_distance_only : bool;
  o_open_end : bool;
  o_open_begin : bool
}.

Definition default_opts : opts :=
  mkOpts (SPName "symmetric2") WTNone [] false false false false.

(** numpy.nanargmin of a 1-D array (line 452): NaNs are replaced by +inf, the first
    minimum is returned, ValueError if every element is NaN. *)
Fixpoint np_argmin_from (l : list N) (i best : nat) (bv : N) : nat :=
  match l with
  | nil => best
  | x :: xs => if ltb x bv then np_argmin_from xs (i + 1) i x
               else np_argmin_from xs (i + 1) best bv
  end.
Definition nanargmin (l : list N) : out nat :=
  if forallb isnan l then Raise (ValueError "All-NaN slice encountered")
  else match List.map (fun x => if isnan x then pinf else x) l with
       | nil => Raise (ValueError "attempt to get argmin of an empty sequence")
       | x :: xs => Ok (np_argmin_from xs 1 0 x)
       end.

(** Lines 438-445: the last row of the cumulative cost, normalized. *)
Definition normalize_row (norm : string) (n : nat) (l : list N) : list N :=
  if String.eqb norm "NA" then l
  else if String.eqb norm "N+M" then
    List.map (fun jx => div (snd jx) (ofZ (Z.of_nat n + Z.of_nat (fst jx) + 1)))
             (combine (seq 0 (List.length l)) l)
  else if String.eqb norm "N" then
    List.map (fun x => div x (ofZ (Z.of_nat n))) l
  else if String.eqb norm "M" then
    List.map (fun jx => div (snd jx) (ofZ (1 + Z.of_nat (fst jx))))
             (combine (seq 0 (List.length l)) l)
  else l.

(** dtw/dtw.py:406-486: everything after the local cost matrix, the window function
    and the step pattern are known.  [qr] is the pair (x,y) when y was given. *)
Definition dtw_lm (cbuf : bool) (lm : mat N) (qr : option (nd * nd)) (sp : steppat N)
           (wfun : winfun N) (o : opts) : out DTW :=
  let norm := hint sp in
  let n := nr lm in
  let m := nc lm in
  (* lines 408-418 *)
  '(lm1, precm, cbuf1) <-
     (if o_open_begin o then
        if negb (String.eqb norm "N")
        then Raise (ValueError "Open-begin requires step patterns with 'N' normalization (e.g. asymmetric, or R-J types (c)). See Tormene et al.")
        else Ok (Mat (n + 1) m (repeat (ofZ 0) m ++ dat lm),
                 Some (Mat (n + 1) m (repeat (ofZ 0) m ++ repeat nan (n * m))),
                 true)
      else Ok (lm, None, cbuf)) ;;
  (* lines 420-424 *)
  '(cmx, dmx) <- globalCostMatrix cbuf1 lm1 sp wfun precm (o_window_args o) ;;
  (* line 436: costMatrix[-1,] *)
  let lastrow := row_of cmx (nr cmx - 1) in
  let lastcol := normalize_row norm n lastrow in
  (* lines 447-452 *)
  jmin <- (if o_open_end o then
             if String.eqb norm "NA"
             then Raise (ValueError "Open-end alignments require normalizable step patterns")
             else nanargmin lastcol
           else Ok (m - 1)%nat) ;;
  (* lines 454-462 *)
  distance <- (match nth_error lastrow jmin with Some v => Ok v | None => Raise IndexError end) ;;
  if isnan distance
  then Raise (ValueError "No warping path found compatible with the local constraints")
  else
  nd <- (if negb (String.eqb norm "NA")
         then match nth_error lastcol jmin with Some v => Ok v | None => Raise IndexError end
         else Ok nan) ;;
  (* lines 464-466 *)
  mapping0 <- (if o_distance_only o then Ok None
               else mp <- backtrack sp dmx (Z.of_nat jmin) ;; Ok (Some mp)) ;;
  (* lines 468-475 *)
  '(mapping1, lm2, cmx2, dmx2) <-
     (if o_open_begin o then
        match mapping0 with
        | None => Raise AttributeError            (* gcm.index1 does not exist *)
        | Some mp =>
            Ok (Some (Mapping (List.map Z.pred (tl (index1 mp))) (tl (index2 mp))
                              (List.map Z.pred (tl (index1s mp))) (tl (index2s mp))
                              (stepsTaken mp)),
                drop_first_row lm1, drop_first_row cmx, drop_first_row dmx)
        end
      else Ok (mapping0, lm1, cmx, dmx)) ;;
  (* lines 477-486 *)
  let keep {A} (x : A) := if o_keep_internals o then Some x else None in
  Ok (mkDTW n m (o_open_end o) (o_open_begin o) wfun (o_window_args o) sp jmin
            distance nd mapping1
            (keep cmx2) (keep dmx2) (keep lm2)
            (if o_keep_internals o then option_map fst qr else None)
            (if o_keep_internals o then option_map snd qr else None)).

(** numpy.atleast_2d(x).T for 1-D arrays (lines 395-398) *)
Definition as_column (x : nd) : nd :=
  match x with
  | Nd1 l => Nd2 (Mat (List.length l) 1 l)
  | _ => x
  end.

Definition ndim_gt2 (x : nd) : bool := match x with NdMore _ => true | _ => false end.

(** dtw/dtw.py:130-486.  [cdist] is scipy.spatial.distance.cdist with the chosen
    metric, applied to two 2-D arrays (it rejects 0-D input with ValueError); its
    result is a C-ordered double matrix.  Window lookup never raises, so it is
    not sequenced; the pattern lookup is (line 403). *)
Definition dtw (cdist : mat N -> mat N -> out (mat N)) (x : ndarray) (y : option ndarray)
           (o : opts) : out DTW :=
  '(lm, cbuf, qr) <-
     match y with
     | None =>
         match nd_val x with
         | Nd2 lm => Ok (lm, is_double x && is_corder x, None)
         | _ => Raise (ValueError "A 2D local distance matrix was expected")
         end
     | Some y =>
         if ndim_gt2 (nd_val x) || ndim_gt2 (nd_val y)
         then Raise (ValueError "Input arrays should be 1 or 2 dimensional")
         else
         let x' := as_column (nd_val x) in
         let y' := as_column (nd_val y) in
         match x', y' with
         | Nd2 xm, Nd2 ym => lm <- cdist xm ym ;; Ok (lm, true, Some (x', y'))
         | _, _ => Raise (ValueError "XA must be a 2-dimensional array.")
         end
     end ;;
  let wfun := canonicalizeWindowFunction (o_window_type o) in
  sp <- canonicalizeStepPattern (o_step_pattern o) ;;
  dtw_lm cbuf lm qr sp wfun o.

End Dtw.
Arguments nd N : clear implicits.
Arguments ndarray N : clear implicits.
Arguments sparg N : clear implicits.
Arguments DTW N : clear implicits.
Arguments opts N : clear implicits.
