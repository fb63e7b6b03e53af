(** Core.v - model of dtw/dtw_core.c, dtw/_dtw_utils.pyx, dtw/_globalCostMatrix.py *)
From Verif Require Import Base Num StepPattern Window.
Open Scope string_scope.
Open Scope list_scope.
Open Scope Z_scope.

Section Core.
Context {N : Num}.

(** ** dtw/dtw_core.c *)

(** Index macros, dtw/dtw_core.c:53-54; the product and sum are C ints. *)
Definition EP (nsteps ii jj : Z) : out Z := i32 (jj * nsteps + ii).
Definition EM (n ii jj : Z) : out Z := i32 (jj * n + ii).

(** One entry of the arrays pn, di, dj, sc (dtw/dtw_core.c:119-125). *)
Record crow := CRow { pn : Z; di : Z; dj : Z; sc : N }.

(** Body of the copying loop, dtw/dtw_core.c:127-137. *)
Definition copy_row (dir : list N) (nsteps i : Z) : out crow :=
  k0 <- EP nsteps i 0 ;; a0 <- rd dir k0 ;; p0 <- c_int a0 ;; p <- i32 (p0 - 1) ;;
  k1 <- EP nsteps i 1 ;; a1 <- rd dir k1 ;; d1 <- c_int a1 ;;
  k2 <- EP nsteps i 2 ;; a2 <- rd dir k2 ;; d2 <- c_int a2 ;;
  k3 <- EP nsteps i 3 ;; a3 <- rd dir k3 ;;
  if (p <? 0) || (nsteps <=? p) then Exit else Ok (CRow p d1 d2 a3).

(** dtw/dtw_core.c:127-137, the loop *)
Definition copy_rows (dir : list N) (nsteps : Z) : out (list crow) :=
  loop 0 (Z.to_nat nsteps)
       (fun i acc => r <- copy_row dir nsteps i ;; Ok (acc ++ [r])) nil.

(** argmin, dtw/dtw_core.c:68-83 (first strict minimum below INFINITY, -1 if none) *)
Fixpoint argmin_from (l : list N) (i ii : Z) (vv : N) : Z :=
  match l with
  | nil => ii
  | x :: xs => if ltb x vv then argmin_from xs (i + 1) i x
               else argmin_from xs (i + 1) ii vv
  end.
Definition argmin (l : list N) : Z := argmin_from l 0 (-1) pinf.

(** Body of the loop over pattern rows, dtw/dtw_core.c:169-182. *)
Definition do_step (n : Z) (lm cm : list N) (i j : Z) (r : crow) (clist : list N)
  : out (list N) :=
  ii <- i32 (i - di r) ;;
  jj <- i32 (j - dj r) ;;
  if (0 <=? ii) && (0 <=? jj) then
    if eqb (sc r) (ofZ (-1)) then
      k <- EM n ii jj ;; v <- rd cm k ;; wr clist (pn r) v
    else
      k <- EM n ii jj ;; l <- rd lm k ;; old <- rd clist (pn r) ;;
      wr clist (pn r) (macc old (sc r) l)
  else Ok clist.

(** Body of the double loop, dtw/dtw_core.c:158-189.  The state is (cm, sm). *)
Definition do_cell (n : Z) (wm : list Z) (lm : list N) (rows : list crow) (npats : Z)
           (j i : Z) (st : list N * list Z) : out (list N * list Z) :=
  let '(cm, sm) := st in
  k <- EM n i j ;;
  w <- rd wm k ;;
  if w =? 0 then Ok st else
  c <- rd cm k ;;
  if negb (isnan c) then Ok st else
  clist <- foldM (do_step n lm cm i j) rows (repeat nan (Z.to_nat npats)) ;;
  let minc := argmin clist in
  if -1 <? minc then
    v <- rd clist minc ;;
    cm' <- wr cm k v ;;
    sm' <- wr sm k (minc + 1) ;;
    Ok (cm', sm')
  else Ok st.

(** dtw/dtw_core.c:98-191 computeCM.  [n],[m] are s[0],s[1]; R_NaInt is INT_MIN. *)
Definition computeCM (n m : Z) (wm : list Z) (lm : list N) (nsteps : Z) (dir : list N)
           (cm : list N) (sm : list Z) : out (list N * list Z) :=
  rows <- copy_rows dir nsteps ;;
  lastrow <- rd rows (nsteps - 1) ;;
  let npats := pn lastrow + 1 in
  mn <- i32 (m * n) ;;
  sm0 <- loop 0 (Z.to_nat mn) (fun i sm => wr sm i INT_MIN) sm ;;
  loop 0 (Z.to_nat m)
       (fun j st => loop 0 (Z.to_nat n) (fun i st => do_cell n wm lm rows npats j i st) st)
       (cm, sm0).

(** ** dtw/_dtw_utils.pyx:57-80 _computeCM_wrapper

    [cbuf] tells whether wm, lm, cm are C-contiguous with the declared item
    types; otherwise taking the typed memoryviews raises ValueError.  Indexing
    [0,0] of an empty view raises IndexError.  The sizes are stored as int32. *)
Definition computeCM_wrapper (cbuf : bool) (wm : mat Z) (lm : mat N) (nsteps : Z)
           (dir : list N) (cm : mat N) : out (mat N * mat Z) :=
  if negb cbuf then Raise (ValueError "Buffer dtype mismatch or ndarray is not C-contiguous")
  else if Nat.eqb (nr lm) 0 || Nat.eqb (nc lm) 0 || Nat.eqb (List.length dir) 0
  then Raise IndexError else
  n <- i32 (Z.of_nat (nc wm)) ;;
  m <- i32 (Z.of_nat (nr wm)) ;;
  let sm := repeat (-1) (List.length (dat lm)) in
  '(cm', sm') <- computeCM n m (dat wm) (dat lm) nsteps dir (dat cm) sm ;;
  Ok (Mat (nr cm) (nc cm) cm', Mat (nr lm) (nc lm) sm').

(** ** dtw/_globalCostMatrix.py:6-43 *)

(** Lines 15-23: the window matrix.  The built-in noWindow is recognised by
    identity and not called. *)
Definition window_matrix (wf : winfun N) (n m : nat) (kw : kwargs N) : out (list Z) :=
  match wf with
  | NoWindow => Ok (repeat 1 (n * m))
  | _ => _ <- bind_window wf kw ;;
         mapM (fun ij =>
                 b <- call_window wf (Z.of_nat (fst ij)) (Z.of_nat (snd ij))
                                  (Z.of_nat n) (Z.of_nat m) kw ;;
                 Ok (if (b : bool) then 1 else 0)) (indices n m)
  end.

Definition globalCostMatrix (cbuf : bool) (lm : mat N) (step_pattern : steppat N)
           (window_function : winfun N) (seed : option (mat N)) (win_args : kwargs N)
  : out (mat N * mat Z) :=
  let n := nr lm in
  let m := nc lm in
  wm <- window_matrix window_function n m win_args ;;
  let nsteps := Z.of_nat (get_n_rows step_pattern) in
  let dir := get_p step_pattern in
  cm <- match seed with
        | Some s => Ok s
        | None =>                                        (* lines 32-33 *)
            match mget lm 0 0 with
            | Some v => Ok (Mat n m (upd (repeat nan (n * m)) 0 v))
            | None => Raise IndexError
            end
        end ;;
  computeCM_wrapper cbuf (Mat n m wm) lm nsteps dir cm.

End Core.
Arguments crow N : clear implicits.
