(** Heap.v - dtw(), StepPattern.T, warp(), warpArea() and countPaths() once more, with object identity:
    arrays, dictionaries, step patterns and results live in a heap, and every allocation and every
    in-place update of the sources is an operation on it.  The numerical work is that of Dtw.v. *)
From Verif Require Import Base Num StepPattern Window Core Backtrack Dtw CountPaths Warp.
Open Scope string_scope.
Open Scope list_scope.
Open Scope nat_scope.

Section Heap.
Context {N : Num}.

(** An object's identity (Python's id()). *)
Definition loc := nat.

(** numpy views that share the memory of the array they are made from: numpy.atleast_2d(x).T of a
    vector (dtw/dtw.py:395-398), a[1:, :] (473-475) and a[1:] (471-472). *)
Inductive view := AsColumn | DropRow | Tail.

(** A reference to an array: the array that owns the memory and the views taken of it. *)
Record ref := Ref { at_loc : loc; views : list view }.

(** What an attribute of an object can hold: immutable values or references. *)
Inductive val : Type :=
| VNat (n : nat)
| VBool (b : bool)
| VNum (v : N)
| VWin (w : winfun N)
| VRef (r : ref).

(** The mutable state of an object: numpy arrays that own their memory (float arrays with their memory
    layout, int32 matrices, index vectors, the four-column array of a step pattern), dictionaries,
    StepPattern objects (dtw/stepPattern.py:274-276), objects and dictionaries with attributes. *)
Inductive block : Type :=
| BNd (a : ndarray N)
| BInts (m : mat Z)
| BIdx (l : list Z)
| BVec (l : list N)
| BRows (l : list (row N))
| BPattern (mx : loc) (hint : string)
| BDict (kw : kwargs N)
| BObj (fields : list (string * val)).

Definition heap := list block.

(** Programs: an outcome and the heap that is left, also when an exception is raised. *)
Definition prog (A : Type) := heap -> out A * heap.
Definition ret {A} (a : A) : prog A := fun h => (Ok a, h).
Definition fail {A} (e : exn) : prog A := fun h => (Raise e, h).
Definition lift {A} (o : out A) : prog A := fun h => (o, h).
Definition andthen {A B} (p : prog A) (f : A -> prog B) : prog B := fun h =>
  match p h with
  | (Ok a, h') => f a h'
  | (Raise e, h') => (Raise e, h')
  | (Exit, h') => (Exit, h')
  | (UB, h') => (UB, h')
  | (Diverge, h') => (Diverge, h')
  end.

(** A new object. *)
Definition new (b : block) : prog loc := fun h => (Ok (List.length h), h ++ [b]).
(** Reading and overwriting the state of an object (there are no dangling references in Python). *)
Definition get (l : loc) : prog block := fun h =>
  match nth_error h l with Some b => (Ok b, h) | None => (UB, h) end.
Definition put (l : loc) (b : block) : prog unit := fun h =>
  if l <? List.length h then (Ok tt, upd h l b) else (UB, h).

(** Typed reading of the heap; [None] if the reference is not to an object of that kind. *)
Definition see_nd1 (a : ndarray N) (v : view) : ndarray N :=
  match v with
  | AsColumn => NdArray (as_column (nd_val a)) (is_double a) (is_corder a)
  | DropRow => match nd_val a with Nd2 m => NdArray (Nd2 (drop_first_row m)) (is_double a) (is_corder a) | _ => a end
  | Tail => a
  end.
Definition load_nd (h : heap) (r : ref) : option (ndarray N) :=
  match nth_error h (at_loc r) with
  | Some (BNd a) => Some (fold_left see_nd1 (views r) a)
  | _ => None
  end.
Definition load_mat (h : heap) (r : ref) : option (mat N) :=
  match load_nd h r with Some a => match nd_val a with Nd2 m => Some m | _ => None end | None => None end.
Definition see_ints1 (m : mat Z) (v : view) : mat Z :=
  match v with DropRow => drop_first_row m | _ => m end.
Definition load_ints (h : heap) (r : ref) : option (mat Z) :=
  match nth_error h (at_loc r) with
  | Some (BInts m) => Some (fold_left see_ints1 (views r) m)
  | _ => None
  end.
Definition see_idx1 (l : list Z) (v : view) : list Z := match v with Tail => tl l | _ => l end.
Definition load_idx (h : heap) (r : ref) : option (list Z) :=
  match nth_error h (at_loc r) with
  | Some (BIdx l) => Some (fold_left see_idx1 (views r) l)
  | _ => None
  end.
Definition load_vec (h : heap) (l : loc) : option (list N) :=
  match nth_error h l with Some (BVec v) => Some v | _ => None end.
Definition load_dict (h : heap) (l : loc) : option (kwargs N) :=
  match nth_error h l with Some (BDict kw) => Some kw | _ => None end.
Definition load_pattern (h : heap) (l : loc) : option (steppat N) :=
  match nth_error h l with
  | Some (BPattern m hint) =>
      match nth_error h m with Some (BRows rows) => Some (StepPat rows hint) | _ => None end
  | _ => None
  end.
Definition load_fields (h : heap) (l : loc) : option (list (string * val)) :=
  match nth_error h l with Some (BObj f) => Some f | _ => None end.
Definition see {A} (f : heap -> option A) : prog A := fun h =>
  match f h with Some a => (Ok a, h) | None => (UB, h) end.

(** Attributes. *)
Fixpoint set_field (k : string) (v : val) (f : list (string * val)) : list (string * val) :=
  match f with
  | nil => [(k, v)]
  | (k', v') :: f' => if String.eqb k k' then (k, v) :: f' else (k', v') :: set_field k v f'
  end.
Definition del_field (k : string) (f : list (string * val)) : list (string * val) :=
  filter (fun kv => negb (String.eqb k (fst kv))) f.
Definition setattr (l : loc) (k : string) (v : val) : prog unit := fun h =>
  match load_fields h l with Some f => put l (BObj (set_field k v f)) h | None => (UB, h) end.
Definition delattr (l : loc) (k : string) : prog unit := fun h =>
  match load_fields h l with
  | Some f => match lookup k f with
              | Some _ => put l (BObj (del_field k f)) h
              | None => (Raise AttributeError, h)
              end
  | None => (UB, h)
  end.
Definition getref (l : loc) (k : string) : prog ref := fun h =>
  match load_fields h l with
  | Some f => match lookup k f with
              | Some (VRef r) => (Ok r, h)
              | Some _ => (UB, h)
              | None => (Raise AttributeError, h)
              end
  | None => (UB, h)
  end.
End Heap.
Arguments val N : clear implicits.
Arguments block N : clear implicits.
Arguments heap N : clear implicits.
Arguments prog N A : clear implicits.

Declare Scope prog_scope.
Notation "x <-- p ;; k" := (andthen p (fun x => k)) (at level 61, p at next level, right associativity) : prog_scope.
Notation "' x <-- p ;; k" := (andthen p (fun x => k)) (at level 61, x pattern, p at next level, right associativity) : prog_scope.
Notation "p ;;; k" := (andthen p (fun _ => k)) (at level 61, right associativity) : prog_scope.
Open Scope prog_scope.

Section Calls.
Context {N : Num}.

(** The objects created when the package is imported: the StepPattern objects of dtw/stepPattern.py by name,
    and the dictionary that is the default value of window_args (dtw/dtw.py:134), one for all calls. *)
Record env := Env { e_patterns : list (string * loc); e_default_args : loc }.

(** Importing the package: the default dictionary, then for every pattern its array and the object that
    refers to it (dtw/stepPattern.py:274-276 and the module level assignments 562-990; dtw/dtw.py:134). *)
Fixpoint boot_names (n : nat) (t : list (string * steppat N)) : list (string * loc) :=
  match t with nil => nil | (s, _) :: t' => (s, n + 1) :: boot_names (n + 2) t' end.
Fixpoint boot_heap (n : nat) (t : list (string * steppat N)) : heap N :=
  match t with nil => nil | (_, sp) :: t' => BRows (mx sp) :: BPattern n (hint sp) :: boot_heap (n + 2) t' end.
Definition import_package : env * heap N :=
  (Env (boot_names 1 pattern_table) 0, BDict [] :: boot_heap 1 pattern_table).

(** step_pattern: a StepPattern object or a name. *)
Inductive hsparg := HObj (l : loc) | HName (s : string).

(** The arguments of a call dtw(x, y, ...) (dtw/dtw.py:130-138).  [ha_cdist] is scipy's cdist with the chosen
    dist_method; it does not keep or change its arguments.  [ha_window_args = None]: not given. *)
Record hargs := HArgs {
  ha_cdist : mat N -> mat N -> out (mat N);
  ha_x : ref; ha_y : option ref;
  ha_step_pattern : hsparg;
  ha_window_type : wtype N;
  ha_window_args : option loc;
  ha_keep_internals : bool;
  ha_distance_only : bool;
  ha_open_end : bool;
  ha_open_begin : bool
}.

(** The programs below are written once, over the way in which operations are put together ([K]): [direct] runs
    them without interruption, [stepwise] (Threads.v) stops between any two operations. *)
Record style := Style {
  K :> Type -> Type;
  seq2 : forall A B, K A -> (A -> K B) -> K B;
  op : forall A, prog N A -> K A
}.
Definition direct : style := Style (prog N) (fun A B => @andthen N A B) (fun A p => p).

Section Programs.
Context {K : style}.
Local Notation "! p" := (op K _ p) (at level 60, p at level 10).
Local Notation "x <-- p ;; k" := (seq2 K _ _ p (fun x => k)) (at level 61, p at next level, right associativity).
Local Notation "' x <-- p ;; k" := (seq2 K _ _ p (fun x => k)) (at level 61, x pattern, p at next level, right associativity).
Local Notation "p ;;; k" := (seq2 K _ _ p (fun _ => k)) (at level 61, right associativity).

(** dtw/_dtw_utils.pyx:57-80: sm is a new array; the C code overwrites cm and sm in place. The returned
    dictionary refers to cm and sm themselves. *)
Definition c_wrapper (wm : loc) (lm : ref) (nsteps : Z) (dir cm : loc) : K loc :=
  lma <-- !see (fun h => load_nd h lm) ;;
  lmv <-- !see (fun h => load_mat h lm) ;;
  wmv <-- !see (fun h => load_ints h (Ref wm [])) ;;
  dirv <-- !see (fun h => load_vec h dir) ;;
  cmv <-- !see (fun h => load_mat h (Ref cm [])) ;;
  if negb (is_double lma && is_corder lma) then !fail (ValueError "Buffer dtype mismatch or ndarray is not C-contiguous")
  else if Nat.eqb (nr lmv) 0 || Nat.eqb (nc lmv) 0 || Nat.eqb (List.length dirv) 0 then !fail IndexError
  else
  n <-- !lift (i32 (Z.of_nat (nc wmv))) ;;
  m <-- !lift (i32 (Z.of_nat (nr wmv))) ;;
  sm <-- !new (BInts (Mat (nr lmv) (nc lmv) (repeat (-1)%Z (List.length (dat lmv))))) ;;
  smv <-- !see (fun h => load_ints h (Ref sm [])) ;;
  res <-- !lift (computeCM n m (dat wmv) (dat lmv) nsteps dirv (dat cmv) (dat smv)) ;;
  !put cm (BNd (NdArray (Nd2 (Mat (nr cmv) (nc cmv) (fst res))) true true)) ;;;
  !put sm (BInts (Mat (nr lmv) (nc lmv) (snd res))) ;;;
  !new (BObj [("costMatrix", VRef (Ref cm [])); ("directionMatrix", VRef (Ref sm []))]).

(** dtw/_globalCostMatrix.py:6-43.  The seed is used as it is, and overwritten. *)
Definition c_globalCostMatrix (lm : ref) (sp : loc) (wf : winfun N) (seed : option loc) (win_args : loc) : K loc :=
  lmv <-- !see (fun h => load_mat h lm) ;;
  kw <-- !see (fun h => load_dict h win_args) ;;
  wml <-- !lift (window_matrix wf (nr lmv) (nc lmv) kw) ;;
  wm <-- !new (BInts (Mat (nr lmv) (nc lmv) wml)) ;;
  spv <-- !see (fun h => load_pattern h sp) ;;
  dir <-- !new (BVec (get_p spv)) ;;
  cm <-- match seed with
         | Some p => !ret p
         | None =>                                        (* lines 32-33 *)
             c <-- !new (BNd (NdArray (Nd2 (Mat (nr lmv) (nc lmv) (repeat nan (nr lmv * nc lmv)))) true true)) ;;
             v <-- match mget lmv 0 0 with Some v => !ret v | None => !fail IndexError end ;;
             !put c (BNd (NdArray (Nd2 (Mat (nr lmv) (nc lmv) (upd (repeat nan (nr lmv * nc lmv)) 0 v))) true true)) ;;;
             !ret c
         end ;;
  o <-- c_wrapper wm lm (Z.of_nat (get_n_rows spv)) dir cm ;;
  !setattr o "stepPattern" (VRef (Ref sp [])) ;;;          (* line 42 *)
  !ret o.

(** dtw/dtw.py:390-400: the local cost matrix.  A lone matrix is copied (numpy.array); two series are kept
    as they are (numpy.asarray), vectors as column views of them. *)
Definition c_local_costs (a : hargs) : K (ref * option (ref * ref))%type :=
  match ha_y a with
  | None =>
      x <-- !see (fun h => load_nd h (ha_x a)) ;;
      l <-- !new (BNd x) ;;
      match nd_val x with
      | Nd2 _ => !ret (Ref l [], None)
      | _ => !fail (ValueError "A 2D local distance matrix was expected")
      end
  | Some y =>
      xa <-- !see (fun h => load_nd h (ha_x a)) ;;
      ya <-- !see (fun h => load_nd h y) ;;
      if ndim_gt2 (nd_val xa) || ndim_gt2 (nd_val ya)
      then !fail (ValueError "Input arrays should be 1 or 2 dimensional")
      else
      let col (r : ref) (v : nd N) := match v with Nd1 _ => Ref (at_loc r) (views r ++ [AsColumn]) | _ => r end in
      let xr := col (ha_x a) (nd_val xa) in
      let yr := col y (nd_val ya) in
      xv <-- !see (fun h => load_nd h xr) ;;
      yv <-- !see (fun h => load_nd h yr) ;;
      match nd_val xv, nd_val yv with
      | Nd2 xm, Nd2 ym =>
          lm <-- !lift (ha_cdist a xm ym) ;;
          l <-- !new (BNd (NdArray (Nd2 lm) true true)) ;;
          !ret (Ref l [], Some (xr, yr))
      | _, _ => !fail (ValueError "XA must be a 2-dimensional array.")
      end
  end.

(** dtw/dtw.py:130-486 *)
Definition c_dtw (E : env) (a : hargs) : K loc :=
  '(lm, qr) <-- c_local_costs a ;;
  let wfun := canonicalizeWindowFunction (ha_window_type a) in
  let window_args := match ha_window_args a with Some l => l | None => e_default_args E end in
  (* lines 403-404, 505-510 *)
  sp <-- match ha_step_pattern a with
         | HObj l => !ret l
         | HName s => match lookup s (e_patterns E) with Some l => !ret l | None => !fail AttributeError end
         end ;;
  spv <-- !see (fun h => load_pattern h sp) ;;
  let norm := hint spv in
  lmv <-- !see (fun h => load_mat h lm) ;;
  let n := nr lmv in
  let m := nc lmv in
  (* lines 408-418 *)
  '(lm1, seed) <--
     (if ha_open_begin a then
        if negb (String.eqb norm "N")
        then !fail (ValueError "Open-begin requires step patterns with 'N' normalization (e.g. asymmetric, or R-J types (c)). See Tormene et al.")
        else l1 <-- !new (BNd (NdArray (Nd2 (Mat (n + 1) m (repeat (ofZ 0) m ++ dat lmv))) true true)) ;;
             p <-- !new (BNd (NdArray (Nd2 (Mat (n + 1) m (repeat nan ((n + 1) * m)))) true true)) ;;
             !put p (BNd (NdArray (Nd2 (Mat (n + 1) m (repeat (ofZ 0) m ++ repeat nan (n * m)))) true true)) ;;;
             !ret (Ref l1 [], Some p)
      else !ret (lm, None)) ;;
  (* lines 420-425: DTW(gcm) copies the dictionary into a new object *)
  out <-- c_globalCostMatrix lm1 sp wfun seed window_args ;;
  fs <-- !see (fun h => load_fields h out) ;;
  gcm <-- !new (BObj fs) ;;
  !setattr gcm "N" (VNat n) ;;;
  !setattr gcm "M" (VNat m) ;;;
  !setattr gcm "openEnd" (VBool (ha_open_end a)) ;;;
  !setattr gcm "openBegin" (VBool (ha_open_begin a)) ;;;
  !setattr gcm "windowFunction" (VWin wfun) ;;;
  !setattr gcm "windowArgs" (VRef (Ref window_args [])) ;;;
  (* lines 436-445 *)
  cmr <-- !getref gcm "costMatrix" ;;
  cmv <-- !see (fun h => load_mat h cmr) ;;
  let lastrow := row_of cmv (nr cmv - 1) in
  let lastcol := normalize_row norm n lastrow in
  (* lines 447-452 *)
  jmin <-- (if ha_open_end a then
              if String.eqb norm "NA"
              then !fail (ValueError "Open-end alignments require normalizable step patterns")
              else !lift (nanargmin lastcol)
            else !ret (m - 1)) ;;
  !setattr gcm "jmin" (VNat jmin) ;;;
  (* lines 454-462 *)
  distance <-- match nth_error lastrow jmin with Some v => !ret v | None => !fail IndexError end ;;
  !setattr gcm "distance" (VNum distance) ;;;
  if isnan distance
  then !fail (ValueError "No warping path found compatible with the local constraints")
  else
  nd <-- (if negb (String.eqb norm "NA")
          then match nth_error lastcol jmin with Some v => !ret v | None => !fail IndexError end
          else !ret nan) ;;
  !setattr gcm "normalizedDistance" (VNum nd) ;;;
  (* lines 464-466 *)
  (if ha_distance_only a then !ret tt
   else
     dmr <-- !getref gcm "directionMatrix" ;;
     dmv <-- !see (fun h => load_ints h dmr) ;;
     mp <-- !lift (backtrack spv dmv (Z.of_nat jmin)) ;;
     i1 <-- !new (BIdx (index1 mp)) ;;
     i2 <-- !new (BIdx (index2 mp)) ;;
     i1s <-- !new (BIdx (index1s mp)) ;;
     i2s <-- !new (BIdx (index2s mp)) ;;
     st <-- !new (BIdx (stepsTaken mp)) ;;
     !setattr gcm "index1" (VRef (Ref i1 [])) ;;;
     !setattr gcm "index2" (VRef (Ref i2 [])) ;;;
     !setattr gcm "index1s" (VRef (Ref i1s [])) ;;;
     !setattr gcm "index2s" (VRef (Ref i2s [])) ;;;
     !setattr gcm "stepsTaken" (VRef (Ref st []))) ;;;
  (* lines 468-475: a[1:] is a view, a[1:] - 1 a new array *)
  lm2 <-- (if ha_open_begin a then
     r1 <-- !getref gcm "index1" ;; v1 <-- !see (fun h => load_idx h r1) ;;
     l1 <-- !new (BIdx (List.map Z.pred (tl v1))) ;; !setattr gcm "index1" (VRef (Ref l1 [])) ;;;
     r1s <-- !getref gcm "index1s" ;; v1s <-- !see (fun h => load_idx h r1s) ;;
     l1s <-- !new (BIdx (List.map Z.pred (tl v1s))) ;; !setattr gcm "index1s" (VRef (Ref l1s [])) ;;;
     r2 <-- !getref gcm "index2" ;; !setattr gcm "index2" (VRef (Ref (at_loc r2) (views r2 ++ [Tail]))) ;;;
     r2s <-- !getref gcm "index2s" ;; !setattr gcm "index2s" (VRef (Ref (at_loc r2s) (views r2s ++ [Tail]))) ;;;
     rc <-- !getref gcm "costMatrix" ;; !setattr gcm "costMatrix" (VRef (Ref (at_loc rc) (views rc ++ [DropRow]))) ;;;
     rd <-- !getref gcm "directionMatrix" ;; !setattr gcm "directionMatrix" (VRef (Ref (at_loc rd) (views rd ++ [DropRow]))) ;;;
     !ret (Ref (at_loc lm1) (views lm1 ++ [DropRow]))
   else !ret lm1) ;;
  (* lines 477-486 *)
  (if ha_keep_internals a then
     !setattr gcm "localCostMatrix" (VRef lm2) ;;;
     match qr with
     | Some (x, y) => !setattr gcm "query" (VRef x) ;;; !setattr gcm "reference" (VRef y)
     | None => !ret tt
     end
   else !delattr gcm "costMatrix" ;;; !delattr gcm "directionMatrix") ;;;
  !ret gcm.

(** dtw/stepPattern.py:286-296: the transposed pattern is a new object with a new array. *)
Definition c_T (sp : loc) : K loc :=
  spv <-- !see (fun h => load_pattern h sp) ;;
  copy <-- !new (BRows (mx spv)) ;;                     (* line 288 *)
  tmx <-- !new (BRows (List.map T_row (mx spv))) ;;     (* line 289: a fancy-indexed copy *)
  arr <-- !new (BRows (List.map T_row (mx spv))) ;;     (* line 275 *)
  !new (BPattern arr (T_hint (hint spv))).
End Programs.

(** ** Reading a result object: the attributes as a record of values *)
Definition field_ref (f : list (string * val N)) (k : string) : option ref :=
  match lookup k f with Some (VRef r) => Some r | _ => None end.
Definition get_bool f k := match @lookup (val N) k f with Some (VBool b) => Some b | _ => None end.
Definition get_nat f k := match @lookup (val N) k f with Some (VNat b) => Some b | _ => None end.
Definition get_num f k := match @lookup (val N) k f with Some (VNum b) => Some b | _ => None end.
Definition get_win f k := match @lookup (val N) k f with Some (VWin b) => Some b | _ => None end.
Definition obind {A B} (o : option A) (f : A -> option B) : option B := match o with Some a => f a | None => None end.

(** [None]: not an object with this attribute; [Some None]: the attribute is absent. *)
Definition maybe {A} (f : list (string * val N)) (k : string) (load : ref -> option A) : option (option A) :=
  match lookup k f with
  | None => Some None
  | Some (VRef r) => match load r with Some a => Some (Some a) | None => None end
  | Some _ => None
  end.

(** The alignment, all five vectors or none. *)
Definition load_mapping (h : heap N) (f : list (string * val N)) : option (option mapping) :=
  match maybe f "index1" (load_idx h), maybe f "index2" (load_idx h), maybe f "index1s" (load_idx h),
        maybe f "index2s" (load_idx h), maybe f "stepsTaken" (load_idx h) with
  | Some (Some a), Some (Some b), Some (Some c), Some (Some d), Some (Some e) => Some (Some (Mapping a b c d e))
  | Some None, Some None, Some None, Some None, Some None => Some None
  | _, _, _, _, _ => None
  end.
Definition load_result (h : heap N) (l : loc) : option (DTW N) :=
  obind (load_fields h l) (fun f =>
  obind (get_nat f "N") (fun n => obind (get_nat f "M") (fun m =>
  obind (get_bool f "openEnd") (fun oe => obind (get_bool f "openBegin") (fun ob =>
  obind (get_win f "windowFunction") (fun w =>
  obind (obind (field_ref f "windowArgs") (fun r => load_dict h (at_loc r))) (fun kw =>
  obind (obind (field_ref f "stepPattern") (fun r => load_pattern h (at_loc r))) (fun sp =>
  obind (get_nat f "jmin") (fun j => obind (get_num f "distance") (fun v => obind (get_num f "normalizedDistance") (fun nv =>
  obind (load_mapping h f) (fun mp =>
  obind (maybe f "costMatrix" (load_mat h)) (fun cm => obind (maybe f "directionMatrix" (load_ints h)) (fun dm =>
  obind (maybe f "localCostMatrix" (load_mat h)) (fun lm =>
  obind (maybe f "query" (fun r => option_map (@nd_val N) (load_nd h r))) (fun q =>
  obind (maybe f "reference" (fun r => option_map (@nd_val N) (load_nd h r))) (fun rf =>
  Some (mkDTW n m oe ob w kw sp j v nv mp cm dm lm q rf)))))))))))))))))).

Section Programs2.
Context {K : style}.
Local Notation "! p" := (op K _ p) (at level 60, p at level 10).
Local Notation "x <-- p ;; k" := (seq2 K _ _ p (fun x => k)) (at level 61, p at next level, right associativity).

(** dtw/countPaths.py:26-110, dtw/warp.py:38-122, dtw/warpArea.py:85-98.  They read the attributes of the result
    and work on arrays of their own (numpy.full, the interpolated vector); these temporaries are not represented,
    the vector returned by warp() is. *)
Definition c_countPaths (l : loc) : K Z :=
  d <-- !see (fun h => load_result h l) ;;
  !lift (countPaths d).
Definition c_warp (l : loc) (index_reference : bool) : K loc :=
  d <-- !see (fun h => load_result h l) ;;
  ii <-- !lift (warp d index_reference) ;;
  !new (BIdx ii).
Definition c_warpArea (l : loc) : K N :=
  d <-- !see (fun h => load_result h l) ;;
  !lift (warpArea d).
End Programs2.

(** The calls, run without interruption. *)
Definition h_wrapper := c_wrapper (K := direct).
Definition h_globalCostMatrix := c_globalCostMatrix (K := direct).
Definition h_local_costs := c_local_costs (K := direct).
Definition h_dtw := c_dtw (K := direct).
Definition h_T := c_T (K := direct).
Definition h_countPaths := c_countPaths (K := direct).
Definition h_warp := c_warp (K := direct).
Definition h_warpArea := c_warpArea (K := direct).

(** ** Histories: calls of the package, and in-place changes made by the program that uses it *)
Inductive event : Type :=
| EvDtw (a : hargs)
| EvT (sp : loc)
| EvCountPaths (l : loc)
| EvWarp (l : loc) (index_reference : bool)
| EvWarpArea (l : loc)
| EvNew (b : block N)
| EvWrite (l : loc) (b : block N).

(** The heap an event leaves; the program that uses the package may catch exceptions and go on.  [None]: the
    process ended, or its memory is not to be trusted any more (undefined behaviour). *)
Definition left_by {A} (r : out A * heap N) : option (heap N) :=
  match r with
  | (Ok _, h) => Some h
  | (Raise _, h) => Some h
  | _ => None
  end.
Definition step (E : env) (e : event) (h : heap N) : option (heap N) :=
  match e with
  | EvDtw a => left_by (h_dtw E a h)
  | EvT sp => left_by (h_T sp h)
  | EvCountPaths l => left_by (h_countPaths l h)
  | EvWarp l b => left_by (h_warp l b h)
  | EvWarpArea l => left_by (h_warpArea l h)
  | EvNew b => Some (h ++ [b])
  | EvWrite l b => left_by (put l b h)
  end.
Fixpoint run (E : env) (es : list event) (h : heap N) : option (heap N) :=
  match es with
  | nil => Some h
  | e :: es' => match step E e h with Some h' => run E es' h' | None => None end
  end.
End Calls.
Arguments hargs N : clear implicits.
Arguments event N : clear implicits.

(** For proofs: the text of the programs. *)
Ltac as_direct := cbv beta iota delta [direct seq2 op K].
Ltac open_wrapper := unfold h_wrapper, c_wrapper; as_direct.
Ltac open_global := unfold h_globalCostMatrix, c_globalCostMatrix; 
  repeat match goal with |- context [@c_wrapper ?N direct] => change (@c_wrapper N direct) with (@h_wrapper N) end; as_direct.
Ltac open_local := unfold h_local_costs, c_local_costs; as_direct.
Ltac open_dtw := unfold h_dtw, c_dtw;
  repeat match goal with |- context [@c_globalCostMatrix ?N direct] => change (@c_globalCostMatrix N direct) with (@h_globalCostMatrix N) end;
  repeat match goal with |- context [@c_local_costs ?N direct] => change (@c_local_costs N direct) with (@h_local_costs N) end; as_direct.
Ltac open_T := unfold h_T, c_T; as_direct.
Ltac open_countPaths := unfold h_countPaths, c_countPaths; as_direct.
Ltac open_warp := unfold h_warp, c_warp; as_direct.
Ltac open_warpArea := unfold h_warpArea, c_warpArea; as_direct.
