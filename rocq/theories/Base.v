(** Base.v - outcomes, checked memory, loops and 2-D arrays.

    Infrastructure of the model: nothing in this file models a particular
    function of /repo; it fixes how Python exceptions, C undefined behaviour and
    numpy arrays are represented. *)
From Coq Require Export ZArith List Bool String Lia.
Export ListNotations.
Open Scope Z_scope.

(** Python exceptions, by class (the message is kept for ValueError, which is
    the class raised by the package's own [_error], dtw/dtw.py:513-515). *)
Inductive exn : Type :=
| ValueError (msg : string)
| TypeError
| IndexError
| AttributeError
| KeyError
| OverflowError.

(** Result of running a piece of the program.
    [Exit]    : the C macro [error(...)] calls exit(-1) (dtw/dtw_core.c:43);
    [UB]      : out-of-bounds access or int overflow in C;
    [Diverge] : the Python [while True] loop does not end. *)
Inductive out (A : Type) : Type :=
| Ok (a : A)
| Raise (e : exn)
| Exit
| UB
| Diverge.
Arguments Ok {A} a.
Arguments Raise {A} e.
Arguments Exit {A}.
Arguments UB {A}.
Arguments Diverge {A}.

Definition bind {A B} (x : out A) (f : A -> out B) : out B :=
  match x with
  | Ok a => f a
  | Raise e => Raise e
  | Exit => Exit
  | UB => UB
  | Diverge => Diverge
  end.

Notation "x <- m ;; k" := (bind m (fun x => k))
  (at level 61, m at next level, right associativity).
Notation "' p <- m ;; k" := (bind m (fun p => k))
  (at level 61, p pattern, m at next level, right associativity).

(** Counting loop [for(int i=start; i<start+count; i++)]. *)
Fixpoint loop {S : Type} (start : Z) (count : nat) (f : Z -> S -> out S) (s : S)
  : out S :=
  match count with
  | O => Ok s
  | Datatypes.S c => s' <- f start s ;; loop (start + 1) c f s'
  end.

(** Sequential traversal of a list. *)
Fixpoint foldM {A S : Type} (f : A -> S -> out S) (l : list A) (s : S) : out S :=
  match l with
  | nil => Ok s
  | x :: xs => s' <- f x s ;; foldM f xs s'
  end.

Fixpoint mapM {A B : Type} (f : A -> out B) (l : list A) : out (list B) :=
  match l with
  | nil => Ok nil
  | x :: xs => y <- f x ;; ys <- mapM f xs ;; Ok (y :: ys)
  end.

(** C memory blocks are lists; an access outside the block is [UB]. *)
Definition rd {A} (l : list A) (i : Z) : out A :=
  if i <? 0 then UB
  else match nth_error l (Z.to_nat i) with Some v => Ok v | None => UB end.

Fixpoint upd {A} (l : list A) (i : nat) (v : A) : list A :=
  match l, i with
  | nil, _ => nil
  | _ :: xs, O => v :: xs
  | x :: xs, Datatypes.S k => x :: upd xs k v
  end.

Definition wr {A} (l : list A) (i : Z) (v : A) : out (list A) :=
  if (i <? 0) || (Z.of_nat (List.length l) <=? i) then UB
  else Ok (upd l (Z.to_nat i) v).

(** C [int] is 32 bits; leaving the range is undefined behaviour. *)
Definition INT_MIN : Z := -2147483648.
Definition INT_MAX : Z := 2147483647.
Definition in_i32 (z : Z) : bool := (INT_MIN <=? z) && (z <=? INT_MAX).
Definition i32 (z : Z) : out Z := if in_i32 z then Ok z else UB.

(** numpy int64: result of converting NaN or an out-of-range double (x86-64). *)
Definition INT64_MIN : Z := -9223372036854775808.

(** 2-D numpy arrays: shape plus elements in row-major order. *)
Record mat (A : Type) := Mat { nr : nat; nc : nat; dat : list A }.
Arguments Mat {A} nr nc dat.
Arguments nr {A} m.
Arguments nc {A} m.
Arguments dat {A} m.

Definition wf_mat {A} (m : mat A) : Prop :=
  List.length (dat m) = (nr m * nc m)%nat.

(** Element (i,j), none outside the shape. *)
Definition mget {A} (m : mat A) (i j : nat) : option A :=
  if Nat.ltb i (nr m) && Nat.ltb j (nc m)
  then nth_error (dat m) (i * nc m + j) else None.

(** All index pairs of an n x m array in row-major order
    (numpy.indices((n,m)) raveled). *)
Definition indices (n m : nat) : list (nat * nat) :=
  List.flat_map (fun i => List.map (fun j => (i, j)) (List.seq 0 m)) (List.seq 0 n).

(** Row [i] of an array as a list. *)
Definition row_of {A} (m : mat A) (i : nat) : list A :=
  List.firstn (nc m) (List.skipn (i * nc m) (dat m)).

(** a[1:, :] *)
Definition drop_first_row {A} (m : mat A) : mat A :=
  Mat (nr m - 1) (nc m) (List.skipn (nc m) (dat m)).

(** Python indexing of an axis of length n, negative indices count from the end. *)
Definition py_index (n : nat) (i : Z) : out nat :=
  if (0 <=? i) && (i <? Z.of_nat n) then Ok (Z.to_nat i)
  else if (- Z.of_nat n <=? i) && (i <? 0) then Ok (Z.to_nat (i + Z.of_nat n))
  else Raise IndexError.

Definition py_get2 {A} (m : mat A) (i j : Z) : out A :=
  i' <- py_index (nr m) i ;;
  j' <- py_index (nc m) j ;;
  match mget m i' j' with Some v => Ok v | None => Raise IndexError end.
