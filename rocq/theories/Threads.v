(** Threads.v - calls that are interrupted between any two operations on objects: threads, and
    exceptions from outside (model for C71 and C72). *)
From Verif Require Import Base Num StepPattern Window Core Backtrack Dtw CountPaths Warp Heap.
Open Scope list_scope.
Open Scope nat_scope.

Section Threads.
Context {N : Num}.

(** What is left to do: nothing (an outcome), one operation, something followed by something, something with
    an exception handler (try/except). *)
Inductive cmd : Type -> Type :=
| Stop : forall A, out A -> cmd A
| Atom : forall A, prog N A -> cmd A
| Then : forall A B, cmd A -> (A -> cmd B) -> cmd B
| Catch : forall A, cmd A -> (exn -> cmd A) -> cmd A.

(** The programs of Heap.v (dtw/dtw.py:130-486 and what it calls), operation by operation. *)
Definition stepwise : style := Style cmd Then Atom.

Definition stopped {A} (c : cmd A) : option (out A) := match c with Stop _ o => Some o | _ => None end.

(** One operation. *)
Fixpoint step1 {A} (c : cmd A) : heap N -> cmd A * heap N :=
  match c in cmd A return heap N -> cmd A * heap N with
  | Stop A o => fun h => (Stop A o, h)
  | Atom A p => fun h => let (o, h') := p h in (Stop A o, h')
  | Then A B c f => fun h =>
      match stopped c with
      | Some (Ok a) => (f a, h)
      | Some (Raise e) => (Stop B (Raise e), h)
      | Some Exit => (Stop B Exit, h)
      | Some UB => (Stop B UB, h)
      | Some Diverge => (Stop B Diverge, h)
      | None => let (c', h') := step1 c h in (Then A B c' f, h')
      end
  | Catch A c k => fun h =>
      match stopped c with
      | Some (Raise e) => (k e, h)
      | Some o => (Stop A o, h)
      | None => let (c', h') := step1 c h in (Catch A c' k, h')
      end
  end.
Fixpoint steps {A} (n : nat) (c : cmd A) (h : heap N) : cmd A * heap N :=
  match n with 0 => (c, h) | S n' => let (c', h') := step1 c h in steps n' c' h' end.

(** The same program without interruption. *)
Fixpoint whole {A} (c : cmd A) : prog N A :=
  match c in cmd A return prog N A with
  | Stop A o => lift o
  | Atom A p => p
  | Then A B c f => andthen (whole c) (fun a => whole (f a))
  | Catch A c k => fun h => match whole c h with (Raise e, h') => whole (k e) h' | r => r end
  end.

(** Threads.  The objects that exist when the threads start are shared; a thread sees them and the objects that
    it creates.  (Threads do not pass references to each other; objects created by different threads are
    different, so each thread counts its own.)  Python's threads switch between operations; the native code runs
    with the interpreter lock held (no nogil in dtw/_dtw_utils.pyx) and has no static data (dtw/dtw_core.c). *)
Record thread (A : Type) := Thread { t_rest : cmd A; t_own : heap N }.
Arguments Thread {A} _ _.
Arguments t_rest {A} _.
Arguments t_own {A} _.

Definition turn {A} (w : heap N * list (thread A)) (t : nat) : heap N * list (thread A) :=
  match nth_error (snd w) t with
  | None => w
  | Some th =>
      let n := List.length (fst w) in
      let (c, h) := step1 (t_rest th) (fst w ++ t_own th) in
      (firstn n h, upd (snd w) t (Thread c (skipn n h)))
  end.
(** A schedule says whose turn it is. *)
Definition run_threads {A} (schedule : list nat) (w : heap N * list (thread A)) : heap N * list (thread A) :=
  fold_left turn schedule w.
End Threads.
Arguments cmd N A : clear implicits.
Arguments Stop {N A} _.
Arguments Atom {N A} _.
Arguments Then {N A B} _ _.
Arguments Catch {N A} _ _.
Arguments thread N A : clear implicits.
Arguments Thread {N A} _ _.
Arguments t_rest {N A} _.
Arguments t_own {N A} _.
