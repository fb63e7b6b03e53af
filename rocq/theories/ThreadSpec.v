(** ThreadSpec.v - vocabulary for C71 and C72: programs that use the package. *)
From Verif Require Import Base Num StepPattern Window Core Backtrack Dtw CountPaths Warp Heap Threads.
Open Scope nat_scope.

Section ThreadSpec.
Context {N : Num}.

(** Programs made of calls of the package, creation and inspection of objects, in-place changes of objects that
    are not among the first [n], with any control flow and exception handling between them. *)
Inductive client (E : env) (n : nat) : forall A, cmd N A -> Prop :=
| client_stop : forall A (o : out A), client E n A (Stop o)
| client_dtw : forall a, client E n loc (c_dtw (K := stepwise) E a)
| client_T : forall sp, client E n loc (c_T (K := stepwise) sp)
| client_countPaths : forall l, client E n Z (c_countPaths (K := stepwise) l)
| client_warp : forall l b, client E n loc (c_warp (K := stepwise) l b)
| client_warpArea : forall l, client E n N (c_warpArea (K := stepwise) l)
| client_new : forall b, client E n loc (Atom (new b))
| client_look : forall A (f : heap N -> option A), client E n A (Atom (see f))
| client_change : forall l b, n <= l -> client E n unit (Atom (put l b))
| client_then : forall A B (c : cmd N A) (f : A -> cmd N B), client E n A c -> (forall a, client E n B (f a)) -> client E n B (Then c f)
| client_catch : forall A (c : cmd N A) (k : exn -> cmd N A), client E n A c -> (forall e, client E n A (k e)) -> client E n A (Catch c k).

(** The threads at the start. *)
Definition start {A} (cs : list (cmd N A)) : list (thread N A) := List.map (fun c => Thread c nil) cs.

(** How often it was the turn of [t]. *)
Definition turns (t : nat) (schedule : list nat) : nat := count_occ Nat.eq_dec schedule t.
End ThreadSpec.
