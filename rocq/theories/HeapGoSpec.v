(** HeapGoSpec.v - specification vocabulary for histories that go on (C69; no proofs). *)
From Verif Require Import Base Num StepPattern Window Core Backtrack Dtw CountPaths Warp Heap HeapSpec.

Section Spec.
Context {N : Num}.
(** Returned or raised an exception: the process is alive and its memory sound. *)
Definition returns_or_raises {A} (o : out A) : Prop := (exists v, o = Ok v) \/ (exists e, o = Raise e).
(** A call on objects that exist and have the kind the call expects, whose outcome as a function of their values
    is a result or an exception. *)
Definition proper_call (E : env) (h : heap N) (e : event N) : Prop :=
  match e with
  | EvDtw a => exists x y o, worth E h a x y o /\ returns_or_raises (dtw (ha_cdist a) x y o)
  | EvT sp => exists v, load_pattern h sp = Some v
  | EvCountPaths l => exists d, load_result h l = Some d /\ returns_or_raises (countPaths d)
  | EvWarp l b => exists d, load_result h l = Some d /\ returns_or_raises (warp d b)
  | EvWarpArea l => exists d, load_result h l = Some d /\ returns_or_raises (warpArea d)
  | EvNew _ => True
  | EvWrite _ _ => False
  end.
End Spec.
