(** TriSpec.v - three series and local costs that obey the triangle inequality (specification
    for C68). *)
From Coq Require Import QArith Qcanon.
From Verif Require Import Base Num NumQ StepPattern Window Core Backtrack Dtw Spec Api Tables Vocab Terms.
Open Scope list_scope.
Open Scope nat_scope.

(** [xy], [yz] and [xz] are local costs of three series against each other: finite, the first two not
    negative, and going through a sample of the middle series is never cheaper. *)
Definition triangle (xy yz xz : mat NumQ) : Prop :=
  nr xz = nr xy /\ nc xy = nr yz /\ nc xz = nc yz /\
  forall i j k, i < nr xy -> j < nc xy -> k < nc yz ->
    exists a b c : Qc, cell xy i j = XFin a /\ cell yz j k = XFin b /\ cell xz i k = XFin c /\
      (0 <= a)%Qc /\ (0 <= b)%Qc /\ (c <= a + b)%Qc.

(** What the windows of the first two calls let through, one after the other, is let through by the third
    window; the first two admit the first cell. *)
Definition windows_compose (w1 : winfun NumQ) (kw1 : kwargs NumQ) (w2 : winfun NumQ) (kw2 : kwargs NumQ)
  (w : winfun NumQ) (kw : kwargs NumQ) (nx ny nz : nat) : Prop :=
  in_window w1 kw1 nx ny 0 0 /\ in_window w2 kw2 ny nz 0 0 /\
  forall i j k, i < nx -> j < ny -> k < nz ->
    in_window w1 kw1 nx ny i j -> in_window w2 kw2 ny nz j k -> in_window w kw nx nz i k.
