(** CountSpec.v - specification vocabulary for path counting (no proofs). *)
From Verif Require Import Base Num StepPattern Window Backtrack Dtw CountPaths Spec Api.
Open Scope string_scope.
Open Scope list_scope.
Open Scope nat_scope.

(** Exactly n things have property P. *)
Definition numbers {A : Type} (P : A -> Prop) (n : nat) : Prop :=
  exists l, NoDup l /\ (forall x, In x l <-> P x) /\ List.length l = n.

Section CountSpec.
Context {N : Num}.

(** The production sequence [ks] leads from (0,0) to [q], all its steps being admitted
    (the costs do not matter). *)
Definition admitted (rules : list (rule N)) (lm : mat N) (w : winfun N) (kw : kwargs N)
           (q : point) (ks : list nat) : Prop :=
  exists vs ts c, closed_walk rules lm w kw ks vs ts q c.

(** The same for the open-begin problem that dtw() solves: from cell [start] of the
    virtual row. *)
Definition admitted_open (rules : list (rule N)) (lm : mat N) (w : winfun N) (kw : kwargs N)
           (q : point) (sk : point * list nat) : Prop :=
  exists vs ts c, open_walk rules lm w kw (snd sk) (fst sk :: vs) ts q c.

(** No weight of a charged point truncates to -1, the marker of start rows. *)
Definition no_marker (rules : list (rule N)) : Prop :=
  forall r a, In r rules -> In a (r_add r) -> np_int32 (snd a) <> (-1)%Z.

(** countPaths calls the windowing function with the stored arguments on the n x m
    problem; each call must return. *)
Definition window_callable (w : winfun N) (kw : kwargs N) (n m : nat) : Prop :=
  forall i j, i < n -> j < m ->
    exists b, call_window w (Z.of_nat i) (Z.of_nat j) (Z.of_nat n) (Z.of_nat m) kw = Ok b.
(** No cell is reached by more than 2^53 admitted sequences. *)
Definition counts_fit (rules : list (rule N)) (lm : mat N) (w : winfun N) (kw : kwargs N) : Prop :=
  forall i j c, i < nr lm -> j < nc lm -> numbers (admitted rules lm w kw (i, j)) c -> (Z.of_nat c <= 2 ^ 53)%Z.

(** The open-begin walks that countPaths counts: cells of the virtual row are not part of a path after its start. *)
Definition counted_open (rules : list (rule N)) (lm : mat N) (w : winfun N) (kw : kwargs N) (q : point)
           (sk : point * list nat) : Prop :=
  exists vs ts c, walk rules (cell lm) (nr lm) (nc lm) open_source
       (fun i j => 1 <= i /\ in_window w kw (nr lm) (nc lm) i j) (snd sk) (fst sk :: vs) ts q c.

(** What countPaths() does for a closed call with the Velichko-Zagoruyko pattern. *)
Definition velichko_claim : Prop := forall (d : DTW N),
  lookup "_symmetricVelichkoZagoruyko" pattern_table = Some (r_stepPattern d) ->
  r_openBegin d = false -> r_openEnd d = false ->
  0 < r_N d -> 0 < r_M d -> 1 < r_N d * r_M d ->
  window_callable (r_windowFunction d) (r_windowArgs d) (r_N d) (r_M d) ->
  in_window (r_windowFunction d) (r_windowArgs d) (r_N d) (r_M d) (r_N d - 1) (r_M d - 1) ->
  countPaths d = Raise (ValueError "cannot convert float NaN to integer").
End CountSpec.
