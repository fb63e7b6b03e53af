(** NarrowSpec.v - windows and local costs around a given alignment (vocabulary for C77, C78). *)
From Verif Require Import Base Num StepPattern Window Backtrack Spec Api.
Open Scope list_scope.
Open Scope nat_scope.

Section NarrowSpec.
Context {N : Num}.

(** The window admits the points (index1s, index2s) of an alignment.  The first point is never tested.  With an
    open begin the code evaluates the window on a problem with one more query sample in front. *)
Definition alignment_in_window (ob : bool) (w : winfun N) (kw : kwargs N) (n m : nat) (mp : mapping) : Prop :=
  forall t i j, nth_error (index1s mp) (if ob then t else S t) = Some i ->
                nth_error (index2s mp) (if ob then t else S t) = Some j ->
    if ob then in_window w kw (n + 1) m (S (Z.to_nat i)) (Z.to_nat j)
    else in_window w kw n m (Z.to_nat i) (Z.to_nat j).

(** The two local cost matrices have the same entries at the points (index1, index2) of an alignment. *)
Definition same_on_alignment (lm lm' : mat N) (mp : mapping) : Prop :=
  forall t i j, nth_error (index1 mp) t = Some i -> nth_error (index2 mp) t = Some j ->
    cell lm' (Z.to_nat i) (Z.to_nat j) = cell lm (Z.to_nat i) (Z.to_nat j).
End NarrowSpec.

(** The predefined step patterns that never advance by more than one query sample in one step, and whose weights
    are not negative. *)
Definition one_row_names : list string :=
  ["symmetric1"; "symmetric2"; "asymmetric"; "symmetricP0"; "asymmetricP0"; "_asymmetricP0b"; "rigid"]%string.
