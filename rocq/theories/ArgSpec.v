(** ArgSpec.v - vocabulary for C73: the arguments of windows. *)
From Verif Require Import Base Num StepPattern Window Core Dtw Api.
Import ListNotations.
Open Scope string_scope.
Open Scope list_scope.

Section ArgSpec.
Context {N : Num}.

(** The dictionaries a window takes as window_args: none for noWindow and itakuraWindow, exactly window_size for
    the bands; a user's function decides itself. *)
Definition takes (w : winfun N) (kw : kwargs N) : Prop :=
  match w with
  | NoWindow | Itakura => kw = []
  | SakoeChiba | SlantedBand => exists s, kw = [("window_size", s)]
  | UserWin _ => True
  | ErrLambda => False
  end.

(** The options with another dictionary. *)
Definition with_args (o : opts N) (kw : kwargs N) : opts N :=
  mkOpts (o_step_pattern o) (o_window_type o) kw (o_keep_internals o) (o_distance_only o) (o_open_end o) (o_open_begin o).

(** Two outcomes that are the same, except that the results report their own window_args. *)
Inductive same_but_args : out (DTW N) -> out (DTW N) -> Prop :=
| same_results : forall N0 M oe ob wf sp kw1 kw2 jm dist nd mp cm dm lm q r,
    same_but_args (Ok (mkDTW N0 M oe ob wf kw1 sp jm dist nd mp cm dm lm q r)) (Ok (mkDTW N0 M oe ob wf kw2 sp jm dist nd mp cm dm lm q r))
| same_exceptions : forall e, same_but_args (Raise e) (Raise e)
| same_exit : same_but_args Exit Exit
| same_fault : same_but_args UB UB
| same_diverge : same_but_args Diverge Diverge.
End ArgSpec.
