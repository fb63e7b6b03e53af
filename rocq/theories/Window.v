(** Window.v - model of dtw/window.py and of the window lookup in dtw/dtw.py *)
From Verif Require Import Base Num.
Open Scope string_scope.
Open Scope list_scope.
Open Scope Z_scope.

Section Window.
Context {N : Num}.

(** Keyword arguments passed as window_args (a dict of numbers). *)
Definition kwargs : Type := list (string * N).

(** Callables that can be passed as windowing function.  [UserWin f] is a
    user-defined vectorised function; it is modelled by its element-wise action
    (query index, reference index, query_size, reference_size, window_args).
    [ErrLambda] is the zero-argument lambda returned for unknown names
    (dtw/dtw.py:502). *)
Inductive winfun : Type :=
| NoWindow
| SakoeChiba
| Itakura
| SlantedBand
| UserWin (f : Z -> Z -> Z -> Z -> kwargs -> out bool)
| ErrLambda.

(** dtw/window.py:143-144  iw | True, as a truth value *)
Definition noWindow (iw jw qs rs : Z) : bool := negb (Z.lor iw 1 =? 0).

(** dtw/window.py:147-149 *)
Definition sakoeChibaWindow (iw jw qs rs : Z) (window_size : N) : bool :=
  leb (ofZ (Z.abs (jw - iw))) window_size.

(** dtw/window.py:152-159 *)
Definition itakuraWindow (iw jw qs rs : Z) : bool :=
  let n := qs in
  let m := rs in
  (jw <? 2 * iw) && (iw <=? 2 * jw) &&
  (n - 1 - 2 * (m - jw) <=? iw) && (m - 1 - 2 * (n - iw) <? jw).

(** dtw/window.py:162-164 (true division of the integer product by query_size) *)
Definition slantedBandWindow (iw jw qs rs : Z) (window_size : N) : bool :=
  let diagj := div (ofZ (iw * rs)) (@ofZ N qs) in
  leb (vabs (sub (ofZ jw) diagj)) window_size.

(** wf(iw, jw, query_size=qs, reference_size=rs, **kw): functions without a
    window_size parameter reject any extra keyword, those with one require
    exactly it (Python TypeError otherwise); the lambda of dtw/dtw.py:502 takes
    no argument at all. *)
Definition call_window (w : winfun) (iw jw qs rs : Z) (kw : kwargs) : out bool :=
  match w, kw with
  | NoWindow, nil => Ok (noWindow iw jw qs rs)
  | NoWindow, _ => Raise TypeError
  | SakoeChiba, [(k, ws)] =>
      if String.eqb k "window_size" then Ok (sakoeChibaWindow iw jw qs rs ws)
      else Raise TypeError
  | SakoeChiba, _ => Raise TypeError
  | Itakura, nil => Ok (itakuraWindow iw jw qs rs)
  | Itakura, _ => Raise TypeError
  | SlantedBand, [(k, ws)] =>
      if String.eqb k "window_size" then Ok (slantedBandWindow iw jw qs rs ws)
      else Raise TypeError
  | SlantedBand, _ => Raise TypeError
  | UserWin f, _ => f iw jw qs rs kw
  | ErrLambda, _ => Raise TypeError
  end.

(** Binding the arguments of that call, which happens once, before any element is looked at (and also for
    empty index arrays). *)
Definition bind_window (w : winfun) (kw : kwargs) : out unit :=
  match w, kw with
  | NoWindow, nil | Itakura, nil => Ok tt
  | SakoeChiba, [(k, _)] | SlantedBand, [(k, _)] => if String.eqb k "window_size" then Ok tt else Raise TypeError
  | UserWin _, _ => Ok tt
  | _, _ => Raise TypeError
  end.

(** The window_type argument of dtw(): None, a name, or a callable. *)
Inductive wtype : Type :=
| WTNone
| WTName (s : string)
| WTFun (w : winfun).

(** dtw/dtw.py:490-502 _canonicalizeWindowFunction *)
Definition canonicalizeWindowFunction (w : wtype) : winfun :=
  match w with
  | WTFun f => f
  | WTNone => NoWindow
  | WTName s =>
      if String.eqb s "none" then NoWindow
      else if String.eqb s "sakoechiba" then SakoeChiba
      else if String.eqb s "itakura" then Itakura
      else if String.eqb s "slantedband" then SlantedBand
      else ErrLambda
  end.

End Window.
Arguments winfun N : clear implicits.
Arguments wtype N : clear implicits.
Arguments kwargs N : clear implicits.
