(** PlotSpec.v - vocabulary of the statements on the plotting functions. *)
From Verif Require Import Base Num Backtrack Dtw Vocab Plot.
Open Scope list_scope.
Open Scope Z_scope.

(** [k] positions in a warping curve of [len] points, evenly spread: the first and the
    last point are included (if k is 1, only the first), position i is at most one below
    the integer part of i (len - 1) / (k - 1). *)
Definition spread (len k : Z) (l : list Z) : Prop :=
  List.length l = Z.to_nat k /\ nondecreasing l /\ within 0 len l /\
  (1 <= k -> first_is 0 l) /\ (2 <= k -> last_is (len - 1) l) /\
  forall i p, nth_error l i = Some p -> 2 <= k ->
    Z.of_nat i * (len - 1) / (k - 1) - 1 <= p <= Z.of_nat i * (len - 1) / (k - 1).

(** The guides asked for by match_indices; [dflt] if it is not given.  In a list, negative positions count from the end
    of the curve. *)
Definition guides (dflt : Z) (a : match_arg) (len : Z) (l : list Z) : Prop :=
  match a with
  | MatchNone => spread len dflt l
  | MatchCount k => spread len k l
  | MatchList l' => l = map (fun p => p mod len) l'
  end.
(** Requests that can be served: a count, or a list of positions of the curve. *)
Definition servable (dflt : Z) (a : match_arg) (len : Z) : Prop :=
  match a with
  | MatchNone => len * dflt <= 2 ^ 51
  | MatchCount k => 0 <= k /\ len * k <= 2 ^ 51 /\ k <= 2 ^ 51
  | MatchList l => within (- len) len l
  end.

Section Spec.
Context {N : Num}.
(** The univariate series drawn: those given or, if one of them is missing, those kept in
    the object. *)
Definition drawn_series (d : DTW N) (xts yts : option (nd N)) (xs ys : list N) : Prop :=
  exists n m, (xts = Some (Nd2 (Mat n 1 xs)) /\ yts = Some (Nd2 (Mat m 1 ys))) \/
    ((xts = None \/ yts = None) /\ r_query d = Some (Nd2 (Mat n 1 xs)) /\ r_reference d = Some (Nd2 (Mat m 1 ys))).

(** A curve drawn through the values of a series. *)
Definition curve_of (l : list N) (c : list (Z * N)) : Prop :=
  List.length c = List.length l /\
  forall k v, nth_error l k = Some v -> nth_error c k = Some (Z.of_nat k, v).

(** A correct two-way drawing of the alignment [mp]: the two series, the reference shifted
    by [offset], and one guide for each position in [l], joining the query curve at the
    query index to the reference curve at the reference index matched there. *)
Definition twoway_drawing (mp : mapping) (xs ys : list N) (offset : N) (l : list Z) (t : twoway N) : Prop :=
  curve_of xs (tw_query t) /\ curve_of (map (fun v => add v offset) ys) (tw_reference t) /\
  List.length (tw_guides t) = List.length l /\
  forall k p g, nth_error l k = Some p -> nth_error (tw_guides t) k = Some g ->
    exists i j, nth_error (index1 mp) (Z.to_nat p) = Some i /\ nth_error (index2 mp) (Z.to_nat p) = Some j /\
      nth_error (tw_query t) (Z.to_nat i) = Some (fst g) /\
      nth_error (tw_reference t) (Z.to_nat j) = Some (snd g) /\
      fst (fst g) = i /\ fst (snd g) = j.

(** The warping curve. *)
Definition warping_curve (mp : mapping) (c : list (Z * Z)) : Prop :=
  List.length c = List.length (index1 mp) /\
  forall k p, nth_error c k = Some p -> nth_error (index1 mp) k = Some (fst p) /\ nth_error (index2 mp) k = Some (snd p).

(** A correct three-way drawing: the warping curve, and for each position in [l] the
    segments from both axes to the point of the curve. *)
Definition threeway_drawing (mp : mapping) (x y : nd N) (l : list Z) (t : threeway N) : Prop :=
  th_query t = x /\ th_reference t = y /\ warping_curve mp (th_curve t) /\
  List.length (th_guides t) = (2 * List.length l)%nat /\
  forall k p, nth_error l k = Some p ->
    exists i j, nth_error (index1 mp) (Z.to_nat p) = Some i /\ nth_error (index2 mp) (Z.to_nat p) = Some j /\
      nth_error (th_guides t) (2 * k) = Some ((i, 0), (i, j)) /\
      nth_error (th_guides t) (2 * k + 1) = Some ((0, j), (i, j)).
Definition guides3 (a : match_arg) (len : Z) (l : list Z) : Prop :=
  match a with MatchNone => l = [] | _ => guides 0 a len l end.
Definition servable3 (a : match_arg) (len : Z) : Prop :=
  match a with MatchNone => True | _ => servable 0 a len end.
End Spec.
