(** SeriesSpec.v - vocabulary for calls with two series: what a distance function such as
    scipy's cdist computes, and series read backwards, joined, or cut. *)
From Verif Require Import Base Num StepPattern Window Core Backtrack Dtw Spec Api NumQ NumF.
Open Scope list_scope.
Open Scope nat_scope.

Section SeriesSpec.
Context {N : Num}.

(** Sample i of a series with one row per time point *)
Definition sample (x : mat N) (i : nat) : list N := map (cell x i) (seq 0 (nc x)).

(** [cdist] compares every sample of one series with every sample of the other by [f]. *)
Definition entrywise (cdist : mat N -> mat N -> out (mat N)) (f : list N -> list N -> N) : Prop :=
  forall xm ym, wf_mat xm -> wf_mat ym -> nc xm = nc ym ->
  exists lm, cdist xm ym = Ok lm /\ wf_mat lm /\ nr lm = nr xm /\ nc lm = nr ym /\
    forall i j, i < nr xm -> j < nr ym -> cell lm i j = f (sample xm i) (sample ym j).

(** [backwards x x']: x' is x read backwards. *)
Definition backwards (x x' : mat N) : Prop :=
  nr x' = nr x /\ nc x' = nc x /\
  forall i k, i < nr x -> k < nc x -> cell x' i k = cell x (nr x - 1 - i) k.

(** Local costs of the series read backwards: the last row first, the last column first. *)
Definition rot (lm : mat N) : mat N := Mat (nr lm) (nc lm) (rev (dat lm)).
End SeriesSpec.

(** [stretched z x]: x is z with each element repeated one or more times in a row. *)
Inductive stretched {A : Type} : list A -> list A -> Prop :=
| st_nil : stretched [] []
| st_new : forall a z x, stretched z x -> stretched (a :: z) (a :: x)
| st_again : forall a z x, stretched (a :: z) (a :: x) -> stretched (a :: z) (a :: a :: x).

(** The arithmetics of the model: exact, binary64, binary64 with fused multiply-add. *)
Definition modelled (N : Num) : Prop := N = NumQ \/ N = NumF \/ N = NumFMA.

Section Sums.
Context {N : Num}.

(** f 0 + w * f 1 + ... + w * f n, added from left to right *)
Fixpoint running_sum (w : N) (f : nat -> N) (n : nat) : N :=
  match n with
  | 0 => f 0
  | S n' => macc (running_sum w f n') w (f n)
  end.
End Sums.

(** Families of step patterns *)
(** Every production charges only its end point, with weight one. *)
Definition unit_rules {N : Num} (rules : list (rule N)) : Prop :=
  forall r, In r rules -> r_add r = [(0, 0, ofZ 1)].
(** Every production advances the query by one sample and charges only its end point, with
    weight one; some production repeats the reference sample. *)
Definition strides {N : Num} (rules : list (rule N)) : Prop :=
  unit_rules rules /\ (forall r, In r rules -> r_di r = 1) /\ exists r, In r rules /\ r_dj r = 0.

(** Every production pays the cell it enters, once or twice, and enters the same or the next row. *)
Definition row_steps {N : Num} (rules : list (rule N)) : Prop :=
  forall r, In r rules -> r_di r <= 1 /\ exists k, (k = 1 \/ k = 2)%Z /\ r_add r = [(0, 0, ofZ k)].


(** The window is the same read backwards, and contains the first cell. *)
Definition window_reversible {N : Num} (w : winfun N) (kw : kwargs N) (n m : nat) : Prop :=
  in_window w kw n m 0 0 /\
  forall i j, i < n -> j < m -> in_window w kw n m i j -> in_window w kw n m (n - 1 - i) (m - 1 - j).


Section Windows.
Context {N : Num}.

(** The cells a call may charge: inside the window, and the first cell of a closed-begin call. *)
Definition may_enter (open_begin : bool) (w : winfun N) (kw : kwargs N) (lm : mat N) (i j : nat) : Prop :=
  (open_begin = false /\ i = 0 /\ j = 0) \/
  in_window w kw (rows_used open_begin lm) (nc lm) (if open_begin then i + 1 else i) j.

(** [lm'] is [lm] with NaN outside the window. *)
Definition masked (open_begin : bool) (w : winfun N) (kw : kwargs N) (lm lm' : mat N) : Prop :=
  nr lm' = nr lm /\ nc lm' = nc lm /\
  forall i j, i < nr lm -> j < nc lm ->
    (may_enter open_begin w kw lm i j -> cell lm' i j = cell lm i j) /\
    (~ may_enter open_begin w kw lm i j -> isnan (cell lm' i j) = true).

(** The same keyword arguments without window *)
Definition without_window (o : opts N) : opts N :=
  mkOpts (o_step_pattern o) WTNone [] (o_keep_internals o) (o_distance_only o) (o_open_end o) (o_open_begin o).

(** The same exception, or results that agree in distance, normalized distance, end point,
    alignment and the kept cumulative cost and direction matrices *)
Definition same_outcome (a b : out (DTW N)) : Prop :=
  match a, b with
  | Ok d, Ok d' => r_distance d' = r_distance d /\ r_normalizedDistance d' = r_normalizedDistance d /\
      r_jmin d' = r_jmin d /\ r_map d' = r_map d /\
      r_costMatrix d' = r_costMatrix d /\ r_directionMatrix d' = r_directionMatrix d
  | Raise e, Raise e' => e' = e
  | _, _ => False
  end.

(** Every production charges only the cell it enters, with a non-negative weight. *)
Definition end_point_rules (rules : list (rule N)) : Prop :=
  forall r, In r rules -> exists w, r_add r = [(0, 0, w)] /\ leb (ofZ 0) w = true.
End Windows.

(** The local costs against the reference from sample s on *)
Definition trailing {N : Num} (lm : mat N) (s : nat) : mat N :=
  Mat (nr lm) (nc lm - s) (map (fun ij => cell lm (fst ij) (s + snd ij)) (indices (nr lm) (nc lm - s))).
