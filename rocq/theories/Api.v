(** Api.v - specification vocabulary for calls of dtw() (small, used in theorem
    statements only). *)
From Verif Require Import Base Num StepPattern Window Core Backtrack Dtw Spec.
Open Scope string_scope.
Open Scope list_scope.
Open Scope nat_scope.

Section Api.
Context {N : Num}.

(** A series as a matrix with one row per time point. *)
Definition matrix_of (x : nd N) : option (mat N) :=
  match x with
  | Nd1 l => Some (Mat (List.length l) 1 l)
  | Nd2 m => Some m
  | _ => None
  end.

(** [costs_of cdist x y lm]: the call dtw(x, y) is about the local cost matrix [lm],
    an array with as many elements as its shape says. *)
Inductive costs_of (cdist : mat N -> mat N -> out (mat N)) (x : ndarray N)
  : option (ndarray N) -> mat N -> Prop :=
| costs_one : forall lm, nd_val x = Nd2 lm -> wf_mat lm -> costs_of cdist x None lm
| costs_two : forall y xm ym lm,
    matrix_of (nd_val x) = Some xm -> matrix_of (nd_val y) = Some ym ->
    cdist xm ym = Ok lm -> wf_mat lm -> costs_of cdist x (Some y) lm.

(** A local cost matrix passed directly must be a C-ordered array of doubles. *)
Definition native_array (x : ndarray N) (y : option (ndarray N)) : Prop :=
  match y with None => is_double x = true /\ is_corder x = true | Some _ => True end.

(** The step pattern denoted by the step_pattern argument. *)
Inductive pattern_of : sparg N -> steppat N -> Prop :=
| pattern_obj : forall s, pattern_of (SPObj s) s
| pattern_name : forall k s, lookup k pattern_table = Some s -> pattern_of (SPName k) s.

(** The windowing function can be evaluated on every cell of an n x m problem. *)
Definition window_total (w : winfun N) (kw : kwargs N) (n m : nat) : Prop :=
  match w with
  | NoWindow => True
  | _ => forall i j, i < n -> j < m ->
         exists b, call_window w (Z.of_nat i) (Z.of_nat j) (Z.of_nat n) (Z.of_nat m) kw = Ok b
  end.

(** Problem sizes the native code can index. *)
Definition size_ok (n m : nat) : Prop :=
  0 < n /\ 0 < m /\ (Z.of_nat n * Z.of_nat m <= INT_MAX)%Z.

(** The windowing function denoted by the window_type argument. *)
Inductive window_of : wtype N -> winfun N -> Prop :=
| window_default : window_of WTNone NoWindow
| window_fun : forall w, window_of (WTFun w) w
| window_none : window_of (WTName "none") NoWindow
| window_sakoe : window_of (WTName "sakoechiba") SakoeChiba
| window_itakura : window_of (WTName "itakura") Itakura
| window_slanted : window_of (WTName "slantedband") SlantedBand.

(** Rows of the problem that is solved: one more with open begin. *)
Definition rows_used (open_begin : bool) (lm : mat N) : nat :=
  if open_begin then nr lm + 1 else nr lm.

(** A call whose arguments meet the documented requirements: the local costs [lm]
    are available (as C-ordered doubles if passed directly), the step pattern
    denotes [sp], which consists of [rules]; the window denotes [w] and can be
    evaluated; the sizes can be indexed; the normalization hint allows the
    requested open ends; open begin asks for the alignment too. *)
Record well_posed (cdist : mat N -> mat N -> out (mat N)) (x : ndarray N)
       (y : option (ndarray N)) (o : opts N) (lm : mat N) (sp : steppat N)
       (rules : list (rule N)) (w : winfun N) : Prop := mkWP {
  wp_costs : costs_of cdist x y lm;
  wp_native : o_open_begin o = true \/ native_array x y;
  wp_pattern : pattern_of (o_step_pattern o) sp;
  wp_rules : pattern_rules sp rules;
  wp_window : window_of (o_window_type o) w;
  wp_total : window_total w (o_window_args o) (rows_used (o_open_begin o) lm) (nc lm);
  wp_query : 0 < nr lm;
  wp_size : size_ok (rows_used (o_open_begin o) lm) (nc lm);
  wp_begin : o_open_begin o = true -> hint sp = "N" /\ o_distance_only o = false;
  wp_end : o_open_end o = true -> hint sp <> "NA"
}.

(** The value [v] of cumulative cost at column [j] of the last row, divided as the
    normalization hint says. *)
Definition normalized (norm : string) (n j : nat) (v : N) : N :=
  if String.eqb norm "N+M" then div v (ofZ (Z.of_nat n + Z.of_nat j + 1))
  else if String.eqb norm "N" then div v (ofZ (Z.of_nat n))
  else if String.eqb norm "M" then div v (ofZ (1 + Z.of_nat j))
  else v.

(** The mapping object that lists a walk. *)
Definition describes (mp : mapping) (ks : list nat) (vs ts : list point) : Prop :=
  index1 mp = map query_ix ts /\ index2 mp = map ref_ix ts /\
  index1s mp = map query_ix vs /\ index2s mp = map ref_ix vs /\
  stepsTaken mp = map Z.of_nat ks.

(** The same for an open-begin call: the first point lies in the virtual row and is
    not shown; the rows of the padded problem are numbered one too high. *)
Definition query_ix_open (p : point) : Z := (Z.of_nat (fst p) - 1)%Z.
Definition describes_open (mp : mapping) (ks : list nat) (vs ts : list point) : Prop :=
  exists p0 vs' ts', vs = p0 :: vs' /\ ts = p0 :: ts' /\
    index1 mp = map query_ix_open ts' /\ index2 mp = map ref_ix ts' /\
    index1s mp = map query_ix_open vs' /\ index2s mp = map ref_ix vs' /\
    stepsTaken mp = map Z.of_nat ks.

(** The kind of walk a call is about, by its open_begin argument, and the cell in
    which a walk ending in reference column [j] ends. *)
Definition admissible (open_begin : bool) (rules : list (rule N)) (lm : mat N) (w : winfun N)
           (kw : kwargs N) :=
  if open_begin then open_walk rules lm w kw else closed_walk rules lm w kw.
Definition end_cell (open_begin : bool) (lm : mat N) (j : nat) : point :=
  (if open_begin then nr lm else nr lm - 1, j).

(** [best_to ob .. j c]: c is the least usable cost of an admissible walk whose end
    column is j, and it is attained. *)
Definition best_to (open_begin : bool) (rules : list (rule N)) (lm : mat N) (w : winfun N)
           (kw : kwargs N) (j : nat) (c : N) : Prop :=
  (exists ks vs ts, admissible open_begin rules lm w kw ks vs ts (end_cell open_begin lm j) c /\
                    usable ks c) /\
  (forall ks vs ts c', admissible open_begin rules lm w kw ks vs ts (end_cell open_begin lm j) c' ->
                    usable ks c' -> leb c c' = true).
(** No admissible walk of usable cost ends in column j. *)
Definition unreachable (open_begin : bool) (rules : list (rule N)) (lm : mat N) (w : winfun N)
           (kw : kwargs N) (j : nat) : Prop :=
  forall ks vs ts c, admissible open_begin rules lm w kw ks vs ts (end_cell open_begin lm j) c ->
                     ~ usable ks c.

(** ** The recursion *)

(** Production [k] proposes value [v] at cell (i,j), given the cumulative costs [g]. *)
Inductive proposes (rules : list (rule N)) (cost : nat -> nat -> N) (g : mat N) (i j : nat)
  : nat -> N -> Prop :=
| propose : forall k r i0 j0 c,
    rule_no rules k = Some r -> i0 + r_di r = i -> j0 + r_dj r = j ->
    mget g i0 j0 = Some c ->
    proposes rules cost g i j k (charge cost r i j c).

(** The entry [v] of the cumulative cost matrix and [s] of the direction matrix at
    (i,j) are the best proposal and the first production making it; if no proposal
    is below +infinity they are NaN and the missing-value marker. *)
Definition best_proposal (rules : list (rule N)) (cost : nat -> nat -> N) (g : mat N) (i j : nat)
           (v : N) (s : Z) : Prop :=
  (exists k, proposes rules cost g i j k v /\ good v /\ s = Z.of_nat k /\
     forall k' v', proposes rules cost g i j k' v' -> good v' ->
       leb v v' = true /\ (k' < k -> ltb v v' = true)) \/
  ((forall k v', proposes rules cost g i j k v' -> ~ good v') /\
   isnan v = true /\ s = INT_MIN).

(** The exception raised when no alignment exists (dtw/dtw.py:457). *)
Definition no_path : exn :=
  ValueError "No warping path found compatible with the local constraints".

End Api.
