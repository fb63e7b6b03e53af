(** Spec.v - what an alignment is, independently of how the code computes it.

    Nothing here refers to the dynamic programming, to backtracking, to memory
    layout or to the tables' numeric encoding.  A step pattern is a list of
    production rules; an alignment ("walk") is a sequence of productions applied
    one after the other from a source cell; its cost is accumulated from left to
    right with the arithmetic at hand. *)
From Verif Require Import Base Num StepPattern Window.
Open Scope string_scope.
Open Scope list_scope.
Open Scope nat_scope.

Section Spec.
Context {N : Num}.

(** A production rule moves from (i - r_di, j - r_dj) to (i, j).  On the way it
    charges, in this order, weight * local cost at the points (i - oi, j - oj) for
    each (oi, oj, weight) in [r_add]. *)
Record rule := Rule { r_di : nat; r_dj : nat; r_add : list (nat * nat * N) }.

Definition point : Type := (nat * nat)%type.
Definition query_ix (p : point) : Z := Z.of_nat (fst p).
Definition ref_ix (p : point) : Z := Z.of_nat (snd p).

(** Productions are numbered from 1. *)
Definition rule_no (rules : list rule) (k : nat) : option rule :=
  match k with O => None | S k' => nth_error rules k' end.

(** A rule is valid if it goes forward, its listed points lie between its start and
    its end, go forward too, and no weight equals -1 (which marks start rows in
    the tables). *)
Fixpoint going_down (di dj : nat) (l : list (nat * nat * N)) : bool :=
  match l with
  | nil => true
  | (oi, oj, w) :: l' => (oi <=? di) && (oj <=? dj) && going_down oi oj l'
  end.
Definition valid_rule (r : rule) : bool :=
  negb ((r_di r =? 0) && (r_dj r =? 0)) &&
  going_down (r_di r) (r_dj r) (r_add r) &&
  forallb (fun a => negb (eqb (snd a) (ofZ (-1)))) (r_add r).

(** The numeric table of a list of rules (the format documented at
    dtw/stepPattern.py:549-554): per rule, a start row with weight -1, then one
    row per charged point; ids 1, 2, 3, ... *)
Definition ofN (k : nat) : N := ofZ (Z.of_nat k).
Definition rule_rows (k : nat) (r : rule) : list (row N) :=
  Row (ofN k) (ofN (r_di r)) (ofN (r_dj r)) (ofZ (-1)) ::
  map (fun a => Row (ofN k) (ofN (fst (fst a))) (ofN (snd (fst a))) (snd a)) (r_add r).
Fixpoint table_from (k : nat) (rules : list rule) : list (row N) :=
  match rules with
  | nil => nil
  | r :: rs => rule_rows k r ++ table_from (S k) rs
  end.
Definition table (rules : list rule) : list (row N) := table_from 1 rules.

(** A well-formed step pattern: it is the table of a non-empty list of valid rules
    (and its numbers fit C ints). *)
Definition fits_int (rules : list rule) : Prop :=
  (4 * Z.of_nat (List.length (table rules)) <= INT_MAX)%Z /\
  Forall (fun r => (Z.of_nat (r_di r) <= INT_MAX /\ Z.of_nat (r_dj r) <= INT_MAX)%Z) rules.
Definition pattern_rules (s : steppat N) (rules : list rule) : Prop :=
  mx s = table rules /\ rules <> nil /\ forallb valid_rule rules = true /\ fits_int rules.

(** ** Alignments *)
Section Walk.
Variable rules : list rule.
Variable cost : nat -> nat -> N.              (* local cost of cell (i,j) *)
Variable n m : nat.                           (* numbers of rows and columns *)
Variable source : nat -> nat -> option N.     (* cells where a walk may start *)
Variable allowed : nat -> nat -> Prop.        (* cells a step may end in *)

(** Cost [c] after the charges of rule [r] arriving at (i,j). *)
Definition charge (r : rule) (i j : nat) (c : N) : N :=
  fold_left (fun c a => macc c (snd a) (cost (i - fst (fst a)) (j - snd (fst a)))) (r_add r) c.

(** Points strictly inside the step, in the order they are passed. *)
Definition inner_points (r : rule) (i j : nat) : list point :=
  map (fun a => (i - fst (fst a), j - snd (fst a)))
      (filter (fun a => negb ((fst (fst a) =? 0) && (snd (fst a) =? 0))) (r_add r)).

(** [walk ks vs ts q c]: starting at a source cell, the productions [ks] lead to [q]
    through the cells [vs] (end points of the steps, source included); [ts] also
    lists the inner points of the steps; [c] is the accumulated cost. *)
Inductive walk : list nat -> list point -> list point -> point -> N -> Prop :=
| walk_start : forall i j c,
    source i j = Some c -> i < n -> j < m ->
    walk [] [(i, j)] [(i, j)] (i, j) c
| walk_step : forall ks vs ts i0 j0 c k r,
    walk ks vs ts (i0, j0) c ->
    rule_no rules k = Some r ->
    i0 + r_di r < n -> j0 + r_dj r < m ->
    allowed (i0 + r_di r) (j0 + r_dj r) ->
    walk (ks ++ [k]) (vs ++ [(i0 + r_di r, j0 + r_dj r)])
         (ts ++ inner_points r (i0 + r_di r) (j0 + r_dj r) ++ [(i0 + r_di r, j0 + r_dj r)])
         (i0 + r_di r, j0 + r_dj r)
         (charge r (i0 + r_di r) (j0 + r_dj r) c).

(** A usable total: below +infinity and not NaN.  (The cost of a walk without steps
    is a single local cost, which the code also accepts when it is +infinity.) *)
Definition usable (ks : list nat) (c : N) : Prop :=
  isnan c = false /\ (ks <> [] -> good c).

(** [c] is the least usable cost of a walk to [q], and it is attained. *)
Definition is_optimum (q : point) (c : N) : Prop :=
  (exists ks vs ts, walk ks vs ts q c /\ usable ks c) /\
  (forall ks vs ts c', walk ks vs ts q c' -> usable ks c' -> leb c c' = true).
End Walk.

(** ** The problems dtw() solves *)

(** Local cost of cell (i,j) of an array (only used inside the shape). *)
Definition cell (lm : mat N) (i j : nat) : N :=
  match mget lm i j with Some v => v | None => nan end.

(** The windowing function accepts cell (i,j) of an n x m problem. *)
Definition in_window (w : winfun N) (kw : kwargs N) (n m i j : nat) : Prop :=
  match w with
  | NoWindow => True
  | _ => call_window w (Z.of_nat i) (Z.of_nat j) (Z.of_nat n) (Z.of_nat m) kw = Ok true
  end.

(** Closed begin: the walk starts at (0,0), whose local cost is paid. *)
Definition closed_source (lm : mat N) (i j : nat) : option N :=
  if (i =? 0) && (j =? 0) then Some (cell lm 0 0) else None.
Definition closed_walk (rules : list rule) (lm : mat N) (w : winfun N) (kw : kwargs N) :=
  walk rules (cell lm) (nr lm) (nc lm) (closed_source lm) (in_window w kw (nr lm) (nc lm)).
Definition closed_optimum (rules : list rule) (lm : mat N) (w : winfun N) (kw : kwargs N) :=
  is_optimum rules (cell lm) (nr lm) (nc lm) (closed_source lm) (in_window w kw (nr lm) (nc lm)).

(** Open begin: a virtual row of zero cost is put before the query; a walk starts
    anywhere in that row at cost 0 and then leaves it.  Row i+1 of the padded
    problem is row i of the original one. *)
Definition padded (lm : mat N) : mat N :=
  Mat (nr lm + 1) (nc lm) (repeat (ofZ 0) (nc lm) ++ dat lm).
Definition open_source (i j : nat) : option N := if i =? 0 then Some (ofZ 0) else None.
Definition open_walk (rules : list rule) (lm : mat N) (w : winfun N) (kw : kwargs N) :=
  walk rules (cell (padded lm)) (nr lm + 1) (nc lm) open_source
       (fun i j => 1 <= i /\ in_window w kw (nr lm + 1) (nc lm) i j).
Definition open_optimum (rules : list rule) (lm : mat N) (w : winfun N) (kw : kwargs N) :=
  is_optimum rules (cell (padded lm)) (nr lm + 1) (nc lm) open_source
       (fun i j => 1 <= i /\ in_window w kw (nr lm + 1) (nc lm) i j).

End Spec.
Arguments rule N : clear implicits.
