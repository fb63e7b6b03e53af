(** Terms.v - the remaining terms used in the statements of the property theorems (no proofs). *)
From Coq Require Import QArith Qcanon.
From Verif Require Import Base Num StepPattern Window Core Backtrack Dtw Spec Api Tables Vocab NumQ.
Open Scope string_scope.
Open Scope list_scope.
Open Scope nat_scope.

(** ** Families of predefined patterns *)
(** Overall slope limits (reference steps per query step): the least is lo_num/lo_den,
    the greatest hi_num/hi_den. *)
Record limits := Limits { lo_num : nat; lo_den : nat; hi_num : nat; hi_den : nat }.

Definition slope_limits : list (string * limits) :=
  [ ("asymmetric",          Limits 0 1 2 1);
    ("_asymmetricItakura",  Limits 1 2 2 1);
    ("symmetricP05",        Limits 1 3 3 1);
    ("asymmetricP05",       Limits 1 3 3 1);
    ("symmetricP1",         Limits 1 2 2 1);
    ("asymmetricP1",        Limits 1 2 2 1);
    ("symmetricP2",         Limits 2 3 3 2);
    ("asymmetricP2",        Limits 2 3 3 2);
    ("typeIa",              Limits 1 2 2 1);
    ("typeIb",              Limits 1 2 2 1);
    ("typeIc",              Limits 1 2 2 1);
    ("typeId",              Limits 1 2 2 1);
    ("typeIas",             Limits 1 2 2 1);
    ("typeIbs",             Limits 1 2 2 1);
    ("typeIcs",             Limits 1 2 2 1);
    ("typeIds",             Limits 1 2 2 1);
    ("typeIIa",             Limits 1 2 2 1);
    ("typeIIb",             Limits 1 2 2 1);
    ("typeIIc",             Limits 1 2 2 1);
    ("typeIId",             Limits 1 2 2 1);
    ("typeIIIc",            Limits 1 2 2 1);
    ("typeIVc",             Limits 1 3 3 1);
    ("mori2006",            Limits 1 2 2 1);
    ("rigid",               Limits 1 1 1 1) ].

(** Patterns without a slope limit. *)
Definition unlimited : list string :=
  ["symmetric1"; "symmetric2"; "symmetricP0"; "asymmetricP0"; "_asymmetricP0b"; "_symmetricVelichkoZagoruyko"].

(** The lengths n (query) and m (reference) respect the limits. *)
Definition within_limits (s : limits) (n m : nat) : Prop :=
  lo_num s * (n - 1) <= lo_den s * (m - 1) /\ hi_den s * (m - 1) <= hi_num s * (n - 1).

(** Predefined patterns that are symmetric: exchanging the roles of query and reference gives the same set of productions. *)
Definition symmetric_names : list string :=
  ["symmetric1"; "symmetric2"; "symmetricP0"; "symmetricP05"; "symmetricP1"; "symmetricP2";
   "typeIa"; "typeIb"; "typeId"; "typeIas"; "typeIbs"; "typeIds"; "typeIIa"; "typeIIb"; "typeIId"].

(** The productions of mvmStepPattern(e): one query step, 1 to e reference steps. *)
Definition mvm_productions (e : nat) : list wrule := map (fun k => W 1 k [(0, 0, (1, 1)%Z)]) (seq 1 e).

(** Patterns whose path has exactly one point per query index. *)
Definition one_per_query : list string := ["asymmetric"; "rigid"].

(** Patterns with hint "N" all of whose productions advance in the reference. *)
Definition advancing_names : list string :=
  ["asymmetricP05"; "asymmetricP1"; "asymmetricP2"; "typeIc"; "typeIcs"; "typeIIc"; "typeIIIc"; "typeIVc"; "rigid"].

(** What a normalization hint promises: the weights of a production (di, dj) sum to a*di + b*dj. *)
Definition hint_law (h : string) : option (nat * nat) :=
  if String.eqb h "N" then Some (1, 0) else if String.eqb h "N+M" then Some (1, 1)
  else if String.eqb h "M" then Some (0, 3) else None.

(** Predefined patterns with a negative weight. *)
Definition negative_names : list string := ["_symmetricVelichkoZagoruyko"].

(** The coordinate of a point that belongs to the target series of warp(). *)
Definition target_coord (ref : bool) (p : nat * nat) : nat := if ref then fst p else snd p.

(** Offsets [a :: l], ending at 0, that go down by at most one at a time. *)
Fixpoint small_steps (a : nat) (l : list nat) : bool :=
  match l with
  | [] => a <=? 1
  | b :: l' => (a <=? S b) && small_steps b l'
  end.

(** Predefined patterns all of whose productions are gapless. *)
Definition wgapless_rule (ref : bool) (r : wrule) : bool :=
  small_steps (target_coord ref (w_di r, w_dj r))
    (map (fun a => target_coord ref (fst a))
         (filter (fun a => negb ((fst (fst a) =? 0) && (snd (fst a) =? 0))) (w_add r))).

Definition gapless_names (ref : bool) : list string :=
  map fst (filter (fun kl => forallb (wgapless_rule ref) (snd kl)) predefined).

(** ** Any arithmetic *)
Section Terms.
Context {N : Num}.

(** Apply a function to the value returned, if any. *)
Definition omap {A B} (f : A -> B) (x : out A) : out B := bind x (fun a => Ok (f a)).

(** The same options with distance_only set to [b]. *)
Definition set_distance_only (b : bool) (o : opts N) : opts N :=
  mkOpts (o_step_pattern o) (o_window_type o) (o_window_args o) (o_keep_internals o) b
         (o_open_end o) (o_open_begin o).

(** The same options with keep_internals set to [b]. *)
Definition set_keep_internals (b : bool) (o : opts N) : opts N :=
  mkOpts (o_step_pattern o) (o_window_type o) (o_window_args o) b (o_distance_only o)
         (o_open_end o) (o_open_begin o).

(** The same options with open_end set to [b]. *)
Definition set_open_end (b : bool) (o : opts N) : opts N :=
  mkOpts (o_step_pattern o) (o_window_type o) (o_window_args o) (o_keep_internals o)
         (o_distance_only o) b (o_open_begin o).

(** The result without the alignment fields. *)
Definition without_alignment (d : DTW N) : DTW N :=
  mkDTW (r_N d) (r_M d) (r_openEnd d) (r_openBegin d) (r_windowFunction d) (r_windowArgs d)
        (r_stepPattern d) (r_jmin d) (r_distance d) (r_normalizedDistance d) None
        (r_costMatrix d) (r_directionMatrix d) (r_localCostMatrix d) (r_query d) (r_reference d).

(** The result without the internals. *)
Definition without_internals (d : DTW N) : DTW N :=
  mkDTW (r_N d) (r_M d) (r_openEnd d) (r_openBegin d) (r_windowFunction d) (r_windowArgs d)
        (r_stepPattern d) (r_jmin d) (r_distance d) (r_normalizedDistance d) (r_map d)
        None None None None None.

(** The result without the two series. *)
Definition without_series (d : DTW N) : DTW N :=
  mkDTW (r_N d) (r_M d) (r_openEnd d) (r_openBegin d) (r_windowFunction d) (r_windowArgs d)
        (r_stepPattern d) (r_jmin d) (r_distance d) (r_normalizedDistance d) (r_map d)
        (r_costMatrix d) (r_directionMatrix d) (r_localCostMatrix d) None None.

(** the options of the call on a prefix: same pattern and window *)
Definition same_problem (o o' : opts N) : Prop :=
  o_step_pattern o' = o_step_pattern o /\ o_window_type o' = o_window_type o /\
  o_window_args o' = o_window_args o /\ o_open_begin o' = o_open_begin o.

(** The mapping with query and reference exchanged. *)
Definition swap_mapping (mp : mapping) : mapping :=
  Mapping (index2 mp) (index1 mp) (index2s mp) (index1s mp) (stepsTaken mp).

(** A production with query and reference exchanged. *)
Definition T_rule (r : rule N) : rule N :=
  Rule (r_dj r) (r_di r) (map (fun a => (snd (fst a), fst (fst a), snd a)) (r_add r)).

(** A function applied to every cell. *)
Definition map_mat {A B} (h : A -> B) (g : mat A) : mat B := Mat (nr g) (nc g) (map h (dat g)).

(** A set of productions closed under that exchange. *)
Definition self_transposed (rules : list (rule N)) : Prop := forall r, In r rules -> In (T_rule r) rules.

(** A window that does not distinguish query and reference. *)
Definition symmetric_window (w : winfun N) (kw : kwargs N) (n m : nat) : Prop :=
  window_total w kw m n /\
  forall i j, i < n -> j < m -> (in_window w kw m n j i <-> in_window w kw n m i j).

(** The arguments of the Sakoe-Chiba and slanted band windows. *)
Definition band (ws : N) : kwargs N := [("window_size", ws)].

(** The same result with another window recorded in it. *)
Definition relabel_window (d : DTW N) (w : winfun N) (kw : kwargs N) : DTW N :=
  mkDTW (r_N d) (r_M d) (r_openEnd d) (r_openBegin d) w kw (r_stepPattern d) (r_jmin d)
    (r_distance d) (r_normalizedDistance d) (r_map d) (r_costMatrix d) (r_directionMatrix d)
    (r_localCostMatrix d) (r_query d) (r_reference d).

(** The same options with another window. *)
Definition set_window (o : opts N) (t : wtype N) (kw : kwargs N) : opts N :=
  mkOpts (o_step_pattern o) t kw (o_keep_internals o) (o_distance_only o) (o_open_end o) (o_open_begin o).

(** With open begin the first point is not fixed; intermediate points stay inside the
    query if no production lists a point of the row it starts from. *)
Definition leaves_row (rules : list (rule N)) : Prop :=
  forall r a, In r rules -> In a (r_add r) -> 0 < r_di r -> fst (fst a) < r_di r.

(** Every production advances in the reference and no intermediate point is in the column it starts from. *)
Definition advancing (rules : list (rule N)) : Prop :=
  forall r, In r rules -> 1 <= r_dj r /\ forall a, In a (r_add r) -> snd (fst a) < r_dj r.

(** a production that moves by (1,1) and charges only its end point, finite weights *)
Definition diagonal_rule (r : rule N) : Prop :=
  r_di r = 1 /\ r_dj r = 1 /\ forall a, In a (r_add r) -> fst a = (0, 0) /\ isfin (snd a) = true.

(** Every production is one query step that charges its end point only. *)
Definition row_by_row (rules : list (rule N)) : Prop :=
  forall r, In r rules -> r_di r = 1 /\ forall a, In a (r_add r) -> fst a = (0, 0).

(** Value of the cumulative cost matrix at (i-a, j-b) when there is such a cell. *)
Definition before (g : mat N) (i j a b : nat) (f : N -> N) : list N :=
  if (a <=? i) && (b <=? j) then map f (match mget g (i - a) (j - b) with Some v => [v] | None => [] end) else [].

(** [v] is the least of the candidates that are below +infinity; NaN if there is none. *)
Definition least_of (v : N) (cands : list N) : Prop :=
  (In v cands /\ good v /\ forall c, In c cands -> good c -> leb v c = true) \/
  (isnan v = true /\ forall c, In c cands -> ~ good c).

(** The computation returns a value or raises a Python exception: it does not access
    memory out of bounds, overflow an int, terminate the process or run forever. *)
Definition safe {A} (r : out A) : Prop := (exists a, r = Ok a) \/ (exists e, r = Raise e).

(** User-defined callables passed to dtw() behave. *)
Definition safe_window (w : winfun N) : Prop :=
  match w with UserWin f => forall i j n m kw, safe (f i j n m kw) | _ => True end.

(** The value can be converted to a C int. *)
Definition is_int {N : Num} (v : N) (z : Z) : Prop := trunc v = Some z /\ (INT_MIN < z <= INT_MAX)%Z.

(** A pattern whose first three columns are C ints and whose size fits. *)
Definition int_pattern {N : Num} (sp : steppat N) : Prop :=
  (4 * Z.of_nat (List.length (mx sp)) <= INT_MAX)%Z /\
  Forall (fun r => exists a b c, is_int (c0 r) a /\ is_int (c1 r) b /\ is_int (c2 r) c) (mx sp).

(** A production that passes through every target index between its end points. *)
Definition gapless_rule (ref : bool) (r : rule N) : bool :=
  small_steps (target_coord ref (r_di r, r_dj r))
    (map (fun a => target_coord ref (fst a))
         (filter (fun a => negb ((fst (fst a) =? 0) && (snd (fst a) =? 0))) (r_add r))).

Definition gapless (ref : bool) (rules : list (rule N)) : Prop :=
  forall r, In r rules -> gapless_rule ref r = true.

(** Size up to which the sums of indices are exact in binary64. *)
Definition warp_size_ok (lm : mat N) (d : DTW N) : Prop :=
  ((Z.of_nat (List.length (mx (r_stepPattern d))) + 1) * (Z.of_nat (nr lm + nc lm) * Z.of_nat (nr lm + nc lm)) < 2 ^ 53)%Z.

(** The path has a point that the window recorded in the result rejects. *)
Definition rejected_point {N : Num} (lm : mat N) (d : DTW N) : Prop :=
  exists mp t i j, r_map d = Some mp /\ nth_error (index1 mp) t = Some i /\ nth_error (index2 mp) t = Some j /\
    ~ in_window (r_windowFunction d) (r_windowArgs d) (nr lm) (nc lm) (Z.to_nat i) (Z.to_nat j).

(** Every local cost is at most 2^960 in absolute value (binary64, 2^960 = 9.7e288). *)
Definition moderate {N : Num} (lm : mat N) : Prop :=
  forall i j, i < nr lm -> j < nc lm -> leb (vabs (cell lm i j)) (ofZ (2 ^ 960)) = true.

End Terms.

(** ** Exact arithmetic *)
(** Every local cost lies between [lo] and [hi]. *)
Definition costs_between (lo hi : NumQ) (lm : mat NumQ) : Prop :=
  forall i j, i < nr lm -> j < nc lm -> leb lo (cell lm i j) = true /\ leb (cell lm i j) hi = true.

(** The weights of all the charges made by the productions [ks], added to [s]. *)
Fixpoint total_weight (rules : list (rule NumQ)) (s : NumQ) (ks : list nat) : NumQ :=
  match ks with
  | [] => s
  | k :: ks' =>
      match rule_no rules k with
      | Some r => total_weight rules (fold_left add (map snd (r_add r)) s) ks'
      | None => nan
      end
  end.

(** Every local cost is a number (exact arithmetic). *)
Definition all_finite (lm : mat NumQ) : Prop :=
  forall i j, i < nr lm -> j < nc lm -> isfin (cell lm i j) = true.

(** Every local cost multiplied by c. *)
Definition scaled (c : Qc) (lm : mat NumQ) : mat NumQ := map_mat (fun v => mul (XFin c : NumQ) v) lm.

(** [plus_cost c lm]: every local cost raised by c *)
Definition plus_cost (c : Qc) (lm : mat NumQ) : mat NumQ :=
  Mat (nr lm) (nc lm) (map (fun v => @add NumQ v (XFin c)) (dat lm)).

(** All weights are finite. *)
Definition finite_weights (rules : list (rule NumQ)) : Prop :=
  forall r a, In r rules -> In a (r_add r) -> isfin (snd a) = true.
