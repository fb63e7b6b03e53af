(** HeapSpec.v - vocabulary for C69 and C70: what the arguments of a call are worth, objects that
    existed before, what a result owns. *)
From Verif Require Import Base Num StepPattern Window Core Backtrack Dtw CountPaths Warp Heap.
Open Scope string_scope.
Open Scope list_scope.
Open Scope nat_scope.

Section HeapSpec.
Context {N : Num}.

(** The value of a step_pattern argument. *)
Inductive pattern_worth (E : env) (h : heap N) : hsparg -> sparg N -> Prop :=
| worth_object : forall l sp, load_pattern h l = Some sp -> pattern_worth E h (HObj l) (SPObj sp)
| worth_name : forall s l sp, lookup s (e_patterns E) = Some l -> load_pattern h l = Some sp ->
    lookup s pattern_table = Some sp -> pattern_worth E h (HName s) (SPName s)
| worth_unknown : forall s, lookup s (e_patterns E) = None -> lookup s (@pattern_table N) = None ->
    pattern_worth E h (HName s) (SPName s).

(** The values of the arguments of a call in a heap: two arrays (or one) and the options. *)
Record worth (E : env) (h : heap N) (a : hargs N) (x : ndarray N) (y : option (ndarray N)) (o : opts N) : Prop := mkWorth {
  w_x : load_nd h (ha_x a) = Some x;
  w_y : match ha_y a with None => y = None | Some r => exists v, load_nd h r = Some v /\ y = Some v end;
  w_pattern : pattern_worth E h (ha_step_pattern a) (o_step_pattern o);
  w_args : load_dict h (match ha_window_args a with Some l => l | None => e_default_args E end) = Some (o_window_args o);
  w_window : o_window_type o = ha_window_type a;
  w_keep : o_keep_internals o = ha_keep_internals a;
  w_donly : o_distance_only o = ha_distance_only a;
  w_end : o_open_end o = ha_open_end a;
  w_begin : o_open_begin o = ha_open_begin a
}.

(** Every object of [h] is still there and unchanged in [h']. *)
Definition unchanged (h h' : heap N) : Prop := exists t, h' = h ++ t.

(** The objects as the package creates them when it is imported. *)
Definition imported (E : env) (h : heap N) : Prop :=
  load_dict h (e_default_args E) = Some [] /\
  forall s, match lookup s (e_patterns E) with
            | Some l => exists sp, load_pattern h l = Some sp /\ lookup s pattern_table = Some sp
            | None => lookup s (@pattern_table N) = None
            end.

(** An event that is a call of the package or creates an object: anything but an in-place change made by the
    program that uses the package. *)
Definition is_call (e : event N) : Prop := match e with EvWrite _ _ => False | _ => True end.

(** In-place changes made by the program only concern objects that [ok] admits. *)
Definition writes_only (ok : loc -> Prop) (es : list (event N)) : Prop :=
  forall l b, In (EvWrite l b) es -> ok l.

(** Not among the objects [lo], ..., [hi - 1]. *)
Definition outside (lo hi : nat) (l : loc) : Prop := l < lo \/ hi <= l.

(** What a result owns: everything but the step pattern, the window arguments and the two series. *)
Definition own (d : DTW N) := (r_N d, r_M d, r_openEnd d, r_openBegin d, r_windowFunction d, r_jmin d, r_distance d,
  r_normalizedDistance d, r_map d, r_costMatrix d, r_directionMatrix d, r_localCostMatrix d).

(** A run on the heap ends as the function [o] of values says: the same exception, or a result [b], left in
    the heap [h'], that stands for the value [a]. *)
Definition agree {A B} (o : out A) (r : out B * heap N) (stands : A -> B -> heap N -> Prop) : Prop :=
  match o, fst r with
  | Ok a, Ok b => stands a b (snd r)
  | Raise e, Raise e' => e = e'
  | Exit, Exit => True
  | UB, UB => True
  | Diverge, Diverge => True
  | _, _ => False
  end.

(** The dictionary that a call uses: the one given, or the default one. *)
Definition args_loc (E : env) (a : hargs N) : loc :=
  match ha_window_args a with Some l => l | None => e_default_args E end.
(** The StepPattern object that a call uses. *)
Definition pattern_loc (E : env) (s : hsparg) : option loc :=
  match s with HObj l => Some l | HName s => lookup s (e_patterns E) end.
(** The series as the result keeps it: the array given, seen as a column if it is a vector. *)
Definition column_ref (h : heap N) (r : ref) : ref :=
  match load_nd h r with
  | Some w => match nd_val w with Nd1 _ => Ref (at_loc r) (views r ++ [AsColumn]) | _ => r end
  | None => r
  end.
(** The attributes of a result that refer to memory of its own. *)
Definition own_keys : list string :=
  ["costMatrix"; "directionMatrix"; "localCostMatrix"; "index1"; "index2"; "index1s"; "index2s"; "stepsTaken"].

(** What the attributes of the result [l] of a call refer to: the call was made in [h] and left [h']. *)
Definition result_refs (E : env) (h : heap N) (a : hargs N) (h' : heap N) (l : loc) : Prop :=
  exists F sp, load_fields h' l = Some F /\ pattern_loc E (ha_step_pattern a) = Some sp /\
    field_ref F "stepPattern" = Some (Ref sp []) /\ field_ref F "windowArgs" = Some (Ref (args_loc E a) []) /\
    (forall k r, In k own_keys -> field_ref F k = Some r -> List.length h <= at_loc r < List.length h') /\
    (ha_keep_internals a = true -> forall y, ha_y a = Some y ->
       field_ref F "query" = Some (column_ref h (ha_x a)) /\ field_ref F "reference" = Some (column_ref h y)) /\
    List.length h <= l < List.length h'.
End HeapSpec.
