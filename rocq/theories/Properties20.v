(** Properties20.v - C69, C70: what calls leave behind and what results share.

    Only theorem statements, each closed by a lemma proved elsewhere, and concrete cases
    that meet their hypotheses.  See Properties1.v for the arithmetic [N] and [NumLaws]. *)
From Verif Require Import Base Num StepPattern Window Core Backtrack Dtw Spec Api Tables Vocab Terms.
From Verif Require Import NumQ NumQLaws NumF NumFLaws.
From Verif Require Import CountPaths Warp Examples Examples8 Examples11 Heap HeapSpec HeapFrame HeapRefine HeapDtw HeapMain HeapThm Examples18 HeapGoSpec HeapGo Examples34.
Open Scope string_scope.
Open Scope list_scope.
Open Scope nat_scope.

(** C69: importing the package creates the default dictionary, empty, and the named step patterns. *)
Theorem C69_import : forall (N : Num),
  imported (N:=N) (fst (import_package (N:=N))) (snd (import_package (N:=N))).
Proof. exact (fun N  => @import_gives N). Qed.
Print Assumptions C69_import.

(** C69: any sequence of calls and new objects, whether the calls return or raise, leaves every object that existed
    before as it was: arrays, dictionaries, step patterns and earlier results. *)
Theorem C69_calls_change_nothing : forall (N : Num) E es (h h' : heap N),
  (forall e, In e es -> is_call e) -> run E es h = Some h' -> unchanged h h'.
Proof. exact (fun N  => @calls_change_nothing N). Qed.
Print Assumptions C69_calls_change_nothing.

(** C69: a call ends as the function of the values of its arguments says, its result is a new object with those
    attributes, and nothing that existed has changed, also when it raises. *)
Theorem C69_call_outcome : forall (N : Num) E (h : heap N) a x y (o : opts N),
  worth E h a x y o ->
  agree (dtw (ha_cdist a) x y o) (h_dtw E a h) (fun d l h' => load_result h' l = Some d /\ List.length h <= l) /\ unchanged h (snd (h_dtw E a h)).
Proof. exact (fun N  => @call_outcome N). Qed.
Print Assumptions C69_call_outcome.

(** C69: calls made before do not matter: the outcome is a function of the values that the arguments had before them. *)
Theorem C69_call_after_calls : forall (N : Num) E es (h h1 : heap N) a x y (o : opts N),
  worth E h a x y o -> (forall e, In e es -> is_call e) -> run E es h = Some h1 ->
  agree (dtw (ha_cdist a) x y o) (h_dtw E a h1) (fun d l h' => load_result h' l = Some d).
Proof. exact (fun N  => @call_after_calls N). Qed.
Print Assumptions C69_call_after_calls.

(** C69: a step pattern by name and no window_args: as right after the import, whatever calls were made since. *)
Theorem C69_call_with_defaults : forall (N : Num) E es (h h1 : heap N) a x y (o : opts N) s,
  imported E h -> load_nd h (ha_x a) = Some x ->
  match ha_y a with None => y = None | Some r => exists v, load_nd h r = Some v /\ y = Some v end ->
  ha_step_pattern a = HName s -> ha_window_args a = None ->
  o = mkOpts (SPName s) (ha_window_type a) [] (ha_keep_internals a) (ha_distance_only a) (ha_open_end a) (ha_open_begin a) ->
  (forall e, In e es -> is_call e) -> run E es h = Some h1 ->
  agree (dtw (ha_cdist a) x y o) (h_dtw E a h1) (fun d l h' => load_result h' l = Some d).
Proof. exact (fun N  => @call_with_defaults N). Qed.
Print Assumptions C69_call_with_defaults.

(** C69: the attributes of an earlier result are the same after any further calls. *)
Theorem C69_results_stay : forall (N : Num) E es (h h1 : heap N) l d,
  load_result h l = Some d -> (forall e, In e es -> is_call e) -> run E es h = Some h1 -> load_result h1 l = Some d.
Proof. exact (fun N  => @results_stay N). Qed.
Print Assumptions C69_results_stay.

(** C69: the default dictionary stays empty and the named step patterns stay what they are. *)
Theorem C69_import_stays : forall (N : Num) E es (h h1 : heap N),
  imported E h -> (forall e, In e es -> is_call e) -> run E es h = Some h1 -> imported E h1.
Proof. exact (fun N  => @imported_stays N). Qed.
Print Assumptions C69_import_stays.

(** C69: T() makes a new step pattern with a new array. *)
Theorem C69_transposed_is_new : forall (N : Num) (h : heap N) sp v,
  load_pattern h sp = Some v ->
  exists l h' m, h_T sp h = (Ok l, h') /\ unchanged h h' /\ load_pattern h' l = Some (T v) /\
    nth_error h' l = Some (BPattern m (hint (T v))) /\ List.length h <= l /\ List.length h <= m.
Proof. exact (fun N  => @T_is_new N). Qed.
Print Assumptions C69_transposed_is_new.

(** C69: countPaths() changes nothing and its outcome is a function of the result. *)
Theorem C69_countPaths_reads : forall (N : Num) (h : heap N) l d,
  load_result h l = Some d -> h_countPaths l h = (countPaths d, h).
Proof. exact (fun N  => @countPaths_reads N). Qed.
Print Assumptions C69_countPaths_reads.

(** C69: warpArea() likewise. *)
Theorem C69_warpArea_reads : forall (N : Num) (h : heap N) l d,
  load_result h l = Some d -> h_warpArea l h = (warpArea d, h).
Proof. exact (fun N  => @warpArea_reads N). Qed.
Print Assumptions C69_warpArea_reads.

(** C69: warp() returns a new vector, changes nothing else and its outcome is a function of the result. *)
Theorem C69_warp_reads : forall (N : Num) (h : heap N) l d b,
  load_result h l = Some d ->
  agree (warp d b) (h_warp l b h) (fun ii r h' => load_idx h' (Ref r []) = Some ii /\ List.length h <= r /\ unchanged h h').
Proof. exact (fun N  => @warp_reads N). Qed.
Print Assumptions C69_warp_reads.

(** C69: every sequence of proper calls runs to its end, also when some of them raise: a failed call does not keep the next one from working. *)
Theorem C69_history_goes_on : forall (N : Num) E es (h : heap N),
  (forall e, In e es -> proper_call E h e) -> exists h', run E es h = Some h' /\ unchanged h h'.
Proof. exact (fun N  => @history_goes_on N). Qed.
Print Assumptions C69_history_goes_on.

(** C69: in particular after a call of dtw() that raises. *)
Theorem C69_after_exception : forall (N : Num) E es (h : heap N) a x y (o : opts N) e,
  worth E h a x y o -> dtw (ha_cdist a) x y o = Raise e ->
  (forall e', In e' es -> proper_call E h e') ->
  exists h1 h2, fst (h_dtw E a h) = Raise e /\ snd (h_dtw E a h) = h1 /\ unchanged h h1 /\ run E (EvDtw a :: es) h = run E es h1 /\ run E es h1 = Some h2.
Proof. exact (fun N  => @after_exception N). Qed.
Print Assumptions C69_after_exception.

Example C69_case_history : imported E18 h18 /\ (forall e, In e hist18 -> is_call e) /\ exists h1, run E18 hist18 h18 = Some h1 /\
  raised (h_dtw E18 (call18 WTNone "symmetric2" true) h18) = true /\ left_ok (h_dtw E18 (call18 WTNone "asymmetric" true) h18) = true /\
  (List.length h18 + 25 <? List.length h1) = true.
Proof. exact history18. Qed.

Example C69_case_goes_on : (forall e, In e hist18 -> proper_call E18 h18 e) /\
  (exists e, dtw (cdist_of sq) (xa [1; 2; 4]%Z) (Some (xa [1; 3; 3; 4]%Z)) (opts18 WTNone "symmetric2" true) = Raise e) /\
  (exists e, dtw (cdist_of sq) (xa [1; 2; 4]%Z) (Some (xa [1; 3; 3; 4]%Z)) (opts18 WTNone "no such pattern" false) = Raise e).
Proof. exact goes_on34. Qed.

Example C69_case_after : exists h1 d, run E18 hist18 h18 = Some h1 /\ dtw (cdist_of sq) (xa [1; 2; 4]%Z) (Some (xa [1; 3; 3; 4]%Z)) (opts18 WTNone "symmetric2" false) = Ok d /\
  exists l h2, h_dtw E18 (call18 WTNone "symmetric2" false) h1 = (Ok l, h2) /\ load_result h2 l = Some d.
Proof. exact after18. Qed.

Example C69_case_pattern : exists v, load_pattern h18 4 = Some v /\ (List.length (mx v) =? 6) = true.
Proof. exact pattern18. Qed.

(** C70: the matrices and index vectors of a result are memory allocated by the call; its step pattern and window
    arguments are the objects the call used, its query and reference the arrays given (vectors as columns). *)
Theorem C70_what_results_share : forall (N : Num) E (h : heap N) a x y (o : opts N) l h',
  worth E h a x y o -> h_dtw E a h = (Ok l, h') -> result_refs E h a h' l.
Proof. exact (fun N  => @what_results_share N). Qed.
Print Assumptions C70_what_results_share.

(** C70: whatever happens afterwards (calls, new objects, in-place changes of anything but the memory that the call
    allocated), the result keeps its matrices, alignment, distances and flags. *)
Theorem C70_own_memory : forall (N : Num) E (h : heap N) a x y (o : opts N) l (h1 : heap N) d es (h2 : heap N) d2,
  worth E h a x y o -> h_dtw E a h = (Ok l, h1) -> load_result h1 l = Some d ->
  writes_only (outside (List.length h) (List.length h1)) es -> run E es h1 = Some h2 -> load_result h2 l = Some d2 ->
  own d2 = own d.
Proof. exact (fun N  => @own_stays N). Qed.
Print Assumptions C70_own_memory.

(** C70: what is shared shows the current state of the shared objects. *)
Theorem C70_shared_objects : forall (N : Num) E (h : heap N) a x y (o : opts N) l (h1 : heap N) es (h2 : heap N) d2,
  worth E h a x y o -> h_dtw E a h = (Ok l, h1) ->
  writes_only (outside (List.length h) (List.length h1)) es -> run E es h1 = Some h2 -> load_result h2 l = Some d2 ->
  load_dict h2 (args_loc E a) = Some (r_windowArgs d2) /\
  (exists sp, pattern_loc E (ha_step_pattern a) = Some sp /\ load_pattern h2 sp = Some (r_stepPattern d2)) /\
  (ha_keep_internals a = true -> forall yr, ha_y a = Some yr ->
     r_query d2 = option_map (@nd_val N) (load_nd h2 (column_ref h (ha_x a))) /\
     r_reference d2 = option_map (@nd_val N) (load_nd h2 (column_ref h yr))).
Proof. exact (fun N  => @shared_follows N). Qed.
Print Assumptions C70_shared_objects.

(** C70: two results never share memory that either allocated. *)
Theorem C70_results_disjoint : forall (N : Num) E (h : heap N) a x y (o : opts N) l (h1 : heap N) es (h2 : heap N) a' x' y' o' l' (h3 : heap N) F F',
  worth E h a x y o -> h_dtw E a h = (Ok l, h1) -> run E es h1 = Some h2 ->
  worth E h2 a' x' y' o' -> h_dtw E a' h2 = (Ok l', h3) ->
  load_fields h1 l = Some F -> load_fields h3 l' = Some F' ->
  l <> l' /\ forall k k' r r', In k own_keys -> In k' own_keys -> field_ref F k = Some r -> field_ref F' k' = Some r' -> at_loc r <> at_loc r'.
Proof. exact (fun N  => @results_disjoint N). Qed.
Print Assumptions C70_results_disjoint.

Example C70_case_sharing : exists l h1 d h2 d2, worth E18 h18 (call18 WTNone "symmetric2" false) (xa [1; 2; 4]%Z) (Some (xa [1; 3; 3; 4]%Z)) (opts18 WTNone "symmetric2" false) /\
  h_dtw E18 (call18 WTNone "symmetric2" false) h18 = (Ok l, h1) /\ load_result h1 l = Some d /\
  writes_only (outside (List.length h18) (List.length h1)) change18 /\ run E18 change18 h1 = Some h2 /\ load_result h2 l = Some d2 /\
  same_nd (r_query d) [1; 2; 4]%Z = true /\ same_nd (r_query d2) [9; 9; 9]%Z = true /\ same_mat (r_localCostMatrix d2) [0; 4; 4; 9; 1; 1; 1; 4; 9; 1; 1; 0]%Z = true.
Proof. exact sharing18. Qed.

Example C70_case_default_dict : result_args18 = true.
Proof. exact default_dict_shared. Qed.
