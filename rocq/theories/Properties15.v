(** Properties15.v - C63.

    Only theorem statements, each closed by a lemma proved elsewhere, and concrete cases
    that meet their hypotheses.  See Properties1.v for the arithmetic [N] and [NumLaws]. *)
From Flocq Require Import BinarySingleNaN.
From Verif Require Import Base Num StepPattern Window Core Backtrack Dtw Spec Api Tables Vocab Terms.
From Verif Require Import NumQ NumQLaws NumF NumFLaws.
From Verif Require Import IntSpec Exact FloatSpec ScaleSpec Thm33 Examples11 Examples13.
Open Scope string_scope.
Open Scope list_scope.
Open Scope nat_scope.

(** C63: predefined step patterns: multiplying all costs by a power of two multiplies the distances exactly and changes nothing else. *)
Theorem C63_unit_named : forall fused e cdist cdist' (g g' : mat f64) (o : opts (Exact.double fused)) kn d,
  o_step_pattern o = SPName kn -> List.length (dat g) = nr g * nc g -> 0 < nr g -> unit_changed e g g' ->
  dtw cdist (NdArray (Nd2 (g : mat (Exact.double fused))) true true) None o = Ok d ->
  exists d', dtw cdist' (NdArray (Nd2 (g' : mat (Exact.double fused))) true true) None o = Ok d' /\ unit_changed_result e d d'.
Proof. exact unit_named. Qed.
Print Assumptions C63_unit_named.

(** C63: any step pattern of at most a million rows, series or matrix. *)
Theorem C63_unit : forall fused e cdist cdist' x y x' y' (g g' : mat f64) (o : opts (Exact.double fused)) (l : list wrule) (d : DTW (Exact.double fused)),
  @costs_of (Exact.double fused) cdist x y g -> @costs_of (Exact.double fused) cdist' x' y' g' ->
  (o_open_begin o = true \/ native_array x' y') ->
  pattern_rules (r_stepPattern d) (productions l) -> wgood l -> (Z.of_nat (wsize l) <= 2 ^ 20)%Z -> 0 < nr g ->
  unit_changed e g g' ->
  dtw cdist x y o = Ok d ->
  exists d' : DTW (Exact.double fused), dtw cdist' x' y' o = Ok d' /\ unit_changed_result e d d'.
Proof. exact unit_any. Qed.
Print Assumptions C63_unit.

Example C63_case : o_step_pattern u_o = SPName "asymmetricP05" /\ List.length (dat u_g) = nr u_g * nc u_g /\ 0 < nr u_g /\
  unit_changed 3 u_g u_g8 /\
  exists d, dtw no_dist (NdArray (Nd2 (u_g : mat (Exact.double true))) true true) None u_o = Ok d.
Proof. exact unit_case. Qed.

(** C63: multiplication by ten can change the alignment. *)
Theorem C63_ten_differs : exists d d', f_dtw false no_dist t_g t_o = Ok d /\ f_dtw false no_dist t_g10 t_o = Ok d' /\ r_map d <> r_map d'.
Proof. exact ten_differs. Qed.
