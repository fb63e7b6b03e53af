(** Properties13.v - C61.

    Only theorem statements, each closed by a lemma proved elsewhere, and concrete cases
    that meet their hypotheses.  See Properties1.v for the arithmetic [N] and [NumLaws]. *)
From Verif Require Import Base Num StepPattern Window Core Backtrack Dtw Spec Api Tables Vocab Terms.
From Verif Require Import NumQ NumQLaws NumF NumFLaws.
From Verif Require Import Laws4 IntSpec Thm31 Examples Examples11.
Open Scope string_scope.
Open Scope list_scope.
Open Scope nat_scope.

(** C61: integer costs, predefined patterns with whole weights: the same result in every arithmetic. *)
Theorem C61_integers_exact_named : forall a b cdist cdist' (g : mat (option Z)) (o : iopts) kn c d,
  i_pattern o = IName kn -> In kn whole_names ->
  List.length (dat g) = nr g * nc g -> 0 < nr g -> (0 <= c)%Z -> costs_within c g ->
  (weight_rate kn * c * (Z.of_nat (nr g) + Z.of_nat (nc g)) <= 2 ^ 53)%Z ->
  (i_open_end o = true -> weight_rate kn * c * (Z.of_nat (nr g) + Z.of_nat (nc g)) ^ 2 < 2 ^ 52)%Z ->
  (forall s, i_window o = ISakoeChiba s -> (Z.abs s <= 2 ^ 53)%Z) ->
  int_dtw a cdist g o = Ok d ->
  exists d', int_dtw b cdist' g o = Ok d' /\ same_int_result d d'.
Proof. exact integers_exact_named. Qed.
Print Assumptions C61_integers_exact_named.

(** C61: integer costs, any pattern with whole weights. *)
Theorem C61_integers_exact : forall a b cdist cdist' (g : mat (option Z)) (o : iopts) l c k d,
  irules (i_pattern o) = Some l -> wgood l -> whole_weights k l -> (1 <= k)%Z ->
  List.length (dat g) = nr g * nc g -> 0 < nr g -> (0 <= c)%Z -> costs_within c g ->
  (k * c * (Z.of_nat (nr g) + Z.of_nat (nc g)) <= 2 ^ 53)%Z ->
  (i_open_end o = true -> k * c * (Z.of_nat (nr g) + Z.of_nat (nc g)) ^ 2 < 2 ^ 52)%Z ->
  (forall s, i_window o = ISakoeChiba s -> (Z.abs s <= 2 ^ 53)%Z) ->
  int_dtw a cdist g o = Ok d ->
  exists d', int_dtw b cdist' g o = Ok d' /\ same_int_result d d'.
Proof. exact integers_exact. Qed.
Print Assumptions C61_integers_exact.

(** C61: two series whose pairwise distances are integers. *)
Theorem C61_integer_series : forall a b cdist cdist' x y x' y' xm ym xm' ym' (g : mat (option Z)) (o : iopts) l c k d,
  matrix_of (nd_val x) = Some xm -> matrix_of (nd_val y) = Some ym -> cdist xm ym = Ok (map_mat int_cost g) ->
  matrix_of (nd_val x') = Some xm' -> matrix_of (nd_val y') = Some ym' -> cdist' xm' ym' = Ok (map_mat int_cost g) ->
  irules (i_pattern o) = Some l -> wgood l -> whole_weights k l -> (1 <= k)%Z ->
  List.length (dat g) = nr g * nc g -> 0 < nr g -> (0 <= c)%Z -> costs_within c g ->
  (k * c * (Z.of_nat (nr g) + Z.of_nat (nc g)) <= 2 ^ 53)%Z ->
  (i_open_end o = true -> k * c * (Z.of_nat (nr g) + Z.of_nat (nc g)) ^ 2 < 2 ^ 52)%Z ->
  (forall s, i_window o = ISakoeChiba s -> (Z.abs s <= 2 ^ 53)%Z) ->
  @dtw (arith a) cdist x (Some y) (int_opts o) = Ok d ->
  exists d', @dtw (arith b) cdist' x' (Some y') (int_opts o) = Ok d' /\ same_int_result d d'.
Proof. exact integer_series. Qed.
Print Assumptions C61_integer_series.

Example C61_case_closed : In "symmetric2" whole_names /\ costs_within 9 int_g /\
  List.length (dat int_g) = nr int_g * nc int_g /\ 0 < nr int_g /\
  (weight_rate "symmetric2" * 9 * (Z.of_nat (nr int_g) + Z.of_nat (nc int_g)) <= 2 ^ 53)%Z /\
  exists d, int_dtw DoublesFused no_dist int_g (int_o "symmetric2" (ISakoeChiba 2) false false) = Ok d.
Proof. exact int_closed_case. Qed.

Example C61_case_open : In "asymmetric" whole_names /\ costs_within 9 int_g /\
  (weight_rate "asymmetric" * 9 * (Z.of_nat (nr int_g) + Z.of_nat (nc int_g)) ^ 2 < 2 ^ 52)%Z /\
  exists d, int_dtw Doubles no_dist int_g (int_o "asymmetric" INoWindow true true) = Ok d.
Proof. exact int_open_case. Qed.
