(** Properties14.v - C62.

    Only theorem statements, each closed by a lemma proved elsewhere, and concrete cases
    that meet their hypotheses.  See Properties1.v for the arithmetic [N] and [NumLaws]. *)
From Flocq Require Import BinarySingleNaN.
From Verif Require Import Base Num StepPattern Window Core Backtrack Dtw Spec Api Tables Vocab Terms.
From Verif Require Import NumQ NumQLaws NumF NumFLaws.
From Verif Require Import IntSpec Exact FloatSpec Thm32 Examples11 Examples12.
Open Scope string_scope.
Open Scope list_scope.
Open Scope nat_scope.

(** C62: predefined patterns with weights 0, 1, 2: contraction of multiply-add changes no bit of the result. *)
Theorem C62_fused_same_named : forall a b cdist cdist' (g : mat f64) (o : fopts) kn d,
  f_pattern o = IName kn -> In kn integer_weights ->
  List.length (dat g) = nr g * nc g -> 0 < nr g -> costs_nonneg_or_nan g ->
  f_dtw a cdist g o = Ok d ->
  exists d', f_dtw b cdist' g o = Ok d' /\ same_bits d d'.
Proof. exact fused_same_named. Qed.
Print Assumptions C62_fused_same_named.

(** C62: any pattern with weights 0, 1, 2. *)
Theorem C62_fused_same : forall a b cdist cdist' (g : mat f64) (o : fopts) (l : list wrule) d,
  irules (f_pattern o) = Some l -> wgood l -> weights_012 l ->
  List.length (dat g) = nr g * nc g -> 0 < nr g -> costs_nonneg_or_nan g ->
  f_dtw a cdist g o = Ok d ->
  exists d', f_dtw b cdist' g o = Ok d' /\ same_bits d d'.
Proof. exact fused_same. Qed.
Print Assumptions C62_fused_same.

(** C62: two series. *)
Theorem C62_fused_series : forall a b cdist cdist' x y x' y' xm ym xm' ym' (g : mat f64) (o : fopts) l d,
  matrix_of (nd_val x) = Some xm -> matrix_of (nd_val y) = Some ym -> cdist xm ym = Ok (g : mat (double a)) ->
  matrix_of (nd_val x') = Some xm' -> matrix_of (nd_val y') = Some ym' -> cdist' xm' ym' = Ok (g : mat (double b)) ->
  irules (f_pattern o) = Some l -> wgood l -> weights_012 l ->
  List.length (dat g) = nr g * nc g -> 0 < nr g -> costs_nonneg_or_nan g ->
  dtw cdist x (Some y) (f_opts a o) = Ok d ->
  exists d', dtw cdist' x' (Some y') (f_opts b o) = Ok d' /\ same_bits d d'.
Proof. exact fused_series. Qed.
Print Assumptions C62_fused_series.

Example C62_case : In "symmetric2" integer_weights /\ List.length (dat f_g) = nr f_g * nc f_g /\ 0 < nr f_g /\
  costs_nonneg_or_nan f_g /\
  exists d, f_dtw true no_dist f_g (mkFopts (IName "symmetric2") (FSlantedBand (f_ofZ 2)) true false true false) = Ok d.
Proof. exact fused_case. Qed.

(** C62: not so with weights 1/3. *)
Theorem C62_thirds_differ : exists d d', f_dtw true no_dist f_g3 thirds_o = Ok d /\ f_dtw false no_dist f_g3 thirds_o = Ok d' /\
  (r_distance d : f64) <> r_distance d'.
Proof. exact thirds_differ. Qed.
