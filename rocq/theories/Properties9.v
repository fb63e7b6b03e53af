(** Properties9.v - C50, C51: printed patterns; shifted costs.

    Only theorem statements, each closed by a lemma proved elsewhere, and concrete cases
    that meet their hypotheses.  See Properties1.v for the arithmetic [N] and [NumLaws]. *)
From Coq Require Import Ascii QArith Qcanon.
From Verif Require Import Base Num StepPattern Window Core Backtrack Dtw Spec Api Tables Vocab Terms.
From Verif Require Import NumQ NumQLaws NumF NumFLaws.
From Verif Require Import CoreProof DtwProof ApiThms Thm1 Thm10 Thm11 Derived Examples Print PrintSpec Thm21 Thm22 Examples7.
Open Scope string_scope.
Open Scope list_scope.
Open Scope nat_scope.

(** C50: print(step_pattern) writes exactly the productions, in order, and the normalization hint. *)
Theorem C50_text : forall (N : Num) (L : NumLaws N) (fmt : N -> string) (s : steppat N) rules,
  pattern_rules s rules ->
  str_pattern fmt s = Ok (pattern_text fmt rules (hint s)).
Proof. exact (fun N L fmt => @str_pattern_text N fmt L). Qed.
Print Assumptions C50_text.

(** C50: two patterns that print alike have the same productions and hint, up to weights that are formatted
    alike (weights are formatted to two significant digits). *)
Theorem C50_text_injective : forall (N : Num) (L : NumLaws N) (fmt : N -> string) (fmt_d : forall w : N, lacks "d"%char (fmt w) = true) (s s' : steppat N) rules rules',
  pattern_rules s rules -> pattern_rules s' rules' -> str_pattern fmt s = str_pattern fmt s' ->
  Forall2 (written_alike fmt) rules rules' /\ hint s = hint s'.
Proof. exact (fun N L fmt fmt_d => @str_pattern_inj N fmt fmt_d L). Qed.
Print Assumptions C50_text_injective.

(** C50: step_pattern.plot() draws one curve per production, through its points, labelled with its weights. *)
Theorem C50_plot : forall (N : Num) (L : NumLaws N) fmt2 (s : steppat N) rules,
  pattern_rules s rules ->
  exists drs, plot_pattern fmt2 s = Ok (drs, map (fun r => drawn_at (r_di r, r_dj r)) rules) /\
    Forall2 (fun dr r => dr_curve dr = map drawn_at (shape r) /\
                         map fst (dr_labels dr) = map (fun a => fmt2 (snd a)) (r_add r)) drs rules.
Proof. exact (fun N L  => @plot_pattern_shapes N L). Qed.
Print Assumptions C50_plot.

Example C50_case_symmetric2 : out_is (str_pattern fmt_small (@symmetric2 NumF))
"Step pattern recursion:
 g[i,j] = min(
     g[i-1,j-1] + 2 * d[i  ,j  ] ,
     g[i  ,j-1] +     d[i  ,j  ] ,
     g[i-1,j  ] +     d[i  ,j  ] ,
 ) 

Normalization hint: N+M
" = true.
Proof. exact symmetric2_text. Qed.

Example C50_case_symmetricP1 : out_is (str_pattern fmt_small (@symmetricP1 NumF))
"Step pattern recursion:
 g[i,j] = min(
     g[i-1,j-2] + 2 * d[i  ,j-1] +     d[i  ,j  ] ,
     g[i-1,j-1] + 2 * d[i  ,j  ] ,
     g[i-2,j-1] + 2 * d[i-1,j  ] +     d[i  ,j  ] ,
 ) 

Normalization hint: N+M
" = true.
Proof. exact symmetricP1_text. Qed.

Example C50_case_repr : match run (mA : mat NumF) (oKeep "symmetric2") with
  | Ok d => String.eqb (repr_dtw d) "DTW alignment object of size (query x reference): 3 x 4"
  | _ => false end = true.
Proof. exact repr_text. Qed.

(** C51: raising every local cost by c (exact arithmetic): same alignment, distance raised by c times the
    total weight of the pattern normalization. *)
Theorem C51_distance : forall c cdist x y o (lm : mat NumQ) d k al be cdist' x' y',
  costs_of cdist x y lm -> dtw cdist x y o = Ok d -> 0 < nr lm ->
  lookup k pattern_table = Some (r_stepPattern d) -> hint_law (hint (r_stepPattern d)) = Some (al, be) ->
  (o_open_end o = true -> hint (r_stepPattern d) = "N") ->
  costs_of cdist' x' y' (plus_cost c lm) -> (o_open_begin o = true \/ native_array x' y') ->
  exists d', dtw cdist' x' y' o = Ok d' /\
    r_distance d' = add (r_distance d)
       (mul (ofZ (Z.of_nat (if o_open_begin o then nr lm else 1 + (al * (nr lm - 1) + be * r_jmin d)))) (XFin c : NumQ)) /\
    r_jmin d' = r_jmin d /\ r_map d' = r_map d /\ r_directionMatrix d' = r_directionMatrix d /\
    r_stepPattern d' = r_stepPattern d.
Proof. exact plus_constant. Qed.
Print Assumptions C51_distance.

(** C51: for hint N the normalized distance is raised by c. *)
Theorem C51_normalized : forall c cdist x y o (lm : mat NumQ) d k cdist' x' y',
  costs_of cdist x y lm -> dtw cdist x y o = Ok d -> 0 < nr lm ->
  lookup k pattern_table = Some (r_stepPattern d) -> hint (r_stepPattern d) = "N" ->
  costs_of cdist' x' y' (plus_cost c lm) -> (o_open_begin o = true \/ native_array x' y') ->
  exists d', dtw cdist' x' y' o = Ok d' /\
    r_normalizedDistance d' = add (r_normalizedDistance d) (XFin c : NumQ) /\ r_map d' = r_map d.
Proof. exact plus_constant_N. Qed.
Print Assumptions C51_normalized.

(** C51: the same calls fail. *)
Theorem C51_failures : forall c cdist x y o (lm : mat NumQ) sp rules w k al be cdist' x' y',
  well_posed cdist x y o lm sp rules w ->
  lookup k pattern_table = Some sp -> hint_law (hint sp) = Some (al, be) ->
  (o_open_end o = true -> hint sp = "N") ->
  costs_of cdist' x' y' (plus_cost c lm) -> (o_open_begin o = true \/ native_array x' y') ->
  forall e, dtw cdist x y o = Raise e -> dtw cdist' x' y' o = Raise e.
Proof. exact plus_constant_fails. Qed.
Print Assumptions C51_failures.

Example C51_case_symmetric1 : succeeds mQ (oQ "symmetric1") "symmetric1" NoWindow
    (fun d => dist_is 2 d && align_is [0;0;1;2]%Z [0;1;2;2]%Z [2;1;3]%Z d) /\
  succeeds (plus_cost five mQ) (oQ "symmetric1") "symmetric1" NoWindow
    (fun d => dist_is 18 d && align_is [0;1;2]%Z [0;1;2]%Z [1;1]%Z d).
Proof. exact shift_symmetric1. Qed.

Example C51_case_symmetric2 : succeeds mQ (oQ "symmetric2") "symmetric2" NoWindow
    (fun d => dist_is 3 d && align_is [0;0;1;2]%Z [0;1;2;2]%Z [2;1;3]%Z d) /\
  succeeds (plus_cost five mQ) (oQ "symmetric2") "symmetric2" NoWindow
    (fun d => dist_is 28 d && align_is [0;0;1;2]%Z [0;1;2;2]%Z [2;1;3]%Z d).
Proof. exact shift_symmetric2. Qed.

Example C51_case_open : succeeds mQ (named "asymmetric" WTNone [] true false true true) "asymmetric" NoWindow
    (fun d => dist_is 1 d) /\
  succeeds (plus_cost five mQ) (named "asymmetric" WTNone [] true false true true) "asymmetric" NoWindow
    (fun d => dist_is 16 d).
Proof. exact shift_asymmetric. Qed.
