(** Properties30.v - C50: label positions of plotted step patterns.

    Only theorem statements, each closed by a lemma proved elsewhere, and concrete cases
    that meet their hypotheses.  See Properties1.v for the arithmetic [N] and [NumLaws]. *)
From Verif Require Import Base Num StepPattern Window Core Backtrack Dtw Spec Api Tables Vocab Terms.
From Verif Require Import NumQ NumQLaws NumF NumFLaws.
From Verif Require Import SeriesSpec PatSpec Print PrintSpec Plot LabelSpec Labels Examples Examples7 Examples29.
Open Scope string_scope.
Open Scope list_scope.
Open Scope nat_scope.

(** C50: in step_pattern.plot(), label k of a production stands in the middle of its k-th segment. *)
Theorem C50_labels : forall (N : Num) (M : modelled N) fmt2 (s : steppat N) rules,
  pattern_rules s rules ->
  exists drs dots, plot_pattern fmt2 s = Ok (drs, dots) /\
    Forall2 (fun dr r => Forall2 in_the_middle (dr_labels dr) (segments (shape r))) drs rules.
Proof. exact (fun N  => @plot_labels N). Qed.
Print Assumptions C50_labels.

Example C50_case_labels : match plot_pattern fmt_small (@symmetricP1 NumF) with
  | Ok (dr :: _, _) => match dr_labels dr with
      | [(s1, (x1, y1)); (s2, (x2, y2))] => String.eqb s1 " 2" && near x1 (-1) 2 && near y1 (-3) 2 && String.eqb s2 " 1" && near x2 0 1 && near y2 (-1) 2
      | _ => false end
  | _ => false end = true.
Proof. exact labels29. Qed.

Example C50_case_segments : segments [(1, 2); (0, 1); (0, 0)]%nat = [((1, 2), (0, 1)); ((0, 1), (0, 0))]%nat.
Proof. exact segments29. Qed.
