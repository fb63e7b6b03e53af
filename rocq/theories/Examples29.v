(** Examples29.v - concrete cases for the label positions of C50. *)
From Verif Require Import Base Num NumF StepPattern Spec Api Tables Print PrintSpec SeriesSpec LabelSpec Labels Examples Examples7.
Import ListNotations.
Open Scope string_scope.
Open Scope list_scope.
Open Scope Z_scope.

(** symmetricP1, first production: the segments (1,2)-(0,1) and (0,1)-(0,0) carry 2 and 1, at (-0.5,-1.5) and (0,-0.5). *)
Definition near (x : f64) (a b : Z) : bool := @eqb NumF x (f_div (f_ofZ a) (f_ofZ b)).
Lemma labels29 : match plot_pattern fmt_small (@symmetricP1 NumF) with
  | Ok (dr :: _, _) => match dr_labels dr with
      | [(s1, (x1, y1)); (s2, (x2, y2))] => String.eqb s1 " 2" && near x1 (-1) 2 && near y1 (-3) 2 && String.eqb s2 " 1" && near x2 0 1 && near y2 (-1) 2
      | _ => false end
  | _ => false end = true.
Proof. vm_compute. reflexivity. Qed.
Lemma segments29 : segments [(1, 2); (0, 1); (0, 0)]%nat = [((1, 2), (0, 1)); ((0, 1), (0, 0))]%nat.
Proof. reflexivity. Qed.
