(** Examples30.v - concrete cases for the layout of printed numbers (C85). *)
From Coq Require Import Ascii String ZArith.
From Flocq Require Import Core BinarySingleNaN.
From Verif Require Import Base Num NumF StepPattern Format FormatSpec FormSpec Examples28.
Open Scope string_scope.
Open Scope list_scope.
Open Scope Z_scope.

(** The five layouts, with four digits. *)
Lemma layouts30 : layout 4 "12" (-3) "0.0012" /\ layout 4 "12" 3 "1200" /\ layout 4 "6667" 0 "6.667" /\ layout 4 "1" 5 "1e+05" /\ layout 4 "12" (-5) "1.2e-05" /\
  significand "12" 12 /\ ~ significand "012" 12 /\ ~ significand "120" 120 /\ exponent (-5) "-05" /\ exponent 123 "+123" /\ ~ exponent 5 "+5" /\ ~ exponent 5 "+005".
Proof.
  split; [apply (lay_small 4 "12" (-3)); lia|]. split; [apply (lay_whole 4 "12" 3); [lia|unfold len; cbn; lia]|].
  split; [apply (lay_point 4 "6" "667" 0); [lia|reflexivity|discriminate]|].
  split; [apply (lay_exp 4 "1" 5 "+05"); [lia|reflexivity|]; exists "05"; repeat split; left; reflexivity|].
  split; [apply (lay_point_exp 4 "1" "2" (-5) "-05"); [lia|reflexivity|discriminate|]; exists "05"; repeat split; left; reflexivity|].
  split; [repeat split; discriminate|]. split; [intros [_ [H _]]; apply H; reflexivity|]. split; [intros [_ [_ H]]; apply H; reflexivity|].
  split; [exists "05"; repeat split; left; reflexivity|]. split; [exists "123"; repeat split; right; split; [reflexivity|lia]|].
  split; intros [s [E [_ [H|[H H']]]]]; cbn in E, H; injection E as <-; cbn in *; try discriminate; lia.
Qed.
(** Width two. *)
Lemma width30 : (String.eqb (format_2g 2 (ratio 1 1)) " 1" && String.eqb (format_2g 2 (ratio 3 2)) "1.5" && String.eqb (format_2g 2 (ratio (-1) 1)) "-1" &&
  String.eqb (format_2g 2 (ratio 0 1)) " 0")%bool = true /\
  format_g 4 (ratio 2 3) = format_g 4 (ratio 66670001 100000000) /\ format_g 4 (ratio 2 3) <> format_g 4 (ratio 6668 10000).
Proof. vm_compute. repeat split; discriminate. Qed.
