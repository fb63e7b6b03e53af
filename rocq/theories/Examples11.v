(** Examples11.v - concrete cases for C61. *)
From Verif Require Import Base Num NumQ NumQLaws NumF NumFLaws StepPattern Window Core Backtrack Dtw Spec Api Tables Vocab Terms
  Laws4 IntSpec Thm31 Examples.
Open Scope string_scope.
Open Scope list_scope.
Open Scope nat_scope.

Definition int_g : mat (option Z) :=
  Mat 3 4 [Some 1%Z; Some (-2)%Z; None; Some 7%Z; Some 3%Z; Some 1%Z; Some 4%Z; Some 1%Z; Some 5%Z; Some 9%Z; Some 2%Z; Some 6%Z].
Definition int_o (kn : string) (w : iwindow) (oe ob : bool) : iopts := mkIopts (IName kn) w true false oe ob.
Definition no_dist {N : Num} (x y : mat N) : out (mat N) := Raise TypeError.

Definition is_ok {A} (x : out A) : bool := match x with Ok _ => true | _ => false end.
Lemma is_ok_ex {A} (x : out A) : is_ok x = true -> exists v, x = Ok v.
Proof. destruct x; intros; try discriminate. eexists; reflexivity. Qed.

Lemma int_g_within : costs_within 9 int_g.
Proof.
  assert (A : forallb (fun x => match x with Some z => (Z.abs z <=? 9)%Z | None => true end) (dat int_g) = true) by reflexivity.
  rewrite forallb_forall in A. intros z Hz. specialize (A _ Hz). apply Z.leb_le. exact A.
Qed.
Lemma int_closed_case : In "symmetric2" whole_names /\ costs_within 9 int_g /\
  List.length (dat int_g) = nr int_g * nc int_g /\ 0 < nr int_g /\
  (weight_rate "symmetric2" * 9 * (Z.of_nat (nr int_g) + Z.of_nat (nc int_g)) <= 2 ^ 53)%Z /\
  exists d, int_dtw DoublesFused no_dist int_g (int_o "symmetric2" (ISakoeChiba 2) false false) = Ok d.
Proof.
  split; [cbn; auto|]. split; [exact int_g_within|].
  split; [reflexivity|]. split; [cbn; lia|]. split; [vm_compute; discriminate|].
  apply is_ok_ex. vm_compute. reflexivity.
Qed.
Lemma int_open_case : In "asymmetric" whole_names /\ costs_within 9 int_g /\
  (weight_rate "asymmetric" * 9 * (Z.of_nat (nr int_g) + Z.of_nat (nc int_g)) ^ 2 < 2 ^ 52)%Z /\
  exists d, int_dtw Doubles no_dist int_g (int_o "asymmetric" INoWindow true true) = Ok d.
Proof.
  split; [cbn; auto|]. split; [apply int_closed_case|]. split; [vm_compute; reflexivity|].
  apply is_ok_ex. vm_compute. reflexivity.
Qed.
