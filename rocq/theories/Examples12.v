(** Examples12.v - concrete cases for C62. *)
From Verif Require Import Base Num NumF NumFLaws StepPattern Window Core Backtrack Dtw Spec Api Tables Vocab Terms IntSpec Exact FloatSpec Examples11.
From Flocq Require Import BinarySingleNaN.
Open Scope string_scope.
Open Scope list_scope.
Open Scope nat_scope.

(** 1/10, 7/10, infinity, NaN, ... *)
Definition f_g : mat f64 :=
  Mat 3 3 [f_div (f_ofZ 1) (f_ofZ 10); f_div (f_ofZ 7) (f_ofZ 10); B754_nan; f_ofZ 3; f_div (f_ofZ 1) (f_ofZ 3); B754_infinity false;
           f_ofZ 0; f_div (f_ofZ 2) (f_ofZ 7); f_div (f_ofZ 5) (f_ofZ 9)].
Lemma fused_case : In "symmetric2" integer_weights /\ List.length (dat f_g) = nr f_g * nc f_g /\ 0 < nr f_g /\
  costs_nonneg_or_nan f_g /\
  exists d, f_dtw true no_dist f_g (mkFopts (IName "symmetric2") (FSlantedBand (f_ofZ 2)) true false true false) = Ok d.
Proof.
  split; [cbn; auto|]. split; [reflexivity|]. split; [cbn; lia|]. split.
  - assert (A : forallb (fun v => is_nan v || @leb NumF (ofZ 0) v) (dat f_g) = true) by (vm_compute; reflexivity).
    rewrite forallb_forall in A. intros v Hv. specialize (A v Hv). apply Bool.orb_true_iff in A. exact A.
  - apply is_ok_ex. vm_compute. reflexivity.
Qed.

(** With weights 1/3 contraction can change the distance. *)
Definition f_g3 : mat f64 := Mat 2 4 (map f_ofZ [0; 0; 0; 0; 0; 7; 5; 3]%Z).
Definition thirds_o : fopts := mkFopts (IName "asymmetricP05") FNoWindow true false false false.
Definition distances_differ (x : out (DTW (double true))) (y : out (DTW (double false))) : bool :=
  match x, y with
  | Ok d, Ok d' => negb (Beqb (r_distance d : f64) (r_distance d')) && Beqb (r_distance d : f64) (r_distance d)
  | _, _ => false
  end.
Lemma distances_differ_ok x y : distances_differ x y = true ->
  exists d d', x = Ok d /\ y = Ok d' /\ (r_distance d : f64) <> r_distance d'.
Proof.
  destruct x as [d| | | |], y as [d'| | | |]; try discriminate. unfold distances_differ. intros Q.
  exists d, d'. split; [reflexivity|]. split; [reflexivity|]. intros E. rewrite <- E in Q.
  apply andb_prop in Q. destruct Q as [Q1 Q2]. rewrite Q2 in Q1. discriminate.
Qed.
Lemma thirds_differ : exists d d', f_dtw true no_dist f_g3 thirds_o = Ok d /\ f_dtw false no_dist f_g3 thirds_o = Ok d' /\
  (r_distance d : f64) <> r_distance d'.
Proof. apply distances_differ_ok. vm_compute. reflexivity. Qed.
