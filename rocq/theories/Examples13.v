(** Examples13.v - concrete cases for C63. *)
From Coq Require Import Reals Lra.
From Verif Require Import Base Num NumF NumFLaws StepPattern Window Core Backtrack Dtw Spec Api Tables Vocab Terms IntSpec Exact FloatSpec ScaleSpec Examples11.
From Flocq Require Import BinarySingleNaN.
Open Scope string_scope.
Open Scope list_scope.
Open Scope nat_scope.

(** Weights 1/3 round; costs in units of 1 and of 1/8. *)
Definition u_g : mat f64 := Mat 2 4 (B754_nan :: map f_ofZ [4; 0; 1; 0; 7; 5; 3]%Z).
Definition u_g8 : mat f64 := Mat 2 4 (B754_nan :: map f_ofZ [32; 0; 8; 0; 56; 40; 24]%Z).
Definition u_o : opts (Exact.double true) := mkOpts (SPName "asymmetricP05") WTNone [] true false false true.

Lemma ints_scaled (zs : list Z) : Forall (fun z => (0 <= z <= 1048576)%Z) zs ->
  Forall2 (fun x x' => times_pow2 3 x x' /\ moderate x /\ moderate x') (map f_ofZ zs) (map f_ofZ (map (fun z => 8 * z)%Z zs)).
Proof.
  assert (M : forall z, (0 <= z <= 1073741824)%Z -> moderate (f_ofZ z)).
  { intros z Hz _. rewrite ofZ_B2R by lia. destruct (Z.eq_dec z 0) as [->|Hn]; [left; reflexivity|right].
    rewrite Rabs_pos_eq by (apply IZR_le; lia).
    assert (1 <= IZR z)%R by (apply IZR_le; lia). assert (IZR z <= 1073741824)%R by (apply IZR_le; lia).
    split.
    - apply Rle_trans with 1%R; [|assumption]. change (powerRZ 2 (-800)) with (/ (2 ^ 800))%R. rewrite <- Rinv_1. apply Rinv_le_contravar; [lra|]. apply pow_R1_Rle. lra.
    - apply Rle_trans with (2 ^ 30)%R; [rewrite (pow_IZR 2 30); apply IZR_le; exact (proj2 Hz)|]. change (powerRZ 2 800) with (2 ^ 800)%R. apply Rle_pow; [lra|lia]. }
  induction 1 as [|z zs Hz _ IH]; cbn [map]; constructor; [|exact IH].
  split; [|split; apply M; lia]. right. split; [apply ofZ_fin; lia|]. split; [apply ofZ_fin; lia|].
  rewrite !ofZ_B2R by lia. rewrite mult_IZR. replace (powerRZ 2 3) with 8%R by (change (powerRZ 2 3) with (2 ^ 3)%R; rewrite (pow_IZR 2 3); reflexivity). reflexivity.
Qed.

Lemma unit_case : o_step_pattern u_o = SPName "asymmetricP05" /\ List.length (dat u_g) = nr u_g * nc u_g /\ 0 < nr u_g /\
  unit_changed 3 u_g u_g8 /\
  exists d, dtw no_dist (NdArray (Nd2 (u_g : mat (Exact.double true))) true true) None u_o = Ok d.
Proof.
  split; [reflexivity|]. split; [reflexivity|]. split; [cbn; lia|]. split.
  - split; [reflexivity|]. split; [reflexivity|]. cbn [dat u_g u_g8]. constructor.
    + split; [left; split; reflexivity|]. split; intros C; discriminate.
    + apply (ints_scaled [4; 0; 1; 0; 7; 5; 3]%Z). repeat constructor; lia.
  - apply is_ok_ex. vm_compute. reflexivity.
Qed.

(** Multiplying by ten is not such a change of unit: tenths turned into whole numbers are aligned differently. *)
Definition t_g : mat f64 := Mat 3 3 (map (fun z => f_div (f_ofZ z) (f_ofZ 10)) [2; 4; 4; 7; 5; 7; 7; 1; 0]%Z).
Definition t_g10 : mat f64 := Mat 3 3 (map (f_mul (f_ofZ 10)) (dat t_g)).
Definition t_o : fopts := mkFopts (IName "symmetric2") FNoWindow true false false false.
Definition maps_differ (x y : out (DTW (Exact.double false))) : bool :=
  match x, y with
  | Ok d, Ok d' => match r_map d, r_map d' with
                   | Some mp, Some mp' => negb (if list_eq_dec Z.eq_dec (index1 mp) (index1 mp') then true else false)
                   | _, _ => false end
  | _, _ => false
  end.
Lemma maps_differ_ok x y : maps_differ x y = true -> exists d d', x = Ok d /\ y = Ok d' /\ r_map d <> r_map d'.
Proof.
  destruct x as [d| | | |], y as [d'| | | |]; try discriminate. unfold maps_differ. intros Q.
  exists d, d'. split; [reflexivity|]. split; [reflexivity|]. intros E. rewrite <- E in Q.
  destruct (r_map d) as [mp|]; [|discriminate]. destruct (list_eq_dec Z.eq_dec (index1 mp) (index1 mp)) as [|C]; [discriminate|apply C; reflexivity].
Qed.
Lemma ten_differs : exists d d', f_dtw false no_dist t_g t_o = Ok d /\ f_dtw false no_dist t_g10 t_o = Ok d' /\ r_map d <> r_map d'.
Proof. apply maps_differ_ok. vm_compute. reflexivity. Qed.
