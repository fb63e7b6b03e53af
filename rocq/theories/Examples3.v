(** Examples3.v - concrete cases for C37 to C43. *)
From Coq Require Import ZifyBool ZifyNat.
From Verif Require Import Base Num StepPattern Window Core Backtrack Dtw Spec Api Tables Vocab Terms
  CoreProof DtwProof NumQ NumQLaws NumF NumFLaws ApiThms Derived Thm4 Thm8 Thm10 Examples Thm14 Thm15.
Open Scope string_scope.
Open Scope list_scope.
Open Scope nat_scope.

(** A cityblock distance for one-dimensional series. *)
Definition city (a b : mat NumF) : out (mat NumF) :=
  Ok (Mat (nr a) (nr b) (map (fun ij => vabs (sub (nth (fst ij) (dat a) nan) (nth (snd ij) (dat b) nan))) (indices (nr a) (nr b)))).
Definition series (l : list Z) : ndarray NumF := NdArray (Nd1 (map ofZ l)) true true.

Lemma city_ok : (forall a b, safe (city a b)) /\ forall a b lm, city a b = Ok lm -> wf_mat lm.
Proof.
  split.
  - intros a b. apply safe_ok.
  - intros a b lm H. injection H as <-. unfold wf_mat. cbn [nr nc dat]. rewrite map_length. apply indices_length.
Qed.

(** A call with two series. *)
Lemma two_series : checkOk (dtw city (series [1;3;4;9]%Z) (Some (series [1;3;7;8;9]%Z)) default_opts)
  (fun d => dist_is 6 d && align_is [0;1;2;2;3;3]%Z [0;1;1;2;3;4]%Z [1;3;2;1;2]%Z d) = true.
Proof. vm_compute. reflexivity. Qed.
Lemma two_series_costs : exists lm, costs_of city (series [1;3;4;9]%Z) (Some (series [1;3;7;8;9]%Z)) lm /\
  nr lm = 4 /\ nc lm = 5 /\
  forallb (fun p => eqb (fst p) (snd p)) (combine (dat lm) (map ofZ [0;2;6;7;8; 2;0;4;5;6; 3;1;3;4;5; 8;6;2;1;0]%Z)) = true.
Proof.
  eexists. split; [|split; [|split]].
  - eapply costs_two; [exact eq_refl|exact eq_refl|exact eq_refl|].
    unfold wf_mat. cbn [nr nc dat]. rewrite map_length. apply indices_length.
  - exact eq_refl.
  - exact eq_refl.
  - vm_compute. reflexivity.
Qed.
(** The same as a cost matrix in the wrong layout. *)
Lemma wrong_layout_case : forall o : opts NumF, o_open_begin o = false ->
  forall d, dtw no_cdist (NdArray (Nd2 mA) true false) None o <> Ok d.
Proof. intros o Ho d. apply wrong_layout_never; [exact Ho|right; reflexivity]. Qed.
(** A missing and an infinite value are walked around. *)
Definition mC : mat NumF := Mat 3 4 (map ofZ [1;5;2;4; 3]%Z ++ [nan; pinf] ++ map ofZ [2; 4;2;1;1]%Z).
Lemma obstacle_case : succeeds mC (oKeep "symmetric2") "symmetric2" NoWindow
  (fun d => dist_is 10 d && align_is [0;1;2;2;2]%Z [0;0;1;2;3]%Z [3;1;2;2]%Z d).
Proof. ex_ok NumF_laws. Qed.
(** Non-square problem, asymmetric displacements. *)
Lemma convention_case : succeeds mA (oKeep "asymmetric") "asymmetric" NoWindow
  (fun d => align_is [0;1;2]%Z [0;1;3]%Z [2;3]%Z d).
Proof. ex_ok NumF_laws. Qed.
Lemma bad_id_case : int_pattern (StepPat [zrow 7 1 1 (-1); zrow 7 0 0 1] "NA") /\
  exists r z, In r (mx (StepPat [zrow 7 1 1 (-1); zrow 7 0 0 1] "NA")) /\ is_int (c0 r) z /\ ~ (1 <= z <= 2)%Z.
Proof.
  split.
  - split; [vm_compute; discriminate|]. constructor; [exists 7%Z, 1%Z, 1%Z|constructor; [exists 7%Z, 0%Z, 0%Z|constructor]].
    all: repeat split; try (vm_compute; reflexivity); vm_compute; discriminate.
  - exists (zrow 7 1 1 (-1)), 7%Z. repeat split; [left; reflexivity|vm_compute; discriminate|lia].
Qed.
