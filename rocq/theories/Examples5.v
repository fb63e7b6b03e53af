(** Examples5.v - concrete cases for C45 to C50. *)
From Coq Require Import ZifyBool ZifyNat.
From Verif Require Import Base Num StepPattern Window Core Backtrack Dtw Spec Api Tables Vocab Terms
  CoreProof DtwProof NumQ NumQLaws NumF NumFLaws ApiThms Derived Thm1 Thm4 Thm8 Thm10 Examples Thm14 Thm15 Examples3 Plot PlotSpec Thm20.
Open Scope string_scope.
Open Scope list_scope.
Open Scope nat_scope.

Definition pt_eqb (p q : Z * NumF) : bool := (fst p =? fst q)%Z && eqb (snd p) (snd q).
Fixpoint lst_eqb {A B} (f : A -> B -> bool) (l : list A) (l' : list B) : bool :=
  match l, l' with
  | [], [] => true
  | a :: l, b :: l' => f a b && lst_eqb f l l'
  | _, _ => false
  end.
Definition seg_eqb (p q : (Z * NumF) * (Z * NumF)) : bool := pt_eqb (fst p) (fst q) && pt_eqb (snd p) (snd q).
Definition zz_eqb (p q : Z * Z) : bool := (fst p =? fst q)%Z && (snd p =? snd q)%Z.
Definition zpt (p : Z * Z) : Z * NumF := (fst p, ofZ (snd p)).
Definition oKeep2 : opts NumF := mkOpts (SPName "symmetric2") WTNone [] true false false false.
Definition qs := series [1;3;4;9]%Z.
Definition rs := series [1;3;7;8;9]%Z.
Definition kept_run := dtw city qs (Some rs) oKeep2.

(** Two-way plot with three guides, reference shifted by 10. *)
Definition twoway_is (a : match_arg) (off : Z) (q r : list (Z * Z)) (g : list ((Z * Z) * (Z * Z))) (d : DTW NumF) : bool :=
  match dtwPlotTwoWay d None None (ofZ off) a with
  | Ok t => lst_eqb pt_eqb (tw_query t) (map zpt q) && lst_eqb pt_eqb (tw_reference t) (map zpt r) &&
            lst_eqb seg_eqb (tw_guides t) (map (fun p => (zpt (fst p), zpt (snd p))) g)
  | _ => false
  end.
Lemma twoway_case : checkOk kept_run
  (fun d => align_is [0;1;2;2;3;3]%Z [0;1;1;2;3;4]%Z [1;3;2;1;2]%Z d &&
     twoway_is (MatchCount 3) 10 [(0,1);(1,3);(2,4);(3,9)]%Z [(0,11);(1,13);(2,17);(3,18);(4,19)]%Z
       [((0,1),(0,11));((2,4),(1,13));((3,9),(4,19))]%Z d) = true.
Proof. vm_compute. reflexivity. Qed.
(** Its hypotheses. *)
Lemma twoway_hyps : (exists lm, costs_of city qs (Some rs) lm /\ nr lm = 4 /\ nc lm = 5) /\
  matrix_of (nd_val qs) = Some (Mat 4 1 (map ofZ [1;3;4;9]%Z)) /\
  matrix_of (nd_val rs) = Some (Mat 5 1 (map ofZ [1;3;7;8;9]%Z)) /\
  servable 50 (MatchCount 3) 6 /\ servable 50 MatchNone 6 /\ servable3 (MatchList [0;5;-1]%Z) 6.
Proof.
  split; [destruct two_series_costs as [lm [A [B [C _]]]]; exists lm; auto|].
  split; [exact eq_refl|]. split; [exact eq_refl|]. split; [unfold servable; lia|]. split; [unfold servable; lia|].
  intros x [<-|[<-|[<-|[]]]]; lia.
Qed.
(** Fifty guides by default; three-way plot with guides at the first and last match. *)
Lemma twoway_default_case : checkOk kept_run (fun d => match dtwPlotTwoWay d None None (ofZ 0) MatchNone with
  | Ok t => (List.length (tw_guides t) =? 50) && match tw_right_axis t with None => true | _ => false end | _ => false end) = true.
Proof. vm_compute. reflexivity. Qed.
Lemma threeway_case : checkOk kept_run (fun d => match dtwPlotThreeWay d None None (MatchList [0;-1]%Z) with
  | Ok t => lst_eqb zz_eqb (th_curve t) [(0,0);(1,1);(2,1);(2,2);(3,3);(3,4)]%Z &&
            lst_eqb (fun p q => zz_eqb (fst p) (fst q) && zz_eqb (snd p) (snd q)) (th_guides t)
              [((0,0),(0,0));((0,0),(0,0));((3,0),(3,4));((0,4),(3,4))]%Z
  | _ => false end) = true.
Proof. vm_compute. reflexivity. Qed.
(** A position past the end. *)
Lemma outside_case : checkOk kept_run (fun d =>
  match dtwPlotThreeWay d None None (MatchList [0;6]%Z) with Raise IndexError => true | _ => false end &&
  match dtwPlotTwoWay d None None (ofZ 0) (MatchList [-7;1]%Z) with Raise IndexError => true | _ => false end) = true.
Proof. vm_compute. reflexivity. Qed.
(** Density plot: 6 / (4 + 5) at the end, 0 / 2 at the start. *)
Lemma density_case : checkOk kept_run (fun d => match dtwPlotDensity d true with
  | Ok t => match mget (de_cost t) 3 4, mget (de_cost t) 0 0 with
            | Some v, Some w => eqb v (div (ofZ 6) (ofZ 9)) && eqb v (r_normalizedDistance d) && eqb w (ofZ 0)
            | _, _ => false end
  | _ => false end) = true.
Proof. vm_compute. reflexivity. Qed.
(** A pattern without normalization; an abbreviated type; a cost matrix; the command line. *)
Lemma density_na_case : checkOk (run mA (oKeep "symmetric1")) (fun d =>
  String.eqb (hint (r_stepPattern d)) "NA" && match r_costMatrix d with Some _ => true | _ => false end &&
  match dtwPlotDensity d true with Raise (ValueError s) => String.eqb s "Step pattern has no normalization" | _ => false end) = true.
Proof. vm_compute. reflexivity. Qed.
Lemma abbreviation_case : ~ In "two" ["alignment"; "twoway"; "threeway"; "density"].
Proof. cbn. intuition discriminate. Qed.
Lemma matrix_plot_case : checkOk (run mA (oKeep "symmetric2")) (fun d =>
  match dtwPlotTwoWay d (Some (Nd2 (Mat 3 1 (map ofZ [1;2;3]%Z)))) None (ofZ 0) MatchNone with
  | Raise (ValueError s) => String.eqb s "Original timeseries are required" | _ => false end) = true.
Proof. vm_compute. reflexivity. Qed.
Definition cli_is (sp : string) (nd_ dist : NumF) (i1 i2 : list Z) : bool :=
  match main2 city qs rs sp with
  | Ok (a, b, c, e) => eqb a nd_ && eqb b dist && zlist_eqb c i1 && zlist_eqb e i2
  | _ => false end.
Lemma cli_case : cli_is "symmetric2" (div (ofZ 6) (ofZ 9)) (ofZ 6) [0;1;2;2;3;3]%Z [0;1;1;2;3;4]%Z = true.
Proof. vm_compute. reflexivity. Qed.
(** The bound on guide positions is sharp: of 99 guides on a curve of 3 points, the
    middle one (49 * 2 / 98 = 1 exactly) is drawn at position 0. *)
Lemma guide_rounding_case : match @linspace_int NumF 2 99 with Ok l => nth_error l 49 | _ => None end = Some 0%Z /\ (49 * (3 - 1) / (99 - 1) = 1)%Z.
Proof. split; vm_compute; reflexivity. Qed.
