(** Examples2.v - more concrete cases for the hypotheses of the property theorems. *)
From Verif Require Import Base Num StepPattern Window Core Backtrack Dtw Spec Api Tables Vocab Terms.
From Verif Require Import NumQ NumQLaws NumF NumFLaws ApiThms Thm4 Thm7 Thm8 Thm9 Thm10 Derived Derived2 Examples.
Open Scope string_scope.
Open Scope list_scope.
Open Scope nat_scope.

Lemma sakoe_within_none : window_within SakoeChiba (ws 1) NoWindow [] 3 4.
Proof. intros i j _ _ _. exact I. Qed.
Lemma exDonly : succeeds mA (named "symmetric2" WTNone [] false true false false) "symmetric2" NoWindow
  (fun d => dist_is 6 d && (match r_map d with None => true | Some _ => false end)).
Proof. ex_ok NumF_laws. Qed.
Lemma needs_norm_case : hint (@symmetric1 NumF) = "NA" /\ lookup "symmetric1" (@pattern_table NumF) = Some symmetric1.
Proof. split; reflexivity. Qed.
Lemma needs_N_case : hint (@symmetric2 NumF) <> "N" /\ lookup "symmetric2" (@pattern_table NumF) = Some symmetric2.
Proof. split; [discriminate|reflexivity]. Qed.

(** ** Exact arithmetic *)
Lemma exQ2 : succeeds (ints 3 4 [2;2;2;2; 2;2;2;2; 2;2;2;2]%Z : mat NumQ)
  (named "symmetric2" WTNone [] false false false false) "symmetric2" NoWindow
  (fun d => dist_is 12 d && eqb (r_normalizedDistance d) (div (ofZ 12) (ofZ 7))).
Proof. ex_ok NumQ_laws. Qed.
Lemma exQa : succeeds (ints 3 4 [1;5;2;4; 3;1;6;2; 4;2;1;1]%Z : mat NumQ)
  (named "asymmetric" WTNone [] false false false false) "asymmetric" NoWindow
  (fun d => dist_is 3 d && eqb (r_normalizedDistance d) (ofZ 1)).
Proof. ex_ok NumQ_laws. Qed.

(** ** The lists of names used in the statements *)
Lemma symmetric_names_are : symmetric_names =
  ["symmetric1"; "symmetric2"; "symmetricP0"; "symmetricP05"; "symmetricP1"; "symmetricP2";
   "typeIa"; "typeIb"; "typeId"; "typeIas"; "typeIbs"; "typeIds"; "typeIIa"; "typeIIb"; "typeIId"].
Proof. reflexivity. Qed.
Lemma negative_names_are : negative_names = ["_symmetricVelichkoZagoruyko"].
Proof. reflexivity. Qed.
Lemma one_per_query_are : one_per_query = ["asymmetric"; "rigid"].
Proof. reflexivity. Qed.
Lemma advancing_names_are : advancing_names =
  ["asymmetricP05"; "asymmetricP1"; "asymmetricP2"; "typeIc"; "typeIcs"; "typeIIc"; "typeIIIc"; "typeIVc"; "rigid"].
Proof. reflexivity. Qed.
Lemma unlimited_are : unlimited =
  ["symmetric1"; "symmetric2"; "symmetricP0"; "asymmetricP0"; "_asymmetricP0b"; "_symmetricVelichkoZagoruyko"].
Proof. reflexivity. Qed.
Lemma limits_cover : forall k (sp : steppat NumQ), In (k, sp) pattern_table ->
  In k unlimited \/ exists s, In (k, s) slope_limits.
Proof.
  assert (G : forallb (fun k => if in_dec string_dec k unlimited then true
              else existsb (fun ks => String.eqb k (fst ks)) slope_limits) (map fst (@pattern_table NumQ)) = true)
    by (vm_compute; reflexivity).
  intros k sp H. rewrite forallb_forall in G. specialize (G k (in_map fst _ _ H)). cbn beta in G.
  destruct (in_dec string_dec k unlimited); [left; assumption|right].
  apply existsb_exists in G. destruct G as [[k' s] [G1 G2]]. cbn [fst] in G2. apply String.eqb_eq in G2. subst.
  exists s. exact G1.
Qed.

(** ** Raised costs *)
Definition mA' : mat NumF := ints 3 4 [1;5;2;4; 3;2;6;3; 4;2;1;3]%Z.
Lemma raised_case : raised mA mA' /\ nonneg_costs mA /\
  succeeds mA' (oKeep "symmetric2") "symmetric2" NoWindow (fun d => dist_is 10 d).
Proof.
  assert (G : forall i j, i < 3 -> j < 4 -> leb (cell mA i j) (cell mA' i j) = true /\ leb (ofZ 0) (cell mA i j) = true).
  { intros i j Hi Hj. do 3 (destruct i as [|i]; [do 4 (destruct j as [|j]; [split; vm_compute; reflexivity|]); lia|]). lia. }
  split; [|split].
  - split; [reflexivity|]. split; [reflexivity|]. intros i j Hi Hj. left. apply G; assumption.
  - intros i j Hi Hj. left. apply G; assumption.
  - ex_ok NumF_laws.
Qed.

Lemma exS1 : succeeds mA (oKeep "symmetric1") "symmetric1" NoWindow (fun d => dist_is 4 d).
Proof. ex_ok NumF_laws. Qed.

(** ** Minimum variance matching *)
Definition oMvm (e : nat) : opts NumF := mkOpts (SPObj (mvmStepPattern e)) WTNone [] true false false false.
Lemma exMvm : well_posed no_cdist (arr mA) None (oMvm 3) mA (mvmStepPattern 3) (productions (mvm_productions 3)) NoWindow /\
  checkOk (run mA (oMvm 3)) (fun d => dist_is 3 d && align_is [0;1;2]%Z [0;1;3]%Z [1;2]%Z d) = true.
Proof.
  split; [|vm_compute; reflexivity]. constructor; try (intros E; discriminate E).
  - apply costs_one; reflexivity.
  - right. split; reflexivity.
  - constructor.
  - apply (mvm_rules NumF_laws); vm_compute; [repeat constructor|discriminate].
  - constructor.
  - exact I.
  - cbn. lia.
  - ex_size.
Qed.
Lemma slope_limits_are : slope_limits =
 [ ("asymmetric",          Limits 0 1 2 1);
    ("_asymmetricItakura",  Limits 1 2 2 1);
    ("symmetricP05",        Limits 1 3 3 1);
    ("asymmetricP05",       Limits 1 3 3 1);
    ("symmetricP1",         Limits 1 2 2 1);
    ("asymmetricP1",        Limits 1 2 2 1);
    ("symmetricP2",         Limits 2 3 3 2);
    ("asymmetricP2",        Limits 2 3 3 2);
    ("typeIa",              Limits 1 2 2 1);
    ("typeIb",              Limits 1 2 2 1);
    ("typeIc",              Limits 1 2 2 1);
    ("typeId",              Limits 1 2 2 1);
    ("typeIas",             Limits 1 2 2 1);
    ("typeIbs",             Limits 1 2 2 1);
    ("typeIcs",             Limits 1 2 2 1);
    ("typeIds",             Limits 1 2 2 1);
    ("typeIIa",             Limits 1 2 2 1);
    ("typeIIb",             Limits 1 2 2 1);
    ("typeIIc",             Limits 1 2 2 1);
    ("typeIId",             Limits 1 2 2 1);
    ("typeIIIc",            Limits 1 2 2 1);
    ("typeIVc",             Limits 1 3 3 1);
    ("mori2006",            Limits 1 2 2 1);
    ("rigid",               Limits 1 1 1 1) ].
Proof. reflexivity. Qed.
