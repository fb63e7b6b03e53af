(** IntSpec.v - calls whose arguments are integers, in any arithmetic (specification). *)
From Verif Require Import Base Num NumQ NumF StepPattern Window Core Backtrack Dtw Spec Api Tables Vocab Terms.
Open Scope string_scope.
Open Scope list_scope.
Open Scope nat_scope.

(** The arithmetic of a call: exact, or binary64 with separate or fused multiply-add. *)
Inductive arithmetic := Exactly | Doubles | DoublesFused.
Definition arith (a : arithmetic) : Num :=
  match a with Exactly => NumQ | Doubles => NumF | DoublesFused => NumFMA end.

(** A step pattern with fractional weights: a predefined name, or a table of the user's
    with its normalization hint. *)
Inductive ipattern :=
| IName (k : string)
| ITable (l : list wrule) (h : string).

(** Windows that do not compute with doubles: none, Itakura, a Sakoe-Chiba band of integer
    width, or a function of the user's. *)
Inductive iwindow :=
| INoWindow
| IItakura
| ISakoeChiba (width : Z)
| IUserWindow (f : Z -> Z -> Z -> Z -> bool).

(** The keyword arguments of dtw(). *)
Record iopts := mkIopts {
  i_pattern : ipattern; i_window : iwindow;
  i_keep_internals : bool; i_distance_only : bool; i_open_end : bool; i_open_begin : bool
}.

(** The productions of the pattern. *)
Definition irules (p : ipattern) : option (list wrule) :=
  match p with IName k => lookup k predefined | ITable l _ => Some l end.

Section IntSpec.
Context {N : Num}.

(** An integer local cost; None is NaN. *)
Definition int_cost (c : option Z) : N := match c with Some z => ofZ z | None => nan end.
Definition int_array (g : mat (option Z)) : ndarray N := NdArray (Nd2 (map_mat int_cost g)) true true.

Definition int_opts (o : iopts) : opts N :=
  mkOpts (match i_pattern o with
          | IName k => SPName k
          | ITable l h => SPObj (StepPat (table (productions l)) h)
          end)
         (match i_window o with
          | INoWindow => WTNone
          | IItakura => WTName "itakura"
          | ISakoeChiba _ => WTName "sakoechiba"
          | IUserWindow f => WTFun (UserWin (fun i j n m _ => Ok (f i j n m)))
          end)
         (match i_window o with ISakoeChiba s => [("window_size", ofZ s)] | _ => [] end)
         (i_keep_internals o) (i_distance_only o) (i_open_end o) (i_open_begin o).
End IntSpec.

(** dtw(g, ...) in arithmetic [a] *)
Definition int_dtw (a : arithmetic) (cdist : mat (arith a) -> mat (arith a) -> out (mat (arith a)))
  (g : mat (option Z)) (o : iopts) : out (DTW (arith a)) :=
  dtw cdist (int_array g) None (int_opts o).

(** Every production has whole non-negative weights, at most [k] times as many in total as it
    makes steps. *)
Definition whole_weights (k : Z) (l : list wrule) : Prop :=
  forall r, In r l ->
    (forall a, In a (w_add r) -> snd (snd a) = 1%Z /\ (0 <= fst (snd a))%Z) /\
    (fold_right Z.add 0 (map (fun a => fst (snd a)) (w_add r)) <= k * (Z.of_nat (w_di r) + Z.of_nat (w_dj r)))%Z.

(** The predefined patterns whose weights are whole numbers, and the [k] of each. *)
Definition whole_names : list string :=
  ["symmetric1"; "symmetric2"; "asymmetric"; "_asymmetricItakura"; "symmetricP0"; "asymmetricP0";
   "_asymmetricP0b"; "symmetricP05"; "symmetricP1"; "symmetricP2"; "typeIa"; "typeIb"; "typeIc";
   "typeId"; "typeIbs"; "typeIIa"; "typeIIb"; "typeIIc"; "typeIId"; "typeIIIc"; "typeIVc"; "mori2006"; "rigid"].
Definition weight_rate (kn : string) : Z := if String.eqb kn "mori2006" then 2%Z else 1%Z.

(** The costs are at most [c] in absolute value. *)
Definition costs_within (c : Z) (g : mat (option Z)) : Prop :=
  forall z, In (Some z) (dat g) -> (Z.abs z <= c)%Z.

(** Two results, possibly in different arithmetics, with the same alignment, the same integer
    distance, the same integer cumulative costs, and normalized distances that are the same
    integer divided by the same integer. *)
Definition same_int_result {N N' : Num} (d : DTW N) (d' : DTW N') : Prop :=
  r_N d = r_N d' /\ r_M d = r_M d' /\ r_jmin d = r_jmin d' /\ r_map d = r_map d' /\
  r_directionMatrix d = r_directionMatrix d' /\
  (exists z : Z, r_distance d = ofZ z /\ r_distance d' = ofZ z /\
     (exists gm : option (mat (option Z)),
        r_costMatrix d = option_map (map_mat int_cost) gm /\ r_costMatrix d' = option_map (map_mat int_cost) gm) /\
     ((exists k : Z, (1 <= k)%Z /\ r_normalizedDistance d = div (ofZ z) (ofZ k) /\ r_normalizedDistance d' = div (ofZ z) (ofZ k)) \/
      (r_normalizedDistance d = nan /\ r_normalizedDistance d' = nan))).
