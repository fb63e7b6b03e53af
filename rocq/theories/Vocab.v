(** Vocab.v - further specification vocabulary used in theorem statements. *)
From Verif Require Import Base Num StepPattern Window Core Backtrack Dtw Spec Api Tables.
Open Scope string_scope.
Open Scope list_scope.
Open Scope nat_scope.

(** A list of integers that never decreases. *)
Definition nondecreasing (l : list Z) : Prop :=
  forall a b x y, a <= b -> nth_error l a = Some x -> nth_error l b = Some y -> (x <= y)%Z.
Definition within (lo hi : Z) (l : list Z) : Prop := forall x, In x l -> (lo <= x < hi)%Z.
Definition first_is (x : Z) (l : list Z) : Prop := nth_error l 0 = Some x.
Definition last_is (x : Z) (l : list Z) : Prop := exists l', l = l' ++ [x].

Section Vocab.
Context {N : Num}.

(** ** Replaying a sequence of productions *)

(** The cells passed when the productions [ks] are applied one after the other from
    (i,j): for each production its intermediate points, then its end point. *)
Fixpoint replay (rules : list (rule N)) (i j : nat) (ks : list nat) : list point :=
  match ks with
  | [] => []
  | k :: ks' =>
      match rule_no rules k with
      | None => []
      | Some r =>
          let i' := i + r_di r in
          let j' := j + r_dj r in
          inner_points r i' j' ++ (i', j') :: replay rules i' j' ks'
      end
  end.
(** Only the end points of the productions. *)
Fixpoint replay_ends (rules : list (rule N)) (i j : nat) (ks : list nat) : list point :=
  match ks with
  | [] => []
  | k :: ks' =>
      match rule_no rules k with
      | None => []
      | Some r => (i + r_di r, j + r_dj r) :: replay_ends rules (i + r_di r) (j + r_dj r) ks'
      end
  end.
(** The weighted local costs added up on the way, starting from [c]. *)
Fixpoint replay_cost (rules : list (rule N)) (cost : nat -> nat -> N) (i j : nat) (c : N)
         (ks : list nat) : N :=
  match ks with
  | [] => c
  | k :: ks' =>
      match rule_no rules k with
      | None => nan
      | Some r => replay_cost rules cost (i + r_di r) (j + r_dj r)
                    (charge cost r (i + r_di r) (j + r_dj r) c) ks'
      end
  end.

(** ** Conditions on patterns and costs *)
Definition nonneg_weights (rules : list (rule N)) : Prop :=
  forall r a, In r rules -> In a (r_add r) -> leb (ofZ 0) (snd a) = true.
(** Every local cost is >= 0 or missing (NaN). *)
Definition nonneg_costs (lm : mat N) : Prop :=
  forall i j, i < nr lm -> j < nc lm ->
    leb (ofZ 0) (cell lm i j) = true \/ isnan (cell lm i j) = true.

(** [lm'] is [lm] with some costs raised, possibly to NaN. *)
Definition raised (lm lm' : mat N) : Prop :=
  nr lm' = nr lm /\ nc lm' = nc lm /\
  forall i j, i < nr lm -> j < nc lm ->
    leb (cell lm i j) (cell lm' i j) = true \/ isnan (cell lm' i j) = true.

(** Every cell the first window admits is admitted by the second one. *)
Definition window_within (w1 : winfun N) (kw1 : kwargs N) (w2 : winfun N) (kw2 : kwargs N)
           (n m : nat) : Prop :=
  forall i j, i < n -> j < m -> in_window w1 kw1 n m i j -> in_window w2 kw2 n m i j.

(** A window whose answer does not depend on the sizes of the series. *)
Definition ignores_sizes (w : winfun N) (kw : kwargs N) : Prop :=
  match w with
  | NoWindow => True
  | _ => forall i j n m n' m', call_window w i j n m kw = call_window w i j n' m' kw
  end.

(** The leading n x m block of a matrix. *)
Definition leading (lm : mat N) (n m : nat) : mat N :=
  Mat n m (map (fun ij => cell lm (fst ij) (snd ij)) (indices n m)).

(** Transposition of matrices. *)
Definition transpose {A} (d : A) (g : mat A) : mat A :=
  Mat (nc g) (nr g)
      (map (fun ij => match mget g (snd ij) (fst ij) with Some v => v | None => d end)
           (indices (nc g) (nr g))).

End Vocab.
