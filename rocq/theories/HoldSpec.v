(** HoldSpec.v - series with held (repeated) samples (specification for C65). *)
From Verif Require Import Base Num StepPattern Window Core Backtrack Dtw Spec Api Tables Vocab Terms.
Open Scope nat_scope.

(** [f] reads a series of n samples as one of n' samples in which samples are held: it starts
    at the first sample, ends at the last, and each tick stays or goes on by one. *)
Definition holds_samples (f : nat -> nat) (n n' : nat) : Prop :=
  f 0 = 0 /\ f (n' - 1) = n - 1 /\ forall t, S t < n' -> f (S t) = f t \/ f (S t) = S (f t).
(** The local costs of a query read through [f] and a reference read through [h]. *)
Definition held {N : Num} (f h : nat -> nat) (lm lm' : mat N) : Prop :=
  holds_samples f (nr lm) (nr lm') /\ holds_samples h (nc lm) (nc lm') /\
  forall i j, i < nr lm' -> j < nc lm' -> cell lm' i j = cell lm (f i) (h j).

(** Each production charges the point it reaches, once or twice, and what is left of the production when
    its step is shortened - in the query only if [q], in the reference only if [r] - is no step at all or a
    production that charges no more. *)
Definition can_shorten {N : Num} (q r : bool) (rules : list (rule N)) : Prop :=
  forall p, In p rules -> exists k, (k = 1 \/ k = 2)%Z /\ r_add p = [(0, 0, ofZ k)] /\
    forall a b, a <= r_di p -> (q = false -> a = r_di p) -> b <= r_dj p -> (r = false -> b = r_dj p) ->
      (a = 0 /\ b = 0) \/
      exists p' k', In p' rules /\ r_di p' = a /\ r_dj p' = b /\ (k' = 1 \/ k' = k)%Z /\ r_add p' = [(0, 0, ofZ k')].
