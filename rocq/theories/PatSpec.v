(** PatSpec.v - vocabulary for C74: comparing step patterns. *)
From Verif Require Import Base Num StepPattern Window Dtw Spec.
Import ListNotations.
Open Scope string_scope.
Open Scope list_scope.
Open Scope nat_scope.

Section PatSpec.
Context {N : Num}.

(** [cheaper l' l]: the charges [l'] are among the charges [l], in the same order, at the same points, with
    weights that are not larger (all weights finite and non-negative). *)
Inductive cheaper : list (nat * nat * N) -> list (nat * nat * N) -> Prop :=
| cheaper_nil : cheaper [] []
| cheaper_less : forall p w' w l' l, leb (ofZ 0) w' = true -> leb w' w = true -> cheaper l' l -> cheaper ((p, w') :: l') ((p, w) :: l)
| cheaper_none : forall a l' l, isfin (snd a) = true -> leb (ofZ 0) (snd a) = true -> cheaper l' l -> cheaper l' (a :: l).

(** Productions applied one after the other, seen as one production: the displacements add up, and the points
    charged are counted from the last end point. *)
Fixpoint one_after_other (parts : list (rule N)) : rule N :=
  match parts with
  | [] => Rule 0 0 []
  | r :: rest =>
      let q := one_after_other rest in
      Rule (r_di r + r_di q) (r_dj r + r_dj q)
           (map (fun a => (fst (fst a) + r_di q, snd (fst a) + r_dj q, snd a)) (r_add r) ++ r_add q)
  end.

(** Every production of [rules] has a counterpart in [rules'] with the same displacement that charges less. *)
Definition cheaper_steps (rules' rules : list (rule N)) : Prop :=
  forall r, In r rules -> exists r', In r' rules' /\ r_di r' = r_di r /\ r_dj r' = r_dj r /\ cheaper (r_add r') (r_add r).

(** Every production of [rules] can be cut into productions of [rules'] that together charge less. *)
Definition finer_steps (rules' rules : list (rule N)) : Prop :=
  forall r, In r rules -> exists parts, parts <> [] /\ (forall q, In q parts -> In q rules') /\
    let r' := one_after_other parts in r_di r' = r_di r /\ r_dj r' = r_dj r /\ cheaper (r_add r') (r_add r).

(** The options with another step pattern. *)
Definition with_pattern (o : opts N) (s : sparg N) : opts N :=
  mkOpts s (o_window_type o) (o_window_args o) (o_keep_internals o) (o_distance_only o) (o_open_end o) (o_open_begin o).
End PatSpec.

(** Comparisons of the predefined step patterns: a pattern, and patterns that never give a smaller distance. *)
(** With every window. *)
Definition looser_any_window : list (string * list string) :=
  [("asymmetricP0", ["symmetric1"; "symmetric2"; "symmetricP0"; "rigid"]);
   ("_asymmetricP0b", ["symmetric1"; "symmetric2"; "symmetricP0"; "asymmetricP0"; "rigid"]);
   ("symmetric1", ["symmetric2"; "symmetricP0"; "rigid"]);
   ("symmetricP0", ["symmetric2"]);
   ("typeIIIc", ["_asymmetricItakura"; "symmetricP1"; "typeIb"; "typeId"; "typeIbs"; "typeIds"; "mori2006"; "rigid"]);
   ("typeIVc", ["_asymmetricItakura"; "symmetricP05"; "symmetricP1"; "typeIb"; "typeId"; "typeIbs"; "typeIds"; "typeIIIc"; "mori2006"; "rigid"]);
   ("symmetric2", ["symmetricP0"]);
   ("asymmetricP05", ["symmetricP05"; "symmetricP1"; "asymmetricP1"; "typeIb"; "typeId"; "typeIbs"; "typeIcs"; "typeIds"; "mori2006"; "rigid"]);
   ("_asymmetricItakura", ["symmetricP1"; "typeIb"; "typeId"; "typeIbs"; "typeIds"; "typeIIIc"; "mori2006"; "rigid"]);
   ("symmetricP05", ["symmetricP1"; "typeId"; "mori2006"]);
   ("asymmetricP1", ["symmetricP1"; "typeIb"; "typeId"; "typeIbs"; "typeIcs"; "typeIds"; "mori2006"; "rigid"]);
   ("typeIa", ["symmetricP1"; "typeIb"; "typeIc"; "typeId"; "typeIbs"; "typeIds"; "mori2006"; "rigid"]);
   ("typeIb", ["symmetricP1"; "typeId"; "typeIbs"; "typeIds"; "mori2006"; "rigid"]);
   ("typeIc", ["symmetricP1"; "typeIb"; "typeId"; "typeIbs"; "typeIds"; "mori2006"; "rigid"]);
   ("typeId", ["symmetricP1"; "mori2006"]);
   ("typeIas", ["symmetricP1"; "asymmetricP1"; "typeIb"; "typeId"; "typeIbs"; "typeIcs"; "typeIds"; "mori2006"; "rigid"]);
   ("typeIbs", ["symmetricP1"; "typeIb"; "typeId"; "typeIds"; "mori2006"; "rigid"]);
   ("typeIcs", ["symmetricP1"; "asymmetricP1"; "typeIb"; "typeId"; "typeIbs"; "typeIds"; "mori2006"; "rigid"]);
   ("typeIIa", ["symmetricP1"; "typeIb"; "typeId"; "typeIbs"; "typeIds"; "typeIIb"; "typeIIc"; "typeIId"; "mori2006"; "rigid"]);
   ("asymmetricP2", ["symmetricP2"; "rigid"]);
   ("symmetricP1", ["typeId"; "mori2006"]);
   ("typeIIc", ["typeIIb"; "typeIId"; "rigid"]);
   ("typeIIb", ["typeIId"; "rigid"]);
   ("asymmetric", ["rigid"])].
(** Without a window (the comparison needs to pass through cells in which the stricter pattern does not stop). *)
Definition looser_no_window : list (string * list string) :=
  [("_asymmetricP0b", ["asymmetric"; "_asymmetricItakura"; "symmetricP05"; "symmetricP1"; "symmetricP2"; "typeIb"; "typeIc"; "typeId"; "typeIbs"; "typeIds"; "typeIIIc"; "typeIVc"; "mori2006"]);
   ("asymmetric", ["_asymmetricItakura"; "symmetricP1"; "symmetricP2"; "typeIb"; "typeId"; "typeIbs"; "typeIds"; "typeIIIc"; "mori2006"]);
   ("symmetric1", ["symmetricP05"; "symmetricP1"; "symmetricP2"; "typeIb"; "typeId"; "typeIbs"; "typeIds"; "mori2006"]);
   ("symmetric2", ["symmetricP05"; "symmetricP1"; "symmetricP2"; "typeId"; "mori2006"]);
   ("symmetricP0", ["symmetricP05"; "symmetricP1"; "symmetricP2"; "typeId"; "mori2006"]);
   ("asymmetricP0", ["symmetricP05"; "symmetricP1"; "symmetricP2"; "typeIb"; "typeIc"; "typeId"; "typeIbs"; "typeIds"; "mori2006"]);
   ("_asymmetricItakura", ["symmetricP2"]);
   ("symmetricP05", ["symmetricP2"]);
   ("asymmetricP05", ["symmetricP2"]);
   ("symmetricP1", ["symmetricP2"]);
   ("asymmetricP1", ["symmetricP2"]);
   ("typeIa", ["symmetricP2"]);
   ("typeIb", ["symmetricP2"]);
   ("typeIc", ["symmetricP2"]);
   ("typeId", ["symmetricP2"]);
   ("typeIas", ["symmetricP2"]);
   ("typeIbs", ["symmetricP2"]);
   ("typeIcs", ["symmetricP2"]);
   ("typeIIa", ["symmetricP2"]);
   ("typeIIIc", ["symmetricP2"]);
   ("typeIVc", ["symmetricP2"])].
Definition listed (l : list (string * list string)) (k' k : string) : Prop :=
  exists v, lookup k' l = Some v /\ In k v.
