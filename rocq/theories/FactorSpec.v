(** FactorSpec.v - specification vocabulary for C82 (no proofs). *)
From Verif Require Import Base Num StepPattern Spec.
Open Scope list_scope.

(** The productions with all weights multiplied by [k]. *)
Definition times {N : Num} (k : N) (rules : list (rule N)) : list (rule N) :=
  map (fun r => Rule (r_di r) (r_dj r) (map (fun a => (fst a, mul k (snd a))) (r_add r))) rules.
Open Scope string_scope.
Open Scope Z_scope.
(** A predefined step pattern, and others with factors: the first gives at most that many times the distance of the others
    (factors that are not listed are 1, see [looser_any_window], or not known). *)
Definition factor_table : list (string * list (string * Z)) :=
  [("symmetric2", [("symmetric1", 2); ("rigid", 2)]);
   ("_asymmetricItakura", [("asymmetricP1", 2); ("typeIas", 2); ("typeIcs", 2)]);
   ("symmetricP0", [("symmetric1", 2); ("rigid", 2)]);
   ("symmetricP05", [("asymmetricP05", 6); ("asymmetricP1", 4); ("typeIb", 2); ("typeIas", 4); ("typeIbs", 2); ("typeIcs", 4); ("typeIds", 2); ("rigid", 2)]);
   ("asymmetricP05", [("typeIas", 2)]);
   ("symmetricP1", [("asymmetricP1", 4); ("typeIb", 2); ("typeIas", 4); ("typeIbs", 2); ("typeIcs", 4); ("typeIds", 2); ("rigid", 2)]);
   ("asymmetricP1", [("typeIas", 2)]);
   ("symmetricP2", [("asymmetricP2", 3); ("rigid", 2)]);
   ("typeIa", [("asymmetricP1", 2); ("typeIas", 2); ("typeIcs", 2)]);
   ("typeIb", [("asymmetricP1", 2); ("typeIas", 2); ("typeIcs", 2)]);
   ("typeIc", [("asymmetricP1", 2); ("typeIas", 2); ("typeIcs", 2)]);
   ("typeId", [("asymmetricP1", 4); ("typeIb", 2); ("typeIas", 4); ("typeIbs", 2); ("typeIcs", 4); ("typeIds", 2); ("rigid", 2)]);
   ("typeIbs", [("asymmetricP1", 2); ("typeIas", 2); ("typeIcs", 2)]);
   ("typeIcs", [("typeIas", 2)]);
   ("typeIds", [("symmetricP1", 2); ("asymmetricP1", 3); ("typeIb", 2); ("typeId", 2); ("typeIas", 3); ("typeIbs", 2); ("typeIcs", 3); ("mori2006", 2); ("rigid", 2)]);
   ("typeIIa", [("asymmetricP1", 2); ("typeIas", 2); ("typeIcs", 2)]);
   ("typeIIb", [("symmetricP1", 2); ("asymmetricP1", 4); ("typeIb", 2); ("typeId", 2); ("typeIas", 4); ("typeIbs", 2); ("typeIcs", 4); ("typeIds", 2); ("typeIIa", 2); ("typeIIc", 2); ("mori2006", 2)]);
   ("typeIIc", [("symmetricP1", 2); ("asymmetricP1", 2); ("typeIb", 2); ("typeId", 2); ("typeIas", 4); ("typeIbs", 2); ("typeIcs", 2); ("typeIds", 2); ("typeIIa", 2); ("mori2006", 2)]);
   ("typeIId", [("symmetricP1", 3); ("asymmetricP1", 6); ("typeIb", 3); ("typeId", 3); ("typeIas", 6); ("typeIbs", 3); ("typeIcs", 6); ("typeIds", 2); ("typeIIa", 3); ("typeIIb", 2); ("typeIIc", 3); ("mori2006", 3); ("rigid", 2)]);
   ("typeIIIc", [("asymmetricP1", 2); ("typeIas", 2); ("typeIcs", 2)]);
   ("typeIVc", [("asymmetricP05", 3); ("asymmetricP1", 2); ("typeIas", 2); ("typeIcs", 2)]);
   ("mori2006", [("symmetricP1", 3); ("asymmetricP1", 6); ("typeIb", 3); ("typeId", 3); ("typeIas", 6); ("typeIbs", 3); ("typeIcs", 6); ("typeIds", 2); ("rigid", 3)])].
Definition factor_listed (k' k : string) (z : Z) : Prop :=
  exists l, lookup k' factor_table = Some l /\ lookup k l = Some z.
