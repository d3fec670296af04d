(** Vocabulary for C97: the fluids that are shipped, and what a drawing of a
    mixture model shows. *)
From Verif Require Import Prelude M_Thermochem.
From Coq Require Import Reals.
Local Open Scope R_scope.

(** Key in the dictionary of materials, and the fluid's name. *)
Definition titles : list (string * string) :=
  [("Air", "Air"); ("Ar", "Argon"); ("NH3", "Ammonia"); ("CO2", "Carbon Dioxide"); ("CO", "Carbon Monoxide"); ("N2", "Nitrogen"); ("O2", "Oxygen"); ("H2O", "Water Vapour")]%string.
(** lo is the least of ts. *)
Definition least (ts : list R) (lo : R) : Prop := In lo ts /\ forall t, In t ts -> lo <= t.
(** Eighty points from x = a to x = b, evenly spaced, each on the law. *)
Definition evenly_drawn (a b : R) (law : R -> R -> Prop) (line : list (R * R)) : Prop :=
  length line = 80%nat /\ forall i, (i < 80)%nat -> exists y, nth_error line i = Some (a + INR i / 79 * (b - a), y) /\ law (a + INR i / 79 * (b - a)) y.
