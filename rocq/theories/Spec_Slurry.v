(** Independent vocabulary for slurry packages with finite masses. *)
From Verif Require Import Prelude M_Lists M_Float M_Slurry Spec_Material.
Local Open Scope list_scope.

(** The water mass is the number [w], the solid masses are [ms], one per size class. *)
Definition sound (p : package) (w : Qc) (ms : list Qc) : Prop :=
  sk_water p = Fin w /\ sk_masses p = map Fin ms /\ length ms = length (sl_classes (sk_material p)).
(** Mass of a size class (zero if the material has no such class). *)
Definition class_mass (p : package) (ms : list Qc) (s : Qc) : Qc := content qdec (sl_classes (sk_material p)) ms s.
(** Materials are Python objects: equal identities are equal objects. *)
Definition same_objects (a b : material) : Prop := sl_id a = sl_id b -> a = b.
(** The second package's size classes exist in the first material. *)
Definition addable (p o : package) : Prop :=
  sl_id (sk_material p) <> sl_id (sk_material o) -> NoDup (sl_classes (sk_material o)) /\ incl (sl_classes (sk_material o)) (sl_classes (sk_material p)).
