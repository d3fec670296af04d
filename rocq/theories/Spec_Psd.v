(** Independent vocabulary for psd packages with finite masses. *)
From Verif Require Import Prelude M_Lists M_Float M_Psd Spec_Material.
Local Open Scope list_scope.

(** Every mass is an ordinary number, and there is one per size class. *)
Definition sound (p : package) (ms : list Qc) : Prop := pk_masses p = map Fin ms /\ length ms = length (ps_classes (pk_material p)).
(** Mass of a size class (zero if the material has no such class). *)
Definition class_mass (p : package) (ms : list Qc) (s : Qc) : Qc := content qdec (ps_classes (pk_material p)) ms s.
