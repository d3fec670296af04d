(** Independent vocabulary for chem packages. *)
From Verif Require Import Prelude M_Elements M_Stoichiometry M_Chem Spec_Stoich Spec_Material.
Local Open Scope list_scope.

(** One mass per compound. *)
Definition wf (p : package) : Prop := length (p_masses p) = length (m_compounds (p_material p)).
(** The masses as numbers, and the mass of one compound. *)
Definition vals (p : package) : list Qc := map val (p_masses p).
Definition has (p : package) (c : string) : Qc := content string_dec (m_compounds (p_material p)) (vals p) c.
(** All masses are Python floats. *)
Definition floats (p : package) : Prop := forall x, In x (p_masses p) -> exists q, x = NFloat q.
(** Every compound is a formula with atoms. *)
Definition formulas (m : material) : Prop := forall c, In c (m_compounds m) -> exists f, proper c f /\ has_atoms f.
(** The same without surrounding blanks, as in a file. *)
Definition exact_formulas (m : material) : Prop := forall c, In c (m_compounds m) -> exists f, gen_compound (text_of c) f /\ all_known f /\ has_atoms f.
(** The element list is the one the constructor makes (chem.py:121). *)
Definition listed (m : material) : Prop := create_element_list (m_compounds m) = Ok (m_elements m).
