(** Vocabulary for the files of compounds (C88). *)
From Verif Require Import Prelude M_Stoichiometry M_Thermochem M_Json M_JsonFiles Spec_Json.
From Coq Require Import Reals.
Local Open Scope list_scope.

(** A compound whose numbers are written faithfully and whose dictionaries have
    distinct keys; the keys of the records are numbers, no two of them equal. *)
Definition record_numbers (r : arecord) : list Qc := ar_Tmin r :: ar_Tmax r :: ar_coefficients r ++ ar_exponents r.
Definition keys_ok (ks : list text) : Prop := NoDup ks /\ ~ In (text_of "py/object") ks.
Record phase_ok (repr : Qc -> text) (float_of : text -> res Qc) (p : aphase) : Prop := mkphase_ok {
  po_numbers : Forall (faithful repr float_of) [ap_Tref p; ap_DHref p; ap_Sref p];
  po_records : Forall (fun kr => Forall (faithful repr float_of) (record_numbers (snd kr))) (ap_records p);
  po_keys : keys_ok (map fst (ap_records p));
  po_values : exists ts, mapM float_of (map fst (ap_records p)) = Ok ts /\ NoDup ts }.
Record compound_ok (repr : Qc -> text) (float_of : text -> res Qc) (c : acompound) : Prop := mkcompound_ok {
  co_mass : faithful repr float_of (ac_molar_mass c);
  co_keys : keys_ok (map fst (ac_phases c));
  co_phases : Forall (fun kp => phase_ok repr float_of (snd kp)) (ac_phases c) }.

(** Two compounds that no thermochemical function tells apart. *)
Definition same_thermo (a b : tcompound) : Prop :=
  tc_formula a = tc_formula b /\ tc_molar_mass a = tc_molar_mass b /\
  forall f, In f [phase_Cp; phase_H; phase_S; phase_G] -> forall ph T, compound_of f a ph T = compound_of f b ph T.
