(** Independent vocabulary for the thermo material packages: every additive
    quantity of a package (mass, mass of a compound, mass of an element, amount,
    enthalpy at a temperature) is a sum over the compounds of a specific value
    times the compound's mass. *)
From Verif Require Import Prelude M_Stoichiometry M_Thermochem M_ThermoMat Spec_Stoich Spec_Thermo.
From Verif Require M_Chem.
From Coq Require Import Reals.
Local Open Scope list_scope.
Local Open Scope R_scope.

(** Sum over the compounds of [w compound] times the mass. *)
Definition weigh_list (w : string -> R) (cs : list string) (ms : list R) : R :=
  fold_right (fun cm a => w (fst cm) * snd cm + a) 0 (combine cs ms).
Definition weigh (w : string -> R) (p : package) : R := weigh_list w (tm_compounds (tp_material p)) (tp_masses p).
(** Total mass and mass of one compound. *)
Definition mass_of (p : package) : R := weigh (fun _ => 1) p.
Definition has (p : package) (c : string) : R := weigh (fun d => if string_dec d c then 1 else 0) p.
(** One mass for each of distinct compounds, none of them negative. *)
Definition wf (p : package) : Prop := NoDup (tm_compounds (tp_material p)) /\ length (tp_masses p) = length (tm_compounds (tp_material p)).
Definition not_negative (p : package) : Prop := forall x, In x (tp_masses p) -> 0 <= x.

(** The database has the enthalpy of every compound at every temperature. *)
Definition known (db : database) (m : material) : Prop := forall c T, In c (tm_compounds m) -> exists v, thermo_H db c T 1 = Ok v.
(** Enthalpy of 1 kg of a compound [kWh]. *)
Definition specific_H (db : database) (c : string) (T : R) : R := value (thermo_H db c T 1).
(** Enthalpy of what the package holds, at temperature [T]. *)
Definition enthalpy (db : database) (p : package) (T : R) : R := weigh (fun c => specific_H db c T) p.
(** The stored enthalpy is that of the contents at the stored temperature. *)
Definition consistent (db : database) (p : package) : Prop := tp_H p = enthalpy db p (tp_T p).

(** Mass fraction of an element in a formula: atoms times atomic mass over molar mass. *)
Definition element_share (el : string) (f : formula) : R := Q2R (this (element_mass el f 1)).
(** Every compound is a formula with atoms. *)
Definition formulas (m : material) : Prop := forall c, In c (tm_compounds m) -> exists f, proper c f /\ has_atoms f.

(** The compound is a phase of the database without magnetic data, with heat
    capacity records that follow one another from 298.15 K. *)
Definition regular_compound (db : database) (c : string) : Prop :=
  exists fo ph tc p, split_compound_string c = Ok (fo, ph) /\ lookup fo db = Some tc /\ 0 < tc_molar_mass tc /\ lookup ph (tc_phases tc) = Some p /\ regular p.
Definition regular_material (db : database) (m : material) : Prop := forall c, In c (tm_compounds m) -> regular_compound db c.
(** Between [lo] and [hi] degrees the heat capacity of 1 kg of each compound
    lies between its [a] and [k] times that. *)
Definition heat_capacities (db : database) (m : material) (lo hi : R) (a : string -> R) (k : R) : Prop :=
  forall c T, In c (tm_compounds m) -> lo <= T <= hi -> exists v, thermo_Cp db c T 1 = Ok v /\ a c <= v <= k * a c.
(** The material's formulas are written without surrounding blanks, and its
    element list is the one its constructor makes (thermo.py:152). *)
Definition exact_formulas (m : material) : Prop := forall c, In c (tm_compounds m) -> exists f, gen_compound (text_of c) f /\ all_known f /\ has_atoms f.
Definition listed (m : material) : Prop := M_Chem.create_element_list (tm_compounds m) = Ok (tm_elements m).
(** Kilomoles in 1 kg of a formula. *)
Definition moles_per_kg (f : formula) : R := 1 / Q2R (this (weight (fun s => atoms s f))).
