(** Vocabulary for streams of coal.  [F c] is the formula of compound [c]. *)
From Verif Require Import Prelude M_Stoichiometry M_Thermochem M_Coals M_ThermoMat M_Streams Spec_Stoich Spec_Thermo Spec_ThermoMat.
From Coq Require Import Reals.
Local Open Scope list_scope.
Local Open Scope R_scope.

(** The compounds are formulas, before the phase in brackets. *)
Definition formula_of (m : material) (F : string -> formula) : Prop :=
  forall c, In c (tm_compounds m) -> proper (formula_part c) (F c) /\ has_atoms (F c).
(** The element of C, H, O, N, S that is all of the compound's mass, if any. *)
Definition pure_element (F : string -> formula) (c : string) : option string :=
  find (fun e => if Req_EM_T (element_share e (F c)) 1 then true else false) ["C"%string; "H"%string; "O"%string; "N"%string; "S"%string].
(** Flow rate of one such element, and of all five: the dry ash-free coal. *)
Definition daf_mass (F : string -> formula) (b : package) (e : string) : R :=
  weigh (fun c => match pure_element F c with Some d => if string_dec d e then 1 else 0 | None => 0 end) b.
Definition daf (F : string -> formula) (b : package) : R :=
  daf_mass F b "C" + daf_mass F b "H" + daf_mass F b "O" + daf_mass F b "N" + daf_mass F b "S".
(** Enthalpy of the other compounds at [T], and of the five elements' compounds at 25 degrees. *)
Definition ash_enthalpy (db : database) (F : string -> formula) (b : package) (T : R) : R :=
  weigh (fun c => match pure_element F c with Some _ => 0 | None => specific_H db c T end) b.
Definition elements_enthalpy (db : database) (F : string -> formula) (b : package) : R :=
  weigh (fun c => match pure_element F c with Some _ => specific_H db c 25 | None => 0 end) b.
(** Enthalpy at 25 degrees of what the daf coal burns to: CO2, liquid water,
    SO2, and its oxygen and nitrogen; molar masses in kg/kmol. *)
Definition burnt_enthalpy (db : database) (F : string -> formula) (b : package) : R :=
  specific_H db "CO2[G]" 25 * (daf_mass F b "C" * (44.0095 / 12.0107)) + specific_H db "H2O[L]" 25 * (daf_mass F b "H" * (18.01528 / 2.01588)) +
  specific_H db "O2[G]" 25 * daf_mass F b "O" + specific_H db "N2[G]" 25 * daf_mass F b "N" + specific_H db "SO2[G]" 25 * (daf_mass F b "S" * (64.0648 / 32.066)).
(** The database has the products of combustion. *)
Definition products_known (db : database) : Prop :=
  forall c, In c ["CO2[G]"%string; "H2O[L]"%string; "O2[G]"%string; "N2[G]"%string; "SO2[G]"%string] -> exists v, thermo_H db c 25 1 = Ok v.
(** Enthalpy of 1 kg daf coal of the stream's composition over that at 25 degrees [kWh]. *)
Definition daf_heat (F : string -> formula) (b : package) (T : R) : R :=
  let y e := daf_mass F b e / daf F b in
  let h TK := value (daf_H TK (y "C"%string) (y "H"%string) (y "O"%string) (y "N"%string) (y "S"%string)) in
  (h (T + 273.15) - h 298.15) / 3600000.
(** HHV of the coal, if given, and the heat of all of the coal [kWh/h]; HHV is in MJ/kg. *)
Definition heat_of_combustion (hhv : R) (b : package) : R := hhv / 3.6 * mass_of b.
(** A stream of coal whose compounds, and the products of combustion, the
    database knows, with something to burn. *)
Definition coal_stream (db : database) (F : string -> formula) (b : package) : Prop :=
  wf b /\ known db (tp_material b) /\ formula_of (tp_material b) F /\ products_known db /\ not_negative b /\ 0 < daf F b /\ tp_coal b = true.
(** Enthalpy at [T] of coal with higher heating value [hhv]: the ash, the
    sensible heat of the daf coal, and the products of burning it plus the heat
    that burning releases. *)
Definition coal_enthalpy (db : database) (F : string -> formula) (hhv : R) (b : package) (T : R) : R :=
  ash_enthalpy db F b T + daf F b * daf_heat F b T + burnt_enthalpy db F b + heat_of_combustion hhv b.
