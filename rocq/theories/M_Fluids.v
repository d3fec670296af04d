(** The fluids shipped with auxi (materialphysicalproperties/gases.py and
    liquids.py), made of the polynomial models of the data files. *)
From Verif Require Import Prelude M_Thermochem M_Stoichiometry M_Coals M_Physical M_Data_Fluids.
From Coq Require Import Reals Qreals.
Local Open Scope list_scope.
Local Open Scope string_scope.

(** core.py/objects.py read: the attributes of the model as they are in the file. *)
Definition read_poly (p : qpoly) : poly_model :=
  mkpm (map Q2R (qp_coeffs p)) (Q2R (qp_min p)) (Some (Q2R (qp_max p))).
(** PolynomialModelT.read of a file in data/. *)
Definition poly_file (f : string) : model :=
  fun st => match lookup f fluid_data with Some p => poly_calculate (read_poly p) st | None => Err PyException end.
(** gases.py:102-107 and alike. *)
Definition gas_file (gas prop : string) : model :=
  poly_file (String.append gas (String.append "-" (String.append prop (String.append "-polynomialmodelt-dataset-" (String.append gas "-lienhard2018"))))).
(** gases.py:137-140 and alike: IgRhoT(M(formula), 101325.0). *)
Definition ideal_rho (formula : string) : model := fun st => (do m <- mm formula; rho_T m 101325 st)%R.
(** gases.py:83-111 *)
Definition gas_ideal (gas : string) (rho : model) : fluid :=
  [("rho", rho); ("beta", beta_T); ("Cp", gas_file gas "cp"); ("mu", gas_file gas "mu"); ("k", gas_file gas "k")].
(** gases.py:160-235: ammonia and carbon dioxide take the density from a polynomial too. *)
Definition gas_poly (gas : string) : fluid :=
  [("beta", beta_T); ("rho", gas_file gas "rho"); ("Cp", gas_file gas "cp"); ("mu", gas_file gas "mu"); ("k", gas_file gas "k")].
(** gases.py:387-404. *)
Definition air : fluid := gas_ideal "air" (rho_T (289645 / 10000)%R 101325%R).
Definition gases : gas_table :=
  [("Air", air); ("Ar", gas_ideal "argon" (ideal_rho "Ar")); ("NH3", gas_poly "ammonia"); ("CO2", gas_poly "carbon-dioxide");
   ("CO", gas_ideal "carbon-monoxide" (ideal_rho "CO")); ("N2", gas_ideal "nitrogen" (ideal_rho "N2"));
   ("O2", gas_ideal "oxygen" (ideal_rho "O2")); ("H2O", gas_ideal "water-vapour" (ideal_rho "H2O"))].
(** liquids.py:44-53. *)
Definition water : fluid :=
  [("beta", poly_file "water-beta"); ("Cp", poly_file "water-cp"); ("k", poly_file "water-k");
   ("mu", poly_file "water-mu"); ("nu", poly_file "water-nu"); ("rho", poly_file "water-rho")].
