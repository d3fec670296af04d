(** What it means that a shipped polynomial model agrees with the measurements
    it was made from, without reference to how models calculate. *)
From Verif Require Import Prelude M_Thermochem M_Data_Measured.
From Coq Require Import Reals Qreals.
Local Open Scope R_scope.

(** The i-th row of the data set of the model in file f measures y, the property
    of that model, at temperature T. *)
Definition row_of (f : string) (i : nat) (T y : Q) : Prop := exists s d ts ys,
  lookup f model_sources = Some s /\ lookup (src_dataset s) measured_data = Some d /\
  lookup "T" (ms_columns d) = Some ts /\ lookup (src_symbol s) (ms_columns d) = Some ys /\ nth_error ts i = Some T /\ nth_error ys i = Some y.
(** y was measured at T; y1 was measured at T1 and y2 at T2, the next row. *)
Definition measured_in (f : string) (T y : Q) : Prop := exists i, row_of f i T y.
Definition neighbours (f : string) (T1 y1 T2 y2 : Q) : Prop := exists i, row_of f i T1 y1 /\ row_of f (S i) T2 y2.
(** v differs from w by at most the given part of w. *)
Definition within_part (tol v w : R) : Prop := Rabs (v - w) <= tol * Rabs w.
(** v is that close to some value between a and b. *)
Definition about_between (tol v a b : R) : Prop := exists w, Rmin a b <= w <= Rmax a b /\ within_part tol v w.
(** How closely: 0.6 % for heat capacities, 3.1 % for the other properties. *)
Definition tolerance (symbol : string) : Q := if String.eqb symbol "Cp" then (6 # 1000)%Q else (31 # 1000)%Q.
Definition symbol_of (f : string) : string := match lookup f model_sources with Some s => src_symbol s | None => ""%string end.
(** The four files whose models fluctuate between the measurements. *)
Definition fluctuating : list string :=
  ["air-rho-polynomialmodelt-dataset-air-lienhard2015"; "air-rho-polynomialmodelt-dataset-air-lienhard2018";
   "nitrogen-rho-polynomialmodelt-dataset-nitrogen-lienhard2018"; "oxygen-rho-polynomialmodelt-dataset-oxygen-lienhard2018"]%string.
(** The fluids, the data set that each should rest on, and the properties taken
    from it. *)
Definition resting : list (string * string * string * list string) :=
  [("Air", "Air", "dataset-air-lienhard2018.csv", ["Cp"; "mu"; "k"]); ("Ar", "Argon", "dataset-argon-lienhard2018.csv", ["Cp"; "mu"; "k"]);
   ("NH3", "Ammonia", "dataset-ammonia-lienhard2018.csv", ["rho"; "Cp"; "mu"; "k"]); ("CO2", "Carbon Dioxide", "dataset-carbon-dioxide-lienhard2018.csv", ["rho"; "Cp"; "mu"; "k"]);
   ("CO", "Carbon Monoxide", "dataset-carbon-monoxide-lienhard2018.csv", ["Cp"; "mu"; "k"]); ("N2", "Nitrogen", "dataset-nitrogen-lienhard2018.csv", ["Cp"; "mu"; "k"]);
   ("O2", "Oxygen", "dataset-oxygen-lienhard2018.csv", ["Cp"; "mu"; "k"]); ("H2O", "Water Vapour", "dataset-water-vapour-lienhard2018.csv", ["Cp"; "mu"; "k"]);
   ("water", "Water", "dataset-water-lienhard2015.csv", ["beta"; "Cp"; "k"; "mu"; "nu"; "rho"])]%string.
