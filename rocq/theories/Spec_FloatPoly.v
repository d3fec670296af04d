(** What it means that a property model calculated in binary64 is accurate. *)
From Verif Require Import Prelude M_Lists M_Ieee Spec_Ieee Spec_Special Spec_Physical M_Data_Fluids.
From Coq Require Import Reals Qreals.
Import ListNotations.
Local Open Scope list_scope.
Local Open Scope R_scope.

(** The sum of the sizes of the terms of a polynomial at T. *)
Definition size_sum (cs : list float64) (T : R) : R := power_sum (map (fun c => Rabs (value c)) cs) (Rabs T).
(** 1 + |T| + ... + |T|^(n-1) *)
Definition powers (n : nat) (T : R) : R := power_sum (repeat 1 n) (Rabs T).
(** The float that a decimal number in a file becomes. *)
Definition reads (q : Q) (x : float64) : Prop := finite x /\ value x = nearest (Q2R q).
(** The coefficients and limits of a model as they are in the memory of the program. *)
Definition reads_model (p : qpoly) (cs : list float64) (lo hi : float64) : Prop :=
  Forall2 reads (qp_coeffs p) cs /\ reads (qp_min p) lo /\ reads (qp_max p) hi.
(** The largest relative error of a shipped model that rounding causes: water-beta
    has none, since it changes sign. *)
Definition accuracy (f : string) : Q :=
  if member string_dec f ["water-mu"; "water-nu"]%string then 5 # 100000
  else if member string_dec f ["air-rho-polynomialmodelt-dataset-air-lienhard2015"; "air-rho-polynomialmodelt-dataset-air-lienhard2018"]%string then 5 # 1000000
  else if String.eqb f "water-cp" then 2 # 10000000
  else if member string_dec f ["air-cp-polynomialmodelt-dataset-air-lienhard2015"; "air-cp-polynomialmodelt-dataset-air-lienhard2018"]%string then 2 # 100000000
  else if member string_dec f ["ammonia-rho-polynomialmodelt-dataset-ammonia-lienhard2018"; "carbon-dioxide-rho-polynomialmodelt-dataset-carbon-dioxide-lienhard2018";
    "carbon-monoxide-rho-polynomialmodelt-dataset-carbon-monoxide-lienhard2018"; "argon-rho-polynomialmodelt-dataset-argon-lienhard2018"; "water-rho"; "water-k";
    "water-vapour-rho-polynomialmodelt-dataset-water-vapour-lienhard2018"; "water-vapour-cp-polynomialmodelt-dataset-water-vapour-lienhard2018";
    "oxygen-rho-polynomialmodelt-dataset-oxygen-lienhard2018"; "nitrogen-rho-polynomialmodelt-dataset-nitrogen-lienhard2018"]%string then 2 # 1000000000
  else 1 # 100000000000.
