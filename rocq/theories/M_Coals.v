(** Model of auxi/tools/materialphysicalproperties/coals.py over the real
    numbers.  Overflow of math.exp is not modelled. *)
From Verif Require Import Prelude M_Stoichiometry M_Thermochem.
From Coq Require Import Reals.
Local Open Scope R_scope.

(** auxi/tools/physicalconstants.py:47. *)
Definition gas_constant : R := 8314462618 / 1000000000.

(** stoichiometry.molar_mass as a real number. *)
Definition mm (c : string) : res R := do m <- molar_mass (Some c); Ok (Q2R (this m)).

(** coals.py:54-71. *)
Definition calc_a (y_C y_H y_O y_N y_S : R) : res R :=
  do mC <- mm "C"%string; do mH <- mm "H"%string; do mO <- mm "O"%string; do mN <- mm "N"%string; do mS <- mm "S"%string;
  do c <- rdiv y_C mC; do h <- rdiv y_H mH; do o <- rdiv y_O mO; do n <- rdiv y_N mN; do s <- rdiv y_S mS;
  rdiv 1 (c + h + o + n + s).

(** coals.py:85-92. *)
Definition calc_g1 (z : R) : res R := do d <- rdiv (exp z - 1) z; rdiv (exp z) (d ^ 2).
(** coals.py:94-121, DafCpTy.calculate. *)
Definition daf_Cp (T y_C y_H y_O y_N y_S : R) : res R :=
  do a <- calc_a y_C y_H y_O y_N y_S;
  let a := a / 1000 in
  do ra <- rdiv gas_constant a;
  do z1 <- rdiv 380 T; do g1 <- calc_g1 z1;
  do z2 <- rdiv 1800 T; do g2 <- calc_g1 z2;
  Ok (ra * (g1 + 2 * g2)).

(** coals.py:134-141. *)
Definition calc_g0 (z : R) : res R := rdiv 1 (exp z - 1).
(** coals.py:143-170, DafHTy.calculate. *)
Definition daf_H (T y_C y_H y_O y_N y_S : R) : res R :=
  do a <- calc_a y_C y_H y_O y_N y_S;
  let a := a / 1000 in
  do ra <- rdiv gas_constant a;
  do z1 <- rdiv 380 T; do g1 <- calc_g0 z1;
  do z2 <- rdiv 1800 T; do g2 <- calc_g0 z2;
  Ok (ra * (380 * g1 + 3600 * g2)).
