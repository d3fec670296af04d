(** Vocabulary for dry ash-free coal. *)
From Coq Require Import Reals.
Local Open Scope R_scope.

(** Kilomoles of atoms in 1 kg with the given mass fractions of C, H, O, N, S. *)
Definition atoms_per_kg (yC yH yO yN yS : R) : R :=
  yC / 12.0107 + yH / 1.00794 + yO / 15.9994 + yN / 14.00674 + yS / 32.066.
(** The gas constant [J/mol/K]. *)
Definition Rgas : R := 8.314462618.
(** Energy of an Einstein oscillator with characteristic temperature [theta],
    in units of temperature, and its heat capacity relative to the classical value. *)
Definition einstein_energy (theta T : R) : R := theta / (exp (theta / T) - 1).
Definition einstein_cp (theta T : R) : R := (theta / T) ^ 2 * exp (theta / T) / (exp (theta / T) - 1) ^ 2.
