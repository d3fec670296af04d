(** Vocabulary for the transport formulas in floats. *)
From Verif Require Import Prelude M_Ieee Spec_Ieee M_Transport Spec_Transport.
From Coq Require Import Reals.
From Flocq Require Import Core BinarySingleNaN.
Local Open Scope R_scope.

(** Between 2^-a and 2^a. *)
Definition sized (a : nat) (x : float64) : Prop := finite x /\ / 2 ^ a <= value x <= 2 ^ a.
(** A power function whose results are at most one unit in the last place
    (2^-52, twice [ulp_half]) off, as long as they are far from overflow and
    underflow. *)
Definition accurate_power (pow64 : float64 -> float64 -> res float64) : Prop :=
  forall x y, finite x -> finite y -> 0 < value x -> / 2 ^ 1000 <= Rpower (value x) (value y) <= 2 ^ 1000 ->
  exists z, pow64 x y = Ok z /\ finite z /\ Rabs (value z - Rpower (value x) (value y)) <= 2 * ulp_half * Rpower (value x) (value y).
(** The Grashof number without rounding. *)
Definition grashof (L Ts Tf beta nu g : R) : R := g * beta * (Ts - Tf) * L ^ 3 / nu ^ 2.
(** A decimal logarithm that is at most one unit in the last place off outside of
    [1/10, 10]. *)
Definition accurate_log (log64 : float64 -> float64) : Prop :=
  forall x, finite x -> 0 < value x -> value x <= / 10 \/ 10 <= value x -> finite (log64 x) /\ Rabs (value (log64 x) - lg (value x)) <= 2 * ulp_half * Rabs (lg (value x)).
(** The square of a negative number is that of the positive one. *)
Definition even_square (pow64 : float64 -> float64 -> res float64) (two : float64) : Prop := forall x, finite x -> pow64 x two = pow64 (neg64 x) two.
