(** Vocabulary: numbers with special values (M_Float.fl) against binary64. *)
From Verif Require Import Prelude M_Float M_Ieee Spec_Ieee.
From Verif Require P_FloatReports2.
From Coq Require Import Reals Qreals.
From Flocq Require Import Core BinarySingleNaN.
Local Open Scope R_scope.

(** The number without rounding, or the special value, that a float64 is. *)
Definition reading (x : float64) : fl :=
  match x with
  | B754_nan => NaN
  | B754_infinity s => Inf s
  | _ => Fin (P_FloatReports2.qval x)
  end.
(** Rounding to the nearest float64, ties to even, without an upper limit. *)
Definition nearest (v : R) : R := round radix2 (FLT_exp (-1074) 53) ZnearestE v.
(** The float64 [x] is what the result [r] of the unrounded arithmetic becomes:
    the same special value, or the number rounded if it is within range. *)
Definition rounds_to (r : fl) (x : float64) : Prop :=
  match r with
  | NaN => x = B754_nan
  | Inf s => x = B754_infinity s
  | Fin q => Rabs (nearest (Q2R q)) < 2 ^ 1024 -> finite x /\ value x = nearest (Q2R q)
  end.
