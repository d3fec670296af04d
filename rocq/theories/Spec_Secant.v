(** Vocabulary for the temperature search. *)
From Coq Require Import Reals.
Local Open Scope R_scope.

(** Between any two points of [lo, hi] the function's slope lies in [m, M]. *)
Definition slopes (g : R -> R) (lo hi m M : R) : Prop :=
  forall x y, lo <= x -> x < y -> y <= hi -> m * (y - x) <= g y - g x <= M * (y - x).
