(** What it means to fit a polynomial to measurements, without reference to the
    program. *)
From Coq Require Import Reals List.
Import ListNotations.
Local Open Scope R_scope.

(** A polynomial function of degree at most d. *)
Definition polynomial (d : nat) (f : R -> R) : Prop := exists c : nat -> R, forall x, f x = sum_f_R0 (fun i => c i * x ^ i) d.
(** The sum of the squared deviations of f from the measurements (t, y). *)
Fixpoint deviation (f : R -> R) (data : list (R * R)) : R :=
  match data with [] => 0 | (t, y) :: r => (f t - y) ^ 2 + deviation f r end.
(** f deviates least from the measurements among the polynomials of degree at
    most d. *)
Definition best_fit (d : nat) (f : R -> R) (data : list (R * R)) : Prop :=
  polynomial d f /\ forall g, polynomial d g -> deviation f data <= deviation g data.
(** The measurements were made at more than d different temperatures. *)
Definition enough (d : nat) (data : list (R * R)) : Prop :=
  exists ts, NoDup ts /\ length ts = S d /\ incl ts (map fst data).
(** The value of the polynomial with these coefficients, highest power first. *)
Definition value_of (p : list R) (d : nat) (x : R) : R := sum_f_R0 (fun i => nth i p 0 * x ^ (d - i)) d.
(** What numpy promises of the coefficients p of a fit. *)
Definition promised (p : list R) (d : nat) (data : list (R * R)) : Prop :=
  length p = S d /\ best_fit d (value_of p d) data.
(** Two sequences of measurements that differ in their order alone, or in the
    units of the temperature and of the property. *)
Definition rescaled (a b k c : R) (data : list (R * R)) : list (R * R) := map (fun m => (a * fst m + b, k * snd m + c)) data.
(** T lies between two of the measured temperatures. *)
Definition within (ts : list R) (T : R) : Prop := exists a b, In a ts /\ In b ts /\ a <= T <= b.
(** The sum of the residuals, each times the i-th power of its temperature. *)
Fixpoint residual_moment (f : R -> R) (i : nat) (data : list (R * R)) : R :=
  match data with [] => 0 | (t, y) :: r => (f t - y) * t ^ i + residual_moment f i r end.
