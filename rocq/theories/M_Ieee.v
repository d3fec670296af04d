(** Python's float: IEEE 754 binary64 with rounding to nearest, ties to even
    (CPython uses the C double).  Flocq's formalisation of the standard. *)
From Verif Require Import Prelude.
From Flocq Require Import Core BinarySingleNaN.
Local Open Scope Z_scope.

#[global] Instance prec64 : Prec_gt_0 53 := eq_refl.
#[global] Instance emax64 : Prec_lt_emax 53 1024 := eq_refl.
Definition float64 : Type := binary_float 53 1024.
Definition zero64 : float64 := B754_zero false.
Definition one64 : float64 := Bone.
Definition add64 (x y : float64) : float64 := Bplus mode_NE x y.
Definition sub64 (x y : float64) : float64 := Bminus mode_NE x y.
Definition neg64 (x : float64) : float64 := Bopp x.
Definition mul64 (x y : float64) : float64 := Bmult mode_NE x y.
(** numpy's division; Python's own raises ZeroDivisionError for a zero divisor. *)
Definition div64 (x y : float64) : float64 := Bdiv mode_NE x y.
(** sum(iterable) of floats: 0 + x1 + ... + xn from the left (CPython up to
    3.11; the int 0 plus the first float is that float, up to the sign of zero). *)
Definition sum64 (l : list float64) : float64 := fold_left add64 l zero64.
