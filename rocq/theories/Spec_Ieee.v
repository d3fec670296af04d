(** Vocabulary for statements about rounding. *)
From Verif Require Import Prelude M_Ieee.
From Coq Require Import Reals List Permutation.
From Flocq Require Import Core BinarySingleNaN.
Import ListNotations.
Local Open Scope R_scope.

(** The real number that a float64 stands for, and whether it is a number. *)
Definition value (x : float64) : R := B2R x.
Definition finite (x : float64) : Prop := is_finite x = true.
Definition exact_sum (l : list float64) : R := fold_right (fun x s => value x + s) 0 l.
Definition exact_turnover (l : list float64) : R := fold_right (fun x s => Rabs (value x) + s) 0 l.

(** Half the distance from 1 to the next float64. *)
Definition ulp_half : R := / 2 ^ 53.
(** Half the smallest positive float. *)
Definition tiny : R := / 2 ^ 1075.
(** The relative error that n roundings can add up to. *)
Definition gamma (n : nat) : R := (1 + ulp_half) ^ n - 1.

(** [v] is the sum of the numbers of [l], added in any order and grouping,
    possibly with zeros among them: Python's sum, +=, numpy's pairwise sum. *)
Inductive adds : list float64 -> float64 -> Prop :=
| adds_none : adds [] zero64
| adds_one x : adds [x] x
| adds_two l m x y : adds l x -> adds m y -> adds (l ++ m) (add64 x y)
| adds_order l m x : Permutation l m -> adds l x -> adds m x.
