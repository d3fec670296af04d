(** Comparisons of binary64 numbers (false when one is nan). *)
From Verif Require Import Prelude M_Ieee.
From Flocq Require Import Core BinarySingleNaN.
(** [x < y] and [x == y] in Python and numpy. *)
Definition lt64 (x y : float64) : bool := match Bcompare x y with Some Lt => true | _ => false end.
Definition eq64 (x y : float64) : bool := match Bcompare x y with Some Eq => true | _ => false end.
