(** Vocabulary: relative accuracy, and formulas whose numbers a float can hold. *)
From Verif Require Import Prelude M_Stoichiometry Spec_Stoich M_Ieee Spec_Ieee.
From Coq Require Import Qreals Reals List.
Local Open Scope list_scope.
Local Open Scope R_scope.

(** [a] and [b] differ by at most n roundings: each is at most (1 + 2^-53)^n times the other. *)
Definition within (n : nat) (a b : R) : Prop := a <= b * (1 + ulp_half) ^ n /\ b <= a * (1 + ulp_half) ^ n.

(** The numbers written in a formula. *)
Definition opt_numbers (n : option text) : list Z := match n with Some t => [decimal t] | None => [] end.
Fixpoint item_numbers (i : item) : list Z :=
  match i with
  | IElement _ => []
  | ISubElement _ n => [decimal n]
  | ISubGroup g n => opt_numbers n ++ flat_map item_numbers g
  end.
Definition numbers (f : formula) : list Z :=
  flat_map item_numbers (f_group f) ++
  match f_dotted f with Some (n, g) => opt_numbers n ++ flat_map item_numbers g | None => [] end.
(** No number written, and no number of atoms of an element, is above 2^53. *)
Definition fits (f : formula) : Prop := (forall n, In n (numbers f) -> (n <= 2 ^ 53)%Z) /\ (forall s, (atoms s f <= 2 ^ 53)%Z).
(** How many different elements are written. *)
Definition kinds (f : formula) : nat := length (nodup string_dec (symbols f)).
(** Not too far from 1 for a float. *)
Definition moderate (x : float64) : Prop := finite x /\ / 2 ^ 800 <= value x <= 2 ^ 800.
Definition moderate_or_zero (x : float64) : Prop := finite x /\ (value x = 0 \/ / 2 ^ 400 <= value x <= 2 ^ 400).
(** The exact molar mass of a formula, and the exact mass fraction of an element in it. *)
Definition exact_molar (f : formula) : R := Q2R (weight (fun el => atoms el f)).
Definition exact_fraction (f : formula) (el : string) : R := IZR (atoms el f) * Q2R (weight (fun s => if String.eqb el s then 1 else 0)%Z) / exact_molar f.
Definition Rtotal (l : list R) : R := fold_right Rplus 0 l.
(** A dictionary of quantities of compounds: formula i is what key i says. *)
Definition compounds (K : nat) (d : list (string * float64)) (fs : list formula) : Prop :=
  Forall2 (fun kv f => proper (fst kv) f /\ fits f /\ has_atoms f /\ (kinds f <= K)%nat /\ moderate_or_zero (snd kv)) d fs.
Definition each (g : R -> R -> R) (d : list (string * float64)) (fs : list formula) : list R :=
  map (fun p => g (value (snd (fst p))) (exact_molar (snd p))) (combine d fs).
