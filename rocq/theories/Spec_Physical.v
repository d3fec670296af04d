(** Vocabulary for the physical property models. *)
From Coq Require Import Reals List String.
Import ListNotations.
Local Open Scope R_scope.

(** Sum of the coefficients, highest power first, times the powers of T. *)
Fixpoint power_sum (cs : list R) (T : R) : R :=
  match cs with [] => 0 | c :: cs' => c * T ^ List.length cs' + power_sum cs' T end.
(** Sum over a list. *)
Fixpoint total {A} (f : A -> R) (l : list A) : R := match l with [] => 0 | a :: l' => f a + total f l' end.
(** The amount of [c] in a composition without repetitions. *)
Definition amount (x : list (string * R)) (c : string) : R := total (fun cx => if string_dec (fst cx) c then snd cx else 0) x.
(** All amounts multiplied by k. *)
Definition times (k : R) (x : list (string * R)) : list (string * R) := map (fun cx => (fst cx, k * snd cx)) x.
(** Wilke's interaction factor of two gases with viscosities m and molar masses M. *)
Definition wilke_phi (mi mj Mi Mj : R) : R :=
  (1 + sqrt (mi / mj) * sqrt (sqrt (Mj / Mi))) ^ 2 / sqrt (8 * (1 + Mi / Mj)).
(** Wilke's mixture viscosity for pure viscosities [v] and molar masses [M]. *)
Definition wilke_mu (M v : string -> R) (x : list (string * R)) : R :=
  total (fun i => snd i * v (fst i) /
                  (snd i + total (fun j => if string_dec (fst j) (fst i) then 0
                                           else snd j * wilke_phi (v (fst i)) (v (fst j)) (M (fst i)) (M (fst j))) x)) x.
(** Mean of [v] over a composition with weights [w]. *)
Definition weighted_mean (w v : string -> R) (x : list (string * R)) : R :=
  total (fun cx => v (fst cx) * snd cx * w (fst cx)) x / total (fun cx => snd cx * w (fst cx)) x.
(** The Weymann-Frenkel form of a viscosity. *)
Definition weymann (A E T : R) : R := A * T * exp (E / T).
