(** Independent vocabulary for C60: what the lines of a material file say. *)
From Verif Require Import Prelude M_Stoichiometry Spec_Text.
From Coq Require Import Reals.
Local Open Scope list_scope.

(** [says t ws]: [ws] are the words of the line [t], white space at its ends
    apart. *)
Definition says (t : text) (ws : list text) : Prop := exists s, core t s /\ has_words s ws.
(** The numbers in the first [n] of the words. *)
Definition numbers_of (float_of : text -> res Qc) (n : nat) (ws : list text) (xs : list Qc) : Prop :=
  (n <= length ws)%nat /\ Forall2 (fun t x => float_of t = Ok x) (firstn n ws) xs.
(** Column [j] of a table. *)
Definition col {C} (cells : list (C * list Qc)) (j : nat) : list Qc := map (fun cell => nth j (snd cell) 0%Qc) cells.
(** The word starts with a hash. *)
Definition hashed (w : text) : Prop := exists w', w = "#"%char :: w'.
(** A list in in_order order. *)
Inductive in_order : list string -> Prop :=
| inc_nil : in_order []
| inc_one x : in_order [x]
| inc_cons x y l : String.ltb x y = true -> in_order (y :: l) -> in_order (x :: y :: l).
(** The custom properties of assay [j], as the lines [ps] give them. *)
Definition cdict (ps : list (text * list Qc)) (j : nat) : list (string * R) := map (fun p => (str_of (fst p), Q2R (this (nth j (snd p) 0%Qc)))) ps.
(** [property_line n ws p]: a line with the words [ws] gives the property [fst p] the values [snd p]. *)
Definition property_line (float_of : text -> res Qc) (n : nat) (ws : list text) (p : text * list Qc) : Prop := exists vs, ws = fst p :: vs /\ numbers_of float_of n vs (snd p).
