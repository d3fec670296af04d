(** Independent vocabulary for material packages (C38-C42): a package is a list
    of component names and, in the same order, a list of masses. *)
From Verif Require Import Prelude.
Local Open Scope list_scope.

Section Content.
Context {C : Type} (eq_dec : forall a b : C, {a = b} + {a <> b}).
(** Mass of component [c]: the masses listed under its name; zero if absent. *)
Definition content (names : list C) (masses : list Qc) (c : C) : Qc :=
  Qcsum (map snd (filter (fun kv => if eq_dec (fst kv) c then true else false) (combine names masses))).
End Content.

(** Every mass times [k]. *)
Definition scaled (k : Qc) (ms : list Qc) : list Qc := map (fun m => (k * m)%Qc) ms.
(** Component-wise sum. *)
Fixpoint plus_lists (a b : list Qc) : list Qc :=
  match a, b with x :: a', y :: b' => (x + y)%Qc :: plus_lists a' b' | _, _ => [] end.
