(** Vocabulary for the misuse of slurry packages. *)
From Verif Require Import Prelude M_Lists M_Float M_Slurry.
Local Open Scope list_scope.

(** One mass per size class. *)
Definition full (p : package) : Prop := length (sk_masses p) = length (sl_classes (sk_material p)).
Definition has_class (p : package) (s : fl) : Prop := exists q, s = Fin q /\ In q (sl_classes (sk_material p)).
Definition is_number (v : nval) (x : fl) : Prop := v = NvFloat x \/ v = NvNumpy x.

(** A pair of a size class (a Python float) and a mass; a string and a mass is taken for water whatever the string says. *)
Definition is_pair (l : list nval) (s x : fl) : Prop := exists v, l = [NvFloat s; v] /\ is_number v x.
Definition is_water (l : list nval) (x : fl) : Prop := exists t v, l = [NvStr t; v] /\ is_number v x.

(** p + other raises e. *)
Inductive add_fault (p : package) : arg -> exn -> Prop :=
| add_class_unknown l s x : is_pair l s x -> ~ has_class p s -> add_fault p (ATuple l) ValueError
| add_package_class o q : sl_id (sk_material p) <> sl_id (sk_material o) -> In q (sl_classes (sk_material o)) -> ~ has_class p (Fin q) -> add_fault p (APackage o) TypeError
| add_bad_tuple l : (forall s x, ~ is_pair l s x) -> (forall x, ~ is_water l x) -> add_fault p (ATuple l) TypeError
| add_bad_value v : add_fault p (AVal v) TypeError.

(** p * k raises e. *)
Inductive mul_fault : nval -> exn -> Prop :=
| mul_negative v x : is_number v x -> flt x (Fin 0) = true -> mul_fault v PyException
| mul_other v : (forall x, ~ is_number v x) -> mul_fault v TypeError.

(** p.extract(other) raises e; [float_of] is Python's float(str). *)
Inductive extract_fault (float_of : string -> res Qc) (p : package) : arg -> exn -> Prop :=
| extract_too_much v x : is_number v x -> flt (get_mass p) x = true -> extract_fault float_of p (AVal v) PyException
| extract_no_number t e : float_of t = Err e -> extract_fault float_of p (AVal (NvStr t)) e
| extract_unknown t q : float_of t = Ok q -> ~ has_class p (Fin q) -> extract_fault float_of p (AVal (NvStr t)) ValueError
| extract_class_unknown l s x : is_pair l s x -> ~ has_class p s -> extract_fault float_of p (ATuple l) ValueError
| extract_class_too_much l q x y : is_pair l (Fin q) x -> get_size_class_mass p q = Ok y -> flt y x = true -> extract_fault float_of p (ATuple l) PyException
| extract_water l x : is_water l x -> flt (sk_water p) x = true -> extract_fault float_of p (ATuple l) PyException
| extract_bad_tuple l : (forall s x, ~ is_pair l s x) -> (forall x, ~ is_water l x) -> extract_fault float_of p (ATuple l) TypeError
| extract_package o : extract_fault float_of p (APackage o) TypeError
| extract_bad_value : extract_fault float_of p (AVal NvOther) TypeError.

(** create_package(assay name) raises e. *)
Definition named {A} (l : list (string * A)) (n : string) : Prop := In n (map fst l).
