(** Vocabulary for the misuse of chem packages. *)
From Verif Require Import Prelude M_Lists M_Float M_Chem Spec_Chem.
Local Open Scope list_scope.

Definition has_compound (p : package) (c : string) : Prop := In c (m_compounds (p_material p)).
(** A pair of a compound and a mass: the mass must be a float, not an int. *)
Definition is_pair (l : list pyval) (c : string) (x : Qc) : Prop := l = [VStr c; VNum (NFloat x)].

(** Adding a compound of the package [o] raises e. *)
Definition compound_fault (p o : package) (c : string) (e : exn) : Prop :=
  ~ has_compound p c /\ e = PyException \/ has_compound p c /\ (exists z, get_compound_mass o c = Ok (NInt z)) /\ e = TypeError.

(** p + other raises e. *)
Inductive add_fault (p : package) : arg -> exn -> Prop :=
| add_unknown l c x : is_pair l c x -> ~ has_compound p c -> add_fault p (ATuple l) ValueError
| add_package o before c after e : m_id (p_material p) <> m_id (p_material o) -> m_compounds (p_material o) = before ++ c :: after ->
    (forall d e', In d before -> ~ compound_fault p o d e') -> compound_fault p o c e -> add_fault p (APackage o) e
| add_bad_tuple l : (forall c x, ~ is_pair l c x) -> add_fault p (ATuple l) TypeError
| add_bad_value v : add_fault p (AVal v) TypeError.

Inductive mul_fault : pyval -> exn -> Prop :=
| mul_negative k : (k < 0)%Qc -> mul_fault (VNum (NFloat k)) PyException
| mul_other v : (forall k, v <> VNum (NFloat k)) -> mul_fault v TypeError.

Inductive extract_fault (p : package) : arg -> exn -> Prop :=
| extract_too_much x : (val (get_mass p) < x)%Qc -> extract_fault p (AVal (VNum (NFloat x))) PyException
| extract_empty x : (x <= val (get_mass p))%Qc -> val (get_mass p) = 0%Qc -> extract_fault p (AVal (VNum (NFloat x))) ZeroDivisionError
| extract_unknown c : ~ has_compound p c -> extract_fault p (AVal (VStr c)) ValueError
| extract_pair_unknown l c x : is_pair l c x -> ~ has_compound p c -> extract_fault p (ATuple l) ValueError
| extract_pair_too_much l c x y : is_pair l c x -> get_compound_mass p c = Ok y -> (val y < x)%Qc -> extract_fault p (ATuple l) PyException
| extract_bad_tuple l : (forall c x, ~ is_pair l c x) -> extract_fault p (ATuple l) TypeError
| extract_package o : extract_fault p (APackage o) TypeError
| extract_int z : extract_fault p (AVal (VNum (NInt z))) TypeError
| extract_other : extract_fault p (AVal VOther) TypeError.
