(** Vocabulary for the misuse of thermo packages. *)
From Verif Require Import Prelude M_Thermochem M_ThermoMat Spec_Thermo Spec_ThermoMat.
From Coq Require Import Reals.
Local Open Scope list_scope.
Local Open Scope R_scope.

Definition lists (p : package) (c : string) : Prop := In c (tm_compounds (tp_material p)).
(** The package is one that can be worked with: distinct compounds with a mass
    each, all of them in the database, no coal. *)
Definition sound (db : database) (p : package) : Prop := wf p /\ known db (tp_material p) /\ tp_coal p = false /\ consistent db p.

(** p + other raises e (other than by failing to find a temperature). *)
Inductive add_fault (p : package) : arg -> exn -> Prop :=
| add_unknown c x : ~ lists p c -> add_fault p (APair c x) ValueError
| add_unknown_hot c x T : ~ lists p c -> add_fault p (ATriple c x T) ValueError
| add_package o c : tm_id (tp_material p) <> tm_id (tp_material o) -> lists o c -> ~ lists p c -> add_fault p (APackage o) PyException
| add_mass x : add_fault p (AMass x) TypeError
| add_name c : add_fault p (AStr c) TypeError
| add_material m : add_fault p (AMaterial m) TypeError
| add_other : add_fault p AOther TypeError.

(** p.extract(other) raises e; [NonFinite] stands for the nan of 0/0.  A compound
    that is not there is no fault. *)
Inductive extract_fault (p : package) : arg -> exn -> Prop :=
| extract_too_much x : mass_of p < x -> extract_fault p (AMass x) PyException
| extract_empty x : x <= mass_of p -> mass_of p = 0 -> extract_fault p (AMass x) NonFinite
| extract_pair_too_much c x : lists p c -> has p c < x -> extract_fault p (APair c x) PyException
| extract_package o : extract_fault p (APackage o) TypeError
| extract_triple c x T : extract_fault p (ATriple c x T) TypeError
| extract_other : extract_fault p AOther TypeError.

(** material.create_package(n, mass) raises e. *)
Inductive create_fault (m : material) (n : string) (mass : R) (normalise : bool) : exn -> Prop :=
| create_no_assay : ~ In n (map fst (tm_assays m)) -> create_fault m n mass normalise KeyError
| create_no_total a : lookup n (tm_assays m) = Some a -> normalise = true -> a <> [] -> rsum a = 0 -> create_fault m n mass normalise NonFinite
| create_no_properties a : lookup n (tm_assays m) = Some a -> (normalise = true -> a = [] \/ rsum a <> 0) -> ~ In n (map fst (tm_custom m)) -> create_fault m n mass normalise KeyError.
