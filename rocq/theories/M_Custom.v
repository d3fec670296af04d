(** The dictionary custom_properties of thermo packages and streams.  Only this
    attribute is modelled here: an object is a reference to its dictionary, and
    the dictionary is the list of its entries. *)
From Verif Require Import Prelude M_Lists M_Heap Spec_Heap.
From Coq Require Import Reals.
Local Open Scope list_scope.

(** What custom_properties shows. *)
Record properties := mkprops { entries : list (string * R) }.
Global Instance layout : Layout properties unit (string * R) :=
  {| attrs := fun _ => tt; items := entries; make := fun _ l => mkprops l; make_eta := fun p => match p with mkprops _ => eq_refl end;
     attrs_make := fun f _ => match f with tt => eq_refl end; items_make := fun _ _ => eq_refl |}.
Notation M := (@M unit (string * R)).
(** thermo.py:413 and 1114: the constructors make an empty dictionary. *)
Definition c_create (_ : unit) : M nat := new (mkprops []).
(** d[name] = x for a dictionary. *)
Fixpoint dict_put (d : list (string * R)) (name : string) (x : R) : list (string * R) :=
  match d with [] => [(name, x)] | (k, v) :: d' => if string_dec k name then (k, x) :: d' else (k, v) :: dict_put d' name x end.
Fixpoint dict_get (d : list (string * R)) (name : string) : option R :=
  match d with [] => None | (k, v) :: d' => if string_dec k name then Some v else dict_get d' name end.
(** k.custom_properties[name] = x, in place. *)
Definition c_set (k : nat) (name : string) (x : R) : M unit :=
  fun w => match nth_error (w_objects w) k with
           | Some (_, r) =>
             match nth_error (w_arrays w) r with
             | Some d => (mkworld (put (w_arrays w) r (dict_put d name x)) (w_objects w), Ok tt)
             | None => (w, Err NameError)
             end
           | None => (w, Err NameError)
           end.
(** What the methods do with the dictionary.  clone is copy.copy, and only the
    masses are copied again (thermo.py:846-853, 1588-1595); adding an amount of a
    compound starts from a clone (528, 1243); adding a package of another material
    starts from a clone and adds one compound after another (504-517, 1220-1232);
    the product, the sum with a package of the same material and the sum with an
    amount at a temperature call the constructor (493-503, 544, 571, 1212, 1260,
    1288); what extract returns comes from the constructor too (its clones are of
    new objects).  The other branches raise. *)
Inductive cop := CopClone | CopAddCompound | CopAddOther (compounds : nat) | CopMul | CopAddSame | CopAddHot | CopExtract | CopSet (name : string) (x : R).
Definition c_method (o : cop) (k : nat) (y : operand nat unit) : M (option nat) :=
  match o with
  | CopClone | CopAddCompound => do! n <- copy k; ret (Some n)
  | CopAddOther j => do! n <- copy k; do! n <- forM (fun n _ => copy n) (repeat tt j) n; ret (Some n)
  | CopMul | CopAddSame | CopAddHot | CopExtract => do! _ <- read k; do! n <- c_create tt; ret (Some n)
  | CopSet name x => do! _ <- c_set k name x; ret None
  end.
(** The same call if packages were values: a clone has the same properties. *)
Definition cv_create (_ : unit) : res properties := Ok (mkprops []).
Definition cv_method (o : cop) (p : properties) (y : operand properties unit) : properties * res (option properties) :=
  match o with
  | CopClone | CopAddCompound | CopAddOther _ => (p, Ok (Some p))
  | CopMul | CopAddSame | CopAddHot | CopExtract => (p, Ok (Some (mkprops [])))
  | CopSet name x => (mkprops (dict_put (entries p) name x), Ok None)
  end.
