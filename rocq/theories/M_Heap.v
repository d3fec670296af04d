(** Python's objects and arrays, as far as the material packages use them.
    A package object has scalar attributes and a reference to the array (or list)
    that holds its masses.  Two objects may refer to the same array: this is what
    the value-level models [M_Psd], [M_Chem], [M_Slurry], [M_ThermoMat] and
    [M_Streams] leave out, and what [M_HeapPsd], [M_HeapChem], [M_HeapSlurry],
    [M_HeapThermo], [M_HeapStreams] and [M_Custom] are about.
    Not modelled: references to a package's array that the caller keeps (no method
    hands one out; the constructor and add_assay store the caller's own array),
    garbage collection. *)
From Verif Require Import Prelude M_Lists.
Local Open Scope list_scope.

(** How the contents of a package are split: what is in the object and what is in
    the array. *)
Class Layout (P F N : Type) := {
  attrs : P -> F; items : P -> list N; make : F -> list N -> P;
  make_eta : forall p, make (attrs p) (items p) = p;
  attrs_make : forall f l, attrs (make f l) = f;
  items_make : forall f l, items (make f l) = l }.

Fixpoint put {A} (l : list A) (i : nat) (a : A) : list A :=
  match l, i with
  | [], _ => []
  | _ :: l', O => a :: l'
  | x :: l', S i' => x :: put l' i' a
  end.

Section Heap.
Context {P F N : Type} {L : Layout P F N}.

(** The arrays and the objects that exist; a reference is a position. *)
Record world := mkworld { w_arrays : list (list N); w_objects : list (F * nat) }.
Definition M (A : Type) : Type := world -> world * res A.
Definition ret {A} (a : A) : M A := fun w => (w, Ok a).
Definition bindM {A B} (m : M A) (f : A -> M B) : M B :=
  fun w => match m w with (w', Ok a) => f a w' | (w', Err e) => (w', Err e) end.
Definition lift {A} (r : res A) : M A := fun w => (w, r).

(** What is seen through object [k]. *)
Definition view (w : world) (k : nat) : option P :=
  match nth_error (w_objects w) k with
  | Some (f, r) => match nth_error (w_arrays w) r with Some l => Some (make f l) | None => None end
  | None => None
  end.
(** Reading the attributes and the array of an object. *)
Definition read (k : nat) : M P := fun w => match view w k with Some p => (w, Ok p) | None => (w, Err NameError) end.
(** A constructor call with an array that has just been computed. *)
Definition new (p : P) : M nat :=
  fun w => (mkworld (w_arrays w ++ [items p]) (w_objects w ++ [(attrs p, length (w_arrays w))]), Ok (length (w_objects w))).
(** copy.copy(k): a new object with the same attributes, and the same array. *)
Definition copy (k : nat) : M nat :=
  fun w => match nth_error (w_objects w) k with
           | Some o => (mkworld (w_arrays w) (w_objects w ++ [o]), Ok (length (w_objects w)))
           | None => (w, Err NameError)
           end.
(** k.masses = an array that has just been computed. *)
Definition rebind (k : nat) (l : list N) : M unit :=
  fun w => match nth_error (w_objects w) k with
           | Some (f, _) => (mkworld (w_arrays w ++ [l]) (put (w_objects w) k (f, length (w_arrays w))), Ok tt)
           | None => (w, Err NameError)
           end.
(** k.masses[i] = x, in place. *)
Definition store (k : nat) (i : nat) (x : N) : M unit :=
  fun w => match nth_error (w_objects w) k with
           | Some (_, r) =>
             match nth_error (w_arrays w) r with
             | Some l => match set_nth l i x with
                         | Ok l' => (mkworld (put (w_arrays w) r l') (w_objects w), Ok tt)
                         | Err e => (w, Err e)
                         end
             | None => (w, Err NameError)
             end
           | None => (w, Err NameError)
           end.
(** k.masses += l for a list, in place. *)
Definition extend (k : nat) (l : list N) : M unit :=
  fun w => match nth_error (w_objects w) k with
           | Some (_, r) =>
             match nth_error (w_arrays w) r with
             | Some l' => (mkworld (put (w_arrays w) r (l' ++ l)) (w_objects w), Ok tt)
             | None => (w, Err NameError)
             end
           | None => (w, Err NameError)
           end.
(** k.attribute = ... for the attributes that are not the array. *)
Definition set_attrs (k : nat) (f : F) : M unit :=
  fun w => match nth_error (w_objects w) k with
           | Some (_, r) => (mkworld (w_arrays w) (put (w_objects w) k (f, r)), Ok tt)
           | None => (w, Err NameError)
           end.
(** A setter that changes attributes other than the array: [g] gives the object's
    contents afterwards and whether it raised. *)
Definition setter (k : nat) (g : P -> P * res unit) : M unit :=
  bindM (read k) (fun p => bindM (set_attrs k (attrs (fst (g p)))) (fun _ => lift (snd (g p)))).
(** The clone methods: psd.py:368-377, chem.py:363-373, slurry.py:510-519,
    thermo.py:846-853 and 1588-1595: copy.copy, then copy.deepcopy of the array. *)
Definition clone (k : nat) : M nat :=
  bindM (read k) (fun p => bindM (copy k) (fun n => bindM (rebind n (items p)) (fun _ => ret n))).
Fixpoint forM {A B} (f : B -> A -> M B) (l : list A) (b : B) : M B :=
  match l with [] => ret b | x :: l' => bindM (f b x) (forM f l') end.
End Heap.
Arguments world F N : clear implicits.
Arguments M {F N} A.
Notation "'do!' x <- m ; k" := (bindM m (fun x => k)) (at level 200, x pattern, m at level 100, k at level 200).
