(** The methods of the thermo packages over objects: the same code as in
    [M_ThermoMat], with every copy, every new array and every assignment in place
    made explicit.  Scalars are computed with the functions of that model.  The
    dictionary custom_properties is left out here; see [M_Custom]. *)
From Verif Require Import Prelude M_Stoichiometry M_Lists M_Thermochem M_Chem M_ThermoMat M_Heap Spec_Heap.
From Coq Require Import Reals.
Local Open Scope list_scope.
Local Open Scope R_scope.

(** What is in the object: material, P, T, H, isCoal, HHV. *)
Definition scalars : Type := material * R * R * R * bool * option R.
Definition scalars_of (p : package) : scalars := (tp_material p, tp_P p, tp_T p, tp_H p, tp_coal p, tp_HHV p).
Definition package_of (f : scalars) (l : list R) : package := let '(m, P, T, H, c, h) := f in mktp m l P T H c h.
Global Instance layout : Layout package scalars R :=
  {| attrs := scalars_of; items := tp_masses; make := package_of;
     make_eta := fun p => match p with mktp _ _ _ _ _ _ _ => eq_refl end; attrs_make := fun f _ => match f with (_, _, _, _, _, _) => eq_refl end; items_make := fun f _ => match f with (_, _, _, _, _, _) => eq_refl end |}.
Notation M := (@M scalars R).
(** thermo.py:389-413: the constructor, with an array that has just been computed. *)
Definition h_new (r : res package) : M nat := do! p <- lift r; new p.
(** thermo.py:321-346. *)
Definition h_create (db : database) (c : material * option string * R * R * R * bool) : M nat :=
  let '(m, assay, mass, P, T, normalise) := c in h_new (create_package db m assay mass P T normalise).
(** thermo.py:793-803, 815-825, 835-841. *)
Definition h_set_H (db : database) (k : nat) (H : R) : M unit := setter k (fun p => set_H db p H).
Definition h_set_T (db : database) (k : nat) (T : R) : M unit := setter k (fun p => set_T db p T).
Definition h_set_P (k : nat) (P : R) : M unit := setter k (fun p => (set_P p P, Ok tt)).
(** self.T = self.T *)
Definition h_keep_T (db : database) (k : nat) : M unit := do! p <- read k; h_set_T db k (tp_T p).
(** thermo.py:520-533. *)
Definition h_add_pair (db : database) (k : nat) (c : string) (x : R) : M nat :=
  do! p <- read k;
  do! i <- lift (get_compound_index (tp_material p) c);
  do! h <- lift (thermo_H db c (tp_T p) x);
  do! n <- clone k;
  do! r <- read n;
  do! m <- lift (get (tp_masses r) i);
  do! _ <- store n i (m + x);
  do! _ <- setter n (fun r => (set_TH r (tp_T r) (tp_H r + h), Ok tt));
  do! _ <- h_set_P n (tp_P p);
  ret n.
(** thermo.py:556-580. *)
Definition h_mul (db : database) (k : nat) (x : R) : M nat :=
  do! p <- read k;
  if Rlt_dec x 0 then lift (Err PyException)
  else h_new (new_package db (tp_material p) (rscale (tp_masses p) x) (tp_P p) (tp_T p) false None).
(** An argument that is not a package, as in [M_ThermoMat.arg]. *)
Inductive targ := TPair (c : string) (x : R) | TTriple (c : string) (x T : R) | TMass (x : R) | TStr (c : string) | TMaterial (m : material) | TOther.
Definition other_arg (a : targ) : arg :=
  match a with TPair c x => APair c x | TTriple c x T => ATriple c x T | TMass x => AMass x | TStr c => AStr c | TMaterial m => AMaterial m | TOther => AOther end.
(** thermo.py:473-554. *)
Definition h_add (db : database) (k : nat) (other : operand nat targ) : M nat :=
  match other with
  | OPackage j =>
    do! p <- read k; do! o <- read j;
    if (tm_id (tp_material p) =? tm_id (tp_material o))%Z
    then do! n <- h_new (do ms <- radd (tp_masses p) (tp_masses o); new_package db (tp_material p) ms 1 25 false None);
         do! _ <- h_set_H db n (tp_H p + tp_H o);
         do! _ <- h_set_P n (tp_P p);
         ret n
    else do! n <- clone k;
         do! n <- forM (fun n c =>
             if negb (member string_dec c (tm_compounds (tp_material p))) then lift (Err PyException) else
             do! o <- read j; do! x <- lift (get_compound_mass o c); h_add_pair db n c x) (tm_compounds (tp_material o)) n;
         do! _ <- h_set_H db n (tp_H p + tp_H o);
         ret n
  | OOther (TPair c x) => h_add_pair db k c x
  | OOther (TTriple c x T) =>
    do! p <- read k;
    do! i <- lift (get_compound_index (tp_material p) c);
    do! h <- lift (thermo_H db c T x);
    do! n <- h_mul db k 1;
    do! r <- read n;
    do! m <- lift (get (tp_masses r) i);
    do! _ <- store n i (m + x);
    do! _ <- h_set_H db n (tp_H p + h);
    do! _ <- h_set_P n (tp_P p);
    ret n
  | OOther _ => lift (Err TypeError)
  end.
(** thermo.py:855-864. *)
Definition h_clear (k : nat) : M unit :=
  do! p <- read k;
  do! _ <- rebind k (rscale (tp_masses p) 0);
  setter k (fun p => (set_TH (set_P p 1) 25 0, Ok tt)).
(** thermo.py:1021-1034. *)
Definition h_extract_mass (db : database) (k : nat) (x : R) : M (option nat) :=
  do! p <- read k;
  if Rlt_dec (get_mass p) x then lift (Err PyException) else
  do! f <- lift (ndiv x (get_mass p));
  do! n <- h_new (new_package db (tp_material p) (rscale (tp_masses p) f) (tp_P p) (tp_T p) false None);
  do! p <- read k;
  do! _ <- rebind k (rscale (tp_masses p) (1 - f));
  do! _ <- h_keep_T db k;
  ret (Some n).
(** thermo.py:1036-1050. *)
Definition h_extract_compound (db : database) (k : nat) (c : string) : M (option nat) :=
  do! p <- read k;
  do! n <- h_new (create_package db (tp_material p) None 0 1 25 true);
  if negb (member string_dec c (tm_compounds (tp_material p))) then ret (Some n) else
  do! i <- lift (get_compound_index (tp_material p) c);
  do! x <- lift (get (tp_masses p) i);
  do! _ <- store n i x;
  do! _ <- h_set_T db n (tp_T p);
  do! _ <- h_set_P n (tp_P p);
  do! _ <- store k i 0;
  do! _ <- h_keep_T db k;
  ret (Some n).
(** thermo.py:1052-1066. *)
Definition h_extract_compound_mass (db : database) (k : nat) (c : string) (x : R) : M (option nat) :=
  do! p <- read k;
  if negb (member string_dec c (tm_compounds (tp_material p))) then do! n <- h_new (create_package db (tp_material p) None 0 1 25 true); ret (Some n) else
  do! i <- lift (get_compound_index (tp_material p) c);
  do! y <- lift (get (tp_masses p) i);
  if Rlt_dec y x then lift (Err PyException) else
  do! _ <- store k i (y - x);
  do! _ <- h_keep_T db k;
  do! p <- read k;
  do! n <- h_new (create_package db (tp_material p) None 0 (tp_P p) (tp_T p) true);
  do! n <- h_add_pair db n c x;
  ret (Some n).
(** thermo.py:1068-1076. *)
Fixpoint h_extract_each (db : database) (k n : nat) (cs : list string) : M (option nat) :=
  match cs with
  | [] => do! p <- read k; do! _ <- h_set_T db n (tp_T p); ret (Some n)
  | c :: cs' =>
    do! p <- read k;
    do! x <- lift (get_compound_mass p c);
    do! n <- h_add_pair db n c x;
    do! _ <- h_extract_compound db k c;
    h_extract_each db k n cs'
  end.
Definition h_extract_material (db : database) (k : nat) (m : material) : M (option nat) :=
  do! n <- h_new (create_package db m None 0 1 25 true); h_extract_each db k n (tm_compounds m).
(** thermo.py:975-1019. *)
Definition h_extract (db : database) (k : nat) (a : targ) : M (option nat) :=
  match a with
  | TMass x => h_extract_mass db k x
  | TPair c x => h_extract_compound_mass db k c x
  | TStr c => h_extract_compound db k c
  | TMaterial m => h_extract_material db k m
  | _ => lift (Err TypeError)
  end.

(** A call of a method on an object; the setters and the product take a number. *)

Inductive top := TopAdd | TopMul | TopClone | TopExtract | TopClear | TopSetT | TopSetH | TopSetP.
Definition number_of {X} (y : operand X targ) : option R := match y with OOther (TMass x) => Some x | _ => None end.
Definition h_method (db : database) (o : top) (k : nat) (y : operand nat targ) : M (option nat) :=
  match o with
  | TopAdd => do! n <- h_add db k y; ret (Some n)
  | TopMul => match number_of y with Some x => do! n <- h_mul db k x; ret (Some n) | None => lift (Err TypeError) end
  | TopClone => do! n <- clone k; ret (Some n)
  | TopExtract => match y with OOther a => h_extract db k a | OPackage _ => lift (Err TypeError) end
  | TopClear => do! _ <- h_clear k; ret None
  | TopSetT => match number_of y with Some x => do! _ <- h_set_T db k x; ret None | None => lift (Err TypeError) end
  | TopSetH => match number_of y with Some x => do! _ <- h_set_H db k x; ret None | None => lift (Err TypeError) end
  | TopSetP => match number_of y with Some x => do! _ <- h_set_P k x; ret None | None => lift (Err TypeError) end
  end.
(** The same call on a value. *)
Definition v_arg (y : operand package targ) : arg := match y with OPackage q => APackage q | OOther a => other_arg a end.
Definition v_create (db : database) (c : material * option string * R * R * R * bool) : res package :=
  let '(m, assay, mass, P, T, normalise) := c in create_package db m assay mass P T normalise.
Definition v_method (db : database) (o : top) (p : package) (y : operand package targ) : package * res (option package) :=
  match o with
  | TopAdd => (p, do q <- add db p (v_arg y); Ok (Some q))
  | TopMul => (p, match number_of y with Some x => do q <- mul db p x; Ok (Some q) | None => Err TypeError end)
  | TopClone => (p, Ok (Some p))
  | TopExtract => let x := extract db p (v_arg y) in (fst x, do q <- snd x; Ok (Some q))
  | TopClear => (clear p, Ok None)
  | TopSetT => match number_of y with Some x => (fst (set_T db p x), do _ <- snd (set_T db p x); Ok None) | None => (p, Err TypeError) end
  | TopSetH => match number_of y with Some x => (fst (set_H db p x), do _ <- snd (set_H db p x); Ok None) | None => (p, Err TypeError) end
  | TopSetP => match number_of y with Some x => (set_P p x, Ok None) | None => (p, Err TypeError) end
  end.
