(** The methods of the slurry packages over objects: the same code as in
    [M_Slurry], with every copy, every new array and every assignment in place made
    explicit.  Scalars are computed with the functions of that model.  Slurry
    packages have no add_to. *)
From Verif Require Import Prelude M_Stoichiometry M_Lists M_Float M_Heap Spec_Heap M_Slurry.
Local Open Scope list_scope.

(** The material, the solid density and the mass of water are in the object. *)
Definition scalars : Type := material * fl * fl.
Global Instance layout : Layout package scalars fl :=
  {| attrs := fun p => (sk_material p, sk_density p, sk_water p); items := sk_masses; make := fun f l => mksl (fst (fst f)) (snd (fst f)) (snd f) l;
     make_eta := fun p => match p with mksl _ _ _ _ => eq_refl end; attrs_make := fun f _ => match f with (_, _, _) => eq_refl end; items_make := fun _ _ => eq_refl |}.
Notation M := (@M scalars fl).
Definition other_arg (a : pyarg nval) : arg := match a with PTuple l => ATuple l | PVal v => AVal v end.
(** slurry.py:281-308. *)
Definition h_create (c : material * option string * fl * bool) : M nat :=
  let '(m, assay, mass, normalise) := c in do! p <- lift (create_package m assay mass normalise); new p.
(** slurry.py:418-428. *)
Definition h_add_class (k : nat) (s mass : fl) : M nat :=
  do! p <- read k;
  do! i <- lift (class_index (sk_material p) s);
  do! n <- clone k;
  do! r <- read n;
  do! x <- lift (get (sk_masses r) i);
  do! _ <- store n i (fadd x mass);
  ret n.
(** slurry.py:361-432. *)
Definition h_add (k : nat) (other : operand nat (pyarg nval)) : M nat :=
  match other with
  | OPackage j =>
    do! p <- read k; do! o <- read j;
    let d := mixed_density p o in
    let w := fadd (sk_water p) (sk_water o) in
    if (sl_id (sk_material p) =? sl_id (sk_material o))%Z
    then do! ms <- lift (array_add (sk_masses p) (sk_masses o)); new (mksl (sk_material p) d w ms)
    else do! n <- clone k;
      do! r <- read n;
      do! _ <- set_attrs n (sk_material r, d, w);
      forM (fun n s =>
        if negb (member qdec s (sl_classes (sk_material p))) then lift (Err TypeError) else
        do! o <- read j; do! x <- lift (get_size_class_mass o s); h_add_class n (Fin s) x) (sl_classes (sk_material o)) n
  | OOther a =>
    match water_mass_tuple (other_arg a) with
    | Some x =>
      do! n <- clone k; do! r <- read n;
      do! _ <- set_attrs n (sk_material r, sk_density r, fadd (sk_water r) x);
      ret n
    | None =>
      match size_class_mass_tuple (other_arg a) with
      | Some (s, x) => h_add_class k s x
      | None => lift (Err TypeError)
      end
    end
  end.
(** slurry.py:434-462. *)
Definition h_mul (k : nat) (scalar : nval) : M nat :=
  match as_float scalar with
  | Some x =>
    if flt x (Fin 0) then lift (Err PyException)
    else do! p <- read k; new (mksl (sk_material p) (sk_density p) (fmul (sk_water p) x) (array_mul (sk_masses p) x))
  | None => lift (Err TypeError)
  end.
(** slurry.py:521-529. *)
Definition h_clear (k : nat) : M unit :=
  do! p <- read k;
  do! _ <- set_attrs k (sk_material p, Fin 1, Fin 0);
  do! p <- read k;
  rebind k (array_mul (sk_masses p) (Fin 0)).
(** slurry.py:612-692. *)
Definition h_extract (float_of : string -> res Qc) (k : nat) (a : pyarg nval) : M (option nat) :=
  do! p <- read k;
  match a with
  | PVal (NvFloat x) | PVal (NvNumpy x) =>
    if flt (get_mass p) x then lift (Err PyException) else
    let f := fdiv x (get_mass p) in
    do! n <- new (mksl (sk_material p) (sk_density p) (fmul (sk_water p) f) (array_mul (sk_masses p) f));
    do! q <- read k;
    do! _ <- set_attrs k (sk_material q, sk_density q, fmul (sk_water q) (fsub (Fin 1) f));
    do! q <- read k;
    do! _ <- rebind k (array_mul (sk_masses q) (fsub (Fin 1) f));
    ret (Some n)
  | PVal (NvStr s) =>
    do! i <- lift (do q <- float_of s; get_size_class_index (sk_material p) q);
    do! n <- h_mul k (NvFloat (Fin 0));
    do! q <- read k;
    do! x <- lift (get (sk_masses q) i);
    do! _ <- store n i x;
    do! _ <- store k i (Fin 0);
    ret (Some n)
  | _ =>
    match water_mass_tuple (other_arg a) with
    | Some x =>
      if flt (sk_water p) x then lift (Err PyException) else
      do! _ <- set_attrs k (sk_material p, sk_density p, fsub (sk_water p) x);
      do! q <- read k;
      do! n <- new (mksl (sk_material q) (sk_density q) x (array_mul (sk_masses q) (Fin 0)));
      ret (Some n)
    | None =>
      match size_class_mass_tuple (other_arg a) with
      | None => lift (Err TypeError)
      | Some (s, x) =>
        do! i <- lift (class_index (sk_material p) s);
        do! y <- lift (get (sk_masses p) i);
        if flt y x then lift (Err PyException) else
        do! _ <- store k i (fsub y x);
        do! q <- read k;
        do! l <- lift (set_nth (array_mul (sk_masses q) (Fin 0)) i x);
        do! n <- new (mksl (sk_material q) (sk_density q) (Fin 0) l);
        ret (Some n)
      end
    end
  end.
Definition scalar_of {X} (y : operand X (pyarg nval)) : nval := match y with OOther (PVal v) => v | _ => NvOther end.
(** A call of a method on an object; methods without an argument ignore it. *)
Definition h_method (float_of : string -> res Qc) (o : op) (k : nat) (y : operand nat (pyarg nval)) : M (option nat) :=
  match o with
  | OpAdd => do! n <- h_add k y; ret (Some n)
  | OpMul => do! n <- h_mul k (scalar_of y); ret (Some n)
  | OpClone => do! n <- clone k; ret (Some n)
  | OpExtract => match y with OOther a => h_extract float_of k a | OPackage _ => lift (Err TypeError) end
  | OpAddTo => lift (Err AttributeError)
  | OpClear => do! _ <- h_clear k; ret None
  end.
(** The same call on a value. *)
Definition v_arg (y : operand package (pyarg nval)) : arg := match y with OPackage q => APackage q | OOther a => other_arg a end.
Definition v_create (c : material * option string * fl * bool) : res package := let '(m, assay, mass, normalise) := c in create_package m assay mass normalise.
Definition v_method (float_of : string -> res Qc) (o : op) (p : package) (y : operand package (pyarg nval)) : package * res (option package) :=
  match o with
  | OpAdd => (p, do q <- add p (v_arg y); Ok (Some q))
  | OpMul => (p, do q <- mul p (scalar_of y); Ok (Some q))
  | OpClone => (p, Ok (Some p))
  | OpExtract => let x := extract float_of p (v_arg y) in (fst x, do q <- snd x; Ok (Some q))
  | OpAddTo => (p, Err AttributeError)
  | OpClear => (clear p, Ok None)
  end.
