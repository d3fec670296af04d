(** The methods of the psd packages over objects: the same code as in [M_Psd],
    with every copy, every new array and every assignment in place made explicit.
    Scalars are computed with the functions of that model. *)
From Verif Require Import Prelude M_Stoichiometry M_Lists M_Float M_Heap Spec_Heap M_Psd.
Local Open Scope list_scope.

Global Instance layout : Layout package material fl :=
  {| attrs := pk_material; items := pk_masses; make := mkpsd; make_eta := fun p => match p with mkpsd _ _ => eq_refl end; attrs_make := fun _ _ => eq_refl; items_make := fun _ _ => eq_refl |}.
Notation M := (@M material fl).
Definition other_arg (a : pyarg nval) : arg := match a with PTuple l => ATuple l | PVal v => AVal v end.
(** psd.py:198-218. *)
Definition h_create (c : material * option string * fl * bool) : M nat :=
  let '(m, assay, mass, normalise) := c in do! p <- lift (create_package m assay mass normalise); new p.
(** psd.py:302-311. *)
Definition h_add_class (k : nat) (s mass : fl) : M nat :=
  do! p <- read k;
  do! i <- lift (class_index (pk_material p) s);
  do! n <- clone k;
  do! r <- read n;
  do! x <- lift (get (pk_masses r) i);
  do! _ <- store n i (fadd x mass);
  ret n.
(** psd.py:263-315. *)
Definition h_add (k : nat) (other : operand nat (pyarg nval)) : M nat :=
  match other with
  | OPackage j =>
    do! p <- read k; do! o <- read j;
    if (ps_id (pk_material p) =? ps_id (pk_material o))%Z
    then do! ms <- lift (array_add (pk_masses p) (pk_masses o)); new (mkpsd (pk_material p) ms)
    else do! n <- clone k;
      forM (fun n s =>
        if negb (member qdec s (ps_classes (pk_material p))) then lift (Err TypeError) else
        do! o <- read j; do! x <- lift (get_size_class_mass o s); h_add_class n (Fin s) x) (ps_classes (pk_material o)) n
  | OOther a =>
    match size_class_mass_tuple (other_arg a) with
    | Some (s, x) => h_add_class k s x
    | None => lift (Err TypeError)
    end
  end.
(** psd.py:317-343. *)
Definition h_mul (k : nat) (scalar : nval) : M nat :=
  match as_float scalar with
  | Some x => if flt x (Fin 0) then lift (Err PyException) else do! p <- read k; new (mkpsd (pk_material p) (array_mul (pk_masses p) x))
  | None => lift (Err TypeError)
  end.
(** psd.py:380-385. *)
Definition h_clear (k : nat) : M unit := do! p <- read k; rebind k (array_mul (pk_masses p) (Fin 0)).
(** psd.py:431-493. *)
Definition h_extract (float_of : string -> res Qc) (k : nat) (a : pyarg nval) : M (option nat) :=
  do! p <- read k;
  match a with
  | PVal (NvFloat x) | PVal (NvNumpy x) =>
    if flt (get_mass p) x then lift (Err PyException) else
    let f := fdiv x (get_mass p) in
    do! n <- new (mkpsd (pk_material p) (array_mul (pk_masses p) f));
    do! p <- read k;
    do! _ <- rebind k (array_mul (pk_masses p) (fsub (Fin 1) f));
    ret (Some n)
  | PVal (NvStr s) =>
    do! i <- lift (do q <- float_of s; get_size_class_index (pk_material p) q);
    do! n <- h_mul k (NvFloat (Fin 0));
    do! p <- read k;
    do! x <- lift (get (pk_masses p) i);
    do! _ <- store n i x;
    do! _ <- store k i (Fin 0);
    ret (Some n)
  | _ =>
    match size_class_mass_tuple (other_arg a) with
    | None => lift (Err TypeError)
    | Some (s, x) =>
      do! i <- lift (class_index (pk_material p) s);
      do! y <- lift (get (pk_masses p) i);
      if flt y x then lift (Err PyException) else
      do! _ <- store k i (fsub y x);
      do! p <- read k;
      do! l <- lift (set_nth (array_mul (pk_masses p) (Fin 0)) i x);
      do! n <- new (mkpsd (pk_material p) l);
      ret (Some n)
    end
  end.
(** psd.py:519-530: add_to with a tuple. *)
Definition h_add_to_class (k : nat) (s mass : fl) : M unit :=
  do! p <- read k;
  do! i <- lift (class_index (pk_material p) s);
  do! x <- lift (get (pk_masses p) i);
  store k i (fadd x mass).
(** psd.py:496-534. *)
Definition h_add_to (k : nat) (other : operand nat (pyarg nval)) : M unit :=
  match other with
  | OPackage j =>
    do! p <- read k; do! o <- read j;
    if (ps_id (pk_material p) =? ps_id (pk_material o))%Z
    then do! ms <- lift (array_add (pk_masses p) (pk_masses o)); rebind k ms
    else forM (fun _ s =>
        do! p <- read k;
        if negb (member qdec s (ps_classes (pk_material p))) then lift (Err TypeError) else
        do! o <- read j; do! x <- lift (get_size_class_mass o s); h_add_to_class k (Fin s) x) (ps_classes (pk_material o)) tt
  | OOther a =>
    match size_class_mass_tuple (other_arg a) with
    | Some (s, x) => h_add_to_class k s x
    | None => lift (Err TypeError)
    end
  end.
Definition scalar_of {X} (y : operand X (pyarg nval)) : nval := match y with OOther (PVal v) => v | _ => NvOther end.
(** A call of a method on an object; methods without an argument ignore it. *)
Definition h_method (float_of : string -> res Qc) (o : op) (k : nat) (y : operand nat (pyarg nval)) : M (option nat) :=
  match o with
  | OpAdd => do! n <- h_add k y; ret (Some n)
  | OpMul => do! n <- h_mul k (scalar_of y); ret (Some n)
  | OpClone => do! n <- clone k; ret (Some n)
  | OpExtract => match y with OOther a => h_extract float_of k a | OPackage _ => lift (Err TypeError) end
  | OpAddTo => do! _ <- h_add_to k y; ret None
  | OpClear => do! _ <- h_clear k; ret None
  end.
(** The same call on a value. *)
Definition v_arg (y : operand package (pyarg nval)) : arg := match y with OPackage q => APackage q | OOther a => other_arg a end.
Definition v_create (c : material * option string * fl * bool) : res package := let '(m, assay, mass, normalise) := c in create_package m assay mass normalise.
Definition v_method (float_of : string -> res Qc) (o : op) (p : package) (y : operand package (pyarg nval)) : package * res (option package) :=
  match o with
  | OpAdd => (p, do q <- add p (v_arg y); Ok (Some q))
  | OpMul => (p, do q <- mul p (scalar_of y); Ok (Some q))
  | OpClone => (p, Ok (Some p))
  | OpExtract => let x := extract float_of p (v_arg y) in (fst x, do q <- snd x; Ok (Some q))
  | OpAddTo => let x := add_to p (v_arg y) in (fst x, do _ <- snd x; Ok None)
  | OpClear => (clear p, Ok None)
  end.
