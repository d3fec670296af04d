(** The methods of the chem packages over objects: the same code as in [M_Chem],
    with every copy, every new list and every assignment in place made explicit.
    Scalars are computed with the functions of that model. *)
From Verif Require Import Prelude M_Elements M_Stoichiometry M_Lists M_Float M_Heap Spec_Heap M_Chem.
Local Open Scope list_scope.

Global Instance layout : Layout package material num :=
  {| attrs := p_material; items := p_masses; make := mkpkg; make_eta := fun p => match p with mkpkg _ _ => eq_refl end; attrs_make := fun _ _ => eq_refl; items_make := fun _ _ => eq_refl |}.
Notation M := (@M material num).
Definition other_arg (a : pyarg pyval) : arg := match a with PTuple l => ATuple l | PVal v => AVal v end.
(** chem.py:212-233. *)
Definition h_create (c : material * option string * num * bool) : M nat :=
  let '(m, assay, mass, normalise) := c in do! p <- lift (create_package m assay mass normalise); new p.
(** chem.py:297-305. *)
Definition h_add_compound (k : nat) (c : string) (mass : Qc) : M nat :=
  do! p <- read k;
  do! i <- lift (get_compound_index (p_material p) c);
  do! n <- clone k;
  do! r <- read n;
  do! x <- lift (get (p_masses r) i);
  do! _ <- store n i (nadd x (NFloat mass));
  ret n.
(** chem.py:261-309. *)
Definition h_add (k : nat) (other : operand nat (pyarg pyval)) : M nat :=
  match other with
  | OPackage j =>
    do! p <- read k; do! o <- read j;
    if (m_id (p_material p) =? m_id (p_material o))%Z then new (mkpkg (p_material p) (p_masses p ++ p_masses o))
    else do! n <- clone k;
      forM (fun n c =>
        if negb (member string_dec c (m_compounds (p_material p))) then lift (Err PyException) else
        do! o <- read j; do! x <- lift (get_compound_mass o c);
        match x with NFloat q => h_add_compound n c q | NInt _ => lift (Err TypeError) end) (m_compounds (p_material o)) n
  | OOther a =>
    match compound_mass_tuple (other_arg a) with
    | Some (c, q) => h_add_compound k c q
    | None => lift (Err TypeError)
    end
  end.
(** chem.py:311-336. *)
Definition h_mul (k : nat) (scalar : pyval) : M nat :=
  match scalar with
  | VNum (NFloat x) => if qlt x 0 then lift (Err PyException) else do! p <- read k; new (mkpkg (p_material p) (map (fun m => nmul m (NFloat x)) (p_masses p)))
  | _ => lift (Err TypeError)
  end.
(** chem.py:376-381: a list times a float. *)
Definition h_clear (k : nat) : M unit := lift (Err TypeError).
(** chem.py:476-541. *)
Definition h_extract (k : nat) (a : pyarg pyval) : M (option nat) :=
  do! p <- read k;
  match a with
  | PVal (VNum (NFloat x)) =>
    if qlt (val (get_mass p)) x then lift (Err PyException) else
    do! f <- lift (pydiv x (val (get_mass p)));
    do! n <- new (mkpkg (p_material p) (map (fun m => nmul m (NFloat f)) (p_masses p)));
    do! p <- read k;
    do! _ <- rebind k (map (fun m => nmul m (NFloat (1 - f))) (p_masses p));
    ret (Some n)
  | PVal (VStr c) =>
    do! i <- lift (get_compound_index (p_material p) c);
    do! n <- h_mul k (VNum (NFloat 0));
    do! p <- read k;
    do! x <- lift (get (p_masses p) i);
    do! _ <- store n i x;
    do! _ <- store k i (NFloat 0);
    ret (Some n)
  | _ =>
    match compound_mass_tuple (other_arg a) with
    | None => lift (Err TypeError)
    | Some (c, x) =>
      do! i <- lift (get_compound_index (p_material p) c);
      do! y <- lift (get (p_masses p) i);
      if qlt (val y) x then lift (Err PyException) else
      do! _ <- store k i (nsub y (NFloat x));
      do! p <- read k;
      do! l <- lift (set_nth (repeat (NFloat 0) (length (p_masses p))) i (NFloat x));
      do! n <- new (mkpkg (p_material p) l);
      ret (Some n)
    end
  end.
(** chem.py:570-577: add_to with a tuple. *)
Definition h_add_to_compound (k : nat) (c : string) (mass : Qc) : M unit :=
  do! p <- read k;
  do! i <- lift (get_compound_index (p_material p) c);
  do! x <- lift (get (p_masses p) i);
  store k i (nadd x (NFloat mass)).
(** chem.py:544-582: [+=] on lists extends the list in place. *)
Definition h_add_to (k : nat) (other : operand nat (pyarg pyval)) : M unit :=
  match other with
  | OPackage j =>
    do! p <- read k; do! o <- read j;
    if (m_id (p_material p) =? m_id (p_material o))%Z then extend k (p_masses o)
    else forM (fun _ c =>
        do! p <- read k;
        if negb (member string_dec c (m_compounds (p_material p))) then lift (Err PyException) else
        do! o <- read j; do! x <- lift (get_compound_mass o c);
        match x with NFloat q => h_add_to_compound k c q | NInt _ => lift (Err TypeError) end) (m_compounds (p_material o)) tt
  | OOther a =>
    match compound_mass_tuple (other_arg a) with
    | Some (c, q) => h_add_to_compound k c q
    | None => lift (Err TypeError)
    end
  end.
Definition scalar_of {X} (y : operand X (pyarg pyval)) : pyval := match y with OOther (PVal v) => v | _ => VOther end.
(** A call of a method on an object; methods without an argument ignore it. *)
Definition h_method (o : op) (k : nat) (y : operand nat (pyarg pyval)) : M (option nat) :=
  match o with
  | OpAdd => do! n <- h_add k y; ret (Some n)
  | OpMul => do! n <- h_mul k (scalar_of y); ret (Some n)
  | OpClone => do! n <- clone k; ret (Some n)
  | OpExtract => match y with OOther a => h_extract k a | OPackage _ => lift (Err TypeError) end
  | OpAddTo => do! _ <- h_add_to k y; ret None
  | OpClear => do! _ <- h_clear k; ret None
  end.
(** The same call on a value. *)
Definition v_arg (y : operand package (pyarg pyval)) : arg := match y with OPackage q => APackage q | OOther a => other_arg a end.
Definition v_create (c : material * option string * num * bool) : res package := let '(m, assay, mass, normalise) := c in create_package m assay mass normalise.
Definition v_method (o : op) (p : package) (y : operand package (pyarg pyval)) : package * res (option package) :=
  match o with
  | OpAdd => (p, do q <- add p (v_arg y); Ok (Some q))
  | OpMul => (p, do q <- mul p (scalar_of y); Ok (Some q))
  | OpClone => (p, Ok (Some p))
  | OpExtract => let x := extract p (v_arg y) in (fst x, do q <- snd x; Ok (Some q))
  | OpAddTo => let x := add_to p (v_arg y) in (fst x, do _ <- snd x; Ok None)
  | OpClear => (p, do _ <- clear p; Ok None)
  end.
