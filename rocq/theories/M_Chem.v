(** Model of auxi/modelling/process/materials/chem.py.
    Numbers are exact; Python's int and float are kept apart because the code
    tests [type(x) is float].  A material is identified by [m_id]: the class has
    no __eq__, so [==] compares identity.  Names and descriptions are not
    modelled; [M_Print] has __str__.  Packages are values here; [M_HeapChem] has them as objects
    with lists that could be shared. *)
From Verif Require Import Prelude M_Elements M_Stoichiometry M_Text M_Lists M_Float.
Local Open Scope string_scope.
Local Open Scope list_scope.
Local Open Scope Z_scope.

(** * Python numbers *)
Inductive num := NInt (z : Z) | NFloat (q : Qc).
Definition val (n : num) : Qc := match n with NInt z => Q2Qc (inject_Z z) | NFloat q => q end.
Definition nadd (a b : num) : num :=
  match a, b with NInt x, NInt y => NInt (x + y) | _, _ => NFloat (val a + val b)%Qc end.
Definition nsub (a b : num) : num :=
  match a, b with NInt x, NInt y => NInt (x - y) | _, _ => NFloat (val a - val b)%Qc end.
Definition nmul (a b : num) : num :=
  match a, b with NInt x, NInt y => NInt (x * y) | _, _ => NFloat (val a * val b)%Qc end.
Definition ndiv (a b : num) : res num := do q <- pydiv (val a) (val b); Ok (NFloat q).
(** sum(l) *)
Definition nsum (l : list num) : num := fold_left nadd l (NInt 0).

(** * Material, chem.py:36-233 *)
Record material := mkmat { m_id : Z; m_compounds : list string; m_assays : list (string * list num); m_elements : list string }.

(** sorted(l) on strings: by code points. *)
Fixpoint insert_sorted (x : string) (l : list string) : list string :=
  match l with
  | [] => [x]
  | y :: l' => if String.leb x y then x :: l else y :: insert_sorted x l'
  end.
Definition sorted (l : list string) : list string := fold_right insert_sorted [] l.

(** chem.py:145-154. *)
Definition create_element_list (compounds : list string) : res (list string) :=
  do els <- elements compounds; Ok (sorted els).

(** chem.py:94-121 with [lines] the lines of the file. *)
Definition read_material (float_of : text -> res Qc) (id : Z) (lines : list text) : res material :=
  do t <- read_table float_of (fun w => Ok (str_of w)) lines;
  do els <- create_element_list (fst t);
  Ok (mkmat id (fst t) (map (fun kv => (str_of (fst kv), map NFloat (snd kv))) (snd t)) els).

(** chem.py:156-166. *)
Definition get_compound_index (m : material) (c : string) : res nat := index_of string_dec c (m_compounds m).

(** chem.py:168-176: Python ints. *)
Definition create_empty_assay (m : material) : list num := repeat (NInt 0) (length (m_compounds m)).

Fixpoint find_assay (n : string) (l : list (string * list num)) : res (list num) :=
  match l with [] => Err KeyError | (k, v) :: l' => if String.eqb k n then Ok v else find_assay n l' end.

(** chem.py:178-199; the argument is a list. *)
Definition add_assay (m : material) (n : string) (a : list num) : res material :=
  if negb (length a =? length (m_compounds m))%nat then Err PyException
  else if existsb (fun kv => String.eqb (fst kv) n) (m_assays m) then Err PyException
  else Ok (mkmat (m_id m) (m_compounds m) (m_assays m ++ [(n, a)]) (m_elements m)).

(** chem.py:201-210. *)
Definition get_assay_total (m : material) (n : string) : res num := do a <- find_assay n (m_assays m); Ok (nsum a).

(** * MaterialPackage, chem.py:236-582 *)
Record package := mkpkg { p_material : material; p_masses : list num }.

(** chem.py:212-233. *)
Definition create_package (m : material) (assay : option string) (mass : num) (normalise : bool) : res package :=
  match assay with
  | None => Ok (mkpkg m (create_empty_assay m))
  | Some n =>
    do total <- (if normalise then get_assay_total m n else Ok (NFloat 1));
    do a <- find_assay n (m_assays m);
    do ms <- mapM (fun x => ndiv (nmul mass x) total) a;
    Ok (mkpkg m ms)
  end.

(** What a caller can pass as [other]. *)
Inductive pyval := VStr (s : string) | VNum (n : num) | VOther.
Inductive arg := APackage (p : package) | ATuple (l : list pyval) | AVal (v : pyval).

(** chem.py:346-361. *)
Definition compound_mass_tuple (a : arg) : option (string * Qc) :=
  match a with ATuple [VStr s; VNum (NFloat q)] => Some (s, q) | _ => None end.

(** chem.py:402-411. *)
Definition get_compound_mass (p : package) (c : string) : res num :=
  do i <- get_compound_index (p_material p) c; get (p_masses p) i.

(** chem.py:393-400. *)
Definition get_mass (p : package) : num := nsum (p_masses p).

(** chem.py:298-305: add a mass of one compound. *)
Definition add_compound (p : package) (c : string) (mass : Qc) : res package :=
  do i <- get_compound_index (p_material p) c;
  do x <- get (p_masses p) i;
  do ms <- set_nth (p_masses p) i (nadd x (NFloat mass));
  Ok (mkpkg (p_material p) ms).

(** chem.py:261-309, p + other.  Packages of the same material: Python's [+] on
    lists. *)
Definition add (p : package) (other : arg) : res package :=
  match other with
  | APackage o =>
    if m_id (p_material p) =? m_id (p_material o) then Ok (mkpkg (p_material p) (p_masses p ++ p_masses o))
    else foldM (fun r c =>
        if negb (member string_dec c (m_compounds (p_material p))) then Err PyException else
        do x <- get_compound_mass o c;
        match x with
        | NFloat q => add_compound r c q
        | NInt _ => Err TypeError               (* not a (str, float) tuple *)
        end) (m_compounds (p_material o)) p
  | _ =>
    match compound_mass_tuple other with
    | Some (c, q) => add_compound p c q
    | None => Err TypeError
    end
  end.

(** chem.py:311-336, p * scalar. *)
Definition mul (p : package) (scalar : pyval) : res package :=
  match scalar with
  | VNum (NFloat k) =>
    if qlt k 0 then Err PyException else Ok (mkpkg (p_material p) (map (fun x => nmul x (NFloat k)) (p_masses p)))
  | _ => Err TypeError
  end.

(** chem.py:376-381: list *= 0.0. *)
Definition clear (p : package) : res package := Err TypeError.

(** chem.py:383-391. *)
Definition get_assay (p : package) : res (list num) := mapM (fun x => ndiv x (nsum (p_masses p))) (p_masses p).

(** chem.py:414-423. *)
Definition get_compound_mass_fraction (p : package) (c : string) : res num :=
  do x <- get_compound_mass p c; ndiv x (get_mass p).

(** [v+f[ix] for ix, v in enumerate(result)], chem.py:438 and 472. *)
Fixpoint add_lists (a : list num) (f : list num) : res (list num) :=
  match a, f with
  | [], _ => Ok []
  | _ :: _, [] => Err IndexError
  | x :: a', y :: f' => do r <- add_lists a' f'; Ok (nadd x y :: r)
  end.

(** chem.py:434-440 with [els] = self.material.elements, and 468-472 with
    [els] = [element]. *)
Definition element_masses (p : package) (els : list string) : res (list num) :=
  foldM (fun r c =>
      do x <- get_compound_mass p c;
      do fs <- element_mass_fractions c els;
      add_lists r (map (fun f => nmul x (NFloat f)) fs))
    (m_compounds (p_material p)) (repeat (NInt 0) (length els)).
(** chem.py:425-440. *)
Definition get_element_masses (p : package) : res (list num) := element_masses p (m_elements (p_material p)).

(** chem.py:442-457; later keys replace earlier ones. *)
Definition dict_put (d : list (string * num)) (kv : string * num) : list (string * num) :=
  if existsb (fun e => String.eqb (fst e) (fst kv)) d
  then map (fun e => if String.eqb (fst e) (fst kv) then kv else e) d else d ++ [kv].
Definition get_element_mass_dictionary (p : package) : res (list (string * num)) :=
  do ms <- get_element_masses p; Ok (fold_left dict_put (combine (m_elements (p_material p)) ms) []).

(** chem.py:459-474. *)
Definition get_element_mass (p : package) (el : string) : res num :=
  do r <- element_masses p [el]; get r 0.

(** chem.py:476-541: the package afterwards and the result of the call. *)
Definition extract (p : package) (other : arg) : package * res package :=
  let fail e := (p, Err e) in
  match other with
  | AVal (VNum (NFloat x)) =>
    if qlt (val (get_mass p)) x then fail PyException else
    match pydiv x (val (get_mass p)) with
    | Err e => fail e
    | Ok f => (mkpkg (p_material p) (map (fun m => nmul m (NFloat (1 - f))) (p_masses p)),
               Ok (mkpkg (p_material p) (map (fun m => nmul m (NFloat f)) (p_masses p))))
    end
  | AVal (VStr c) =>
    match get_compound_index (p_material p) c with
    | Err e => fail e
    | Ok i =>
      match mul p (VNum (NFloat 0)) with
      | Err e => fail e
      | Ok r =>
        match get (p_masses p) i with
        | Err e => fail e
        | Ok x =>
          match set_nth (p_masses r) i x, set_nth (p_masses p) i (NFloat 0) with
          | Ok rs, Ok ps => (mkpkg (p_material p) ps, Ok (mkpkg (p_material p) rs))
          | Err e, _ => fail e
          | _, Err e => fail e
          end
        end
      end
    end
  | _ =>
    match compound_mass_tuple other with
    | None => fail TypeError
    | Some (c, x) =>
      match get_compound_index (p_material p) c with
      | Err e => fail e
      | Ok i =>
        match get (p_masses p) i with
        | Err e => fail e
        | Ok y =>
          if qlt (val y) x then fail PyException else
          match set_nth (p_masses p) i (nsub y (NFloat x)), set_nth (repeat (NFloat 0) (length (p_masses p))) i (NFloat x) with
          | Ok ps, Ok rs => (mkpkg (p_material p) ps, Ok (mkpkg (p_material p) rs))
          | Err e, _ => fail e
          | _, Err e => fail e
          end
        end
      end
    end
  end.

(** chem.py:544-582: the package afterwards, and whether the call raised.  The
    loop over another material's compounds changes [self] as it goes. *)
Fixpoint add_each (p : package) (o : package) (cs : list string) : package * res unit :=
  match cs with
  | [] => (p, Ok tt)
  | c :: cs' =>
    if negb (member string_dec c (m_compounds (p_material p))) then (p, Err PyException) else
    match get_compound_mass o c with
    | Err e => (p, Err e)
    | Ok (NInt _) => (p, Err TypeError)
    | Ok (NFloat q) =>
      match add_compound p c q with
      | Err e => (p, Err e)
      | Ok p' => add_each p' o cs'
      end
    end
  end.
Definition add_to (p : package) (other : arg) : package * res unit :=
  match other with
  | APackage o =>
    if m_id (p_material p) =? m_id (p_material o) then (mkpkg (p_material p) (p_masses p ++ p_masses o), Ok tt)
    else add_each p o (m_compounds (p_material o))
  | _ =>
    match compound_mass_tuple other with
    | None => (p, Err TypeError)
    | Some (c, q) => match add_compound p c q with Err e => (p, Err e) | Ok p' => (p', Ok tt) end
    end
  end.
