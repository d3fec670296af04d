(** Model of auxi/modelling/process/materials/psd.py.
    Numbers: [fl] (exact rationals with nan and infinities); size classes are
    finite floats.  Materials are compared by identity ([ps_id]).  Names
    are not modelled ([M_Print] has __str__), nor arrays shared between a package and its
    caller.  Packages are values here; [M_HeapPsd] has them as objects. *)
From Verif Require Import Prelude M_Stoichiometry M_Text M_Lists M_Float.
Local Open Scope list_scope.
Local Open Scope Z_scope.

Record material := mkpsm { ps_id : Z; ps_classes : list Qc; ps_assays : list (string * list fl) }.
Definition qdec := Qc_eq_dec.

(** psd.py:66-99; [lines] are the lines of the file. *)
Definition read_material (float_of : text -> res Qc) (id : Z) (lines : list text) : res material :=
  do t <- read_table float_of float_of lines;
  Ok (mkpsm id (fst t) (map (fun kv => (str_of (fst kv), map Fin (snd kv))) (snd t))).

(** psd.py:144-154. *)
Definition get_size_class_index (m : material) (s : Qc) : res nat := index_of qdec s (ps_classes m).
(** psd.py:156-164. *)
Definition create_empty_assay (m : material) : list fl := repeat (Fin 0) (length (ps_classes m)).
Fixpoint find_assay (n : string) (l : list (string * list fl)) : res (list fl) :=
  match l with [] => Err KeyError | (k, v) :: l' => if String.eqb k n then Ok v else find_assay n l' end.
(** psd.py:166-185; the argument is an array. *)
Definition add_assay (m : material) (n : string) (a : list fl) : res material :=
  if negb (length a =? length (ps_classes m))%nat then Err PyException
  else if existsb (fun kv => String.eqb (fst kv) n) (ps_assays m) then Err PyException
  else Ok (mkpsm (ps_id m) (ps_classes m) (ps_assays m ++ [(n, a)])).
(** psd.py:187-196. *)
Definition get_assay_total (m : material) (n : string) : res fl := do a <- find_assay n (ps_assays m); Ok (fsum a).

Record package := mkpsd { pk_material : material; pk_masses : list fl }.

(** psd.py:198-218. *)
Definition create_package (m : material) (assay : option string) (mass : fl) (normalise : bool) : res package :=
  match assay with
  | None => Ok (mkpsd m (create_empty_assay m))
  | Some n =>
    do total <- (if normalise then get_assay_total m n else Ok (Fin 1));
    do a <- find_assay n (ps_assays m);
    Ok (mkpsd m (array_div (map (fun x => fmul mass x) a) total))
  end.

Inductive arg := APackage (p : package) | ATuple (l : list nval) | AVal (v : nval).

(** psd.py:345-366.  The first entry must be a Python float; a size class is
    looked up by equality, which nan and infinities never satisfy here. *)
Definition size_class_mass_tuple (a : arg) : option (fl * fl) :=
  match a with
  | ATuple [NvFloat s; v] => match as_float v with Some x => Some (s, x) | None => None end
  | _ => None
  end.
Definition class_index (m : material) (s : fl) : res nat :=
  match s with Fin q => get_size_class_index m q | _ => Err ValueError end.

(** psd.py:396-416. *)
Definition get_mass (p : package) : fl := fsum (pk_masses p).
Definition get_size_class_mass (p : package) (s : Qc) : res fl :=
  do i <- get_size_class_index (pk_material p) s; get (pk_masses p) i.
(** psd.py:418-429. *)
Definition get_size_class_mass_fraction (p : package) (s : Qc) : res fl :=
  do x <- get_size_class_mass p s; Ok (fdiv x (get_mass p)).
(** psd.py:387-394. *)
Definition get_assay (p : package) : list fl := array_div (pk_masses p) (fsum (pk_masses p)).
(** psd.py:380-385. *)
Definition clear (p : package) : package := mkpsd (pk_material p) (array_mul (pk_masses p) (Fin 0)).

(** psd.py:302-311. *)
Definition add_class (p : package) (s : fl) (mass : fl) : res package :=
  do i <- class_index (pk_material p) s;
  do x <- get (pk_masses p) i;
  do ms <- set_nth (pk_masses p) i (fadd x mass);
  Ok (mkpsd (pk_material p) ms).

(** psd.py:263-315, p + other.  When a size class is missing, the error message
    adds a string and a float: TypeError (psd.py:289-294). *)
Definition add (p : package) (other : arg) : res package :=
  match other with
  | APackage o =>
    if ps_id (pk_material p) =? ps_id (pk_material o)
    then do ms <- array_add (pk_masses p) (pk_masses o); Ok (mkpsd (pk_material p) ms)
    else foldM (fun r s =>
        if negb (member qdec s (ps_classes (pk_material p))) then Err TypeError else
        do x <- get_size_class_mass o s; add_class r (Fin s) x) (ps_classes (pk_material o)) p
  | _ =>
    match size_class_mass_tuple other with
    | Some (s, x) => add_class p s x
    | None => Err TypeError
    end
  end.

(** psd.py:317-343. *)
Definition mul (p : package) (scalar : nval) : res package :=
  match as_float scalar with
  | Some k => if flt k (Fin 0) then Err PyException else Ok (mkpsd (pk_material p) (array_mul (pk_masses p) k))
  | None => Err TypeError
  end.

(** psd.py:468-481: take [x] of the size class at index [i]. *)
Definition take_class (p : package) (i : nat) (x : fl) : package * res package :=
  match get (pk_masses p) i with
  | Err e => (p, Err e)
  | Ok y =>
    if flt y x then (p, Err PyException) else
    match set_nth (pk_masses p) i (fsub y x) with
    | Err e => (p, Err e)
    | Ok ps =>
      match set_nth (array_mul ps (Fin 0)) i x with
      | Err e => (mkpsd (pk_material p) ps, Err e)
      | Ok rs => (mkpsd (pk_material p) ps, Ok (mkpsd (pk_material p) rs))
      end
    end
  end.
(** psd.py:485-489: take all of the size class at index [i]. *)
Definition take_all (p : package) (i : nat) : package * res package :=
  match get (pk_masses p) i with
  | Err e => (p, Err e)
  | Ok y =>
    match set_nth (array_mul (pk_masses p) (Fin 0)) i y, set_nth (pk_masses p) i (Fin 0) with
    | Ok rs, Ok ps => (mkpsd (pk_material p) ps, Ok (mkpsd (pk_material p) rs))
    | Err e, _ => (p, Err e)
    | _, Err e => (p, Err e)
    end
  end.
(** psd.py:431-493; [float_of] is Python's float(str). *)
Definition extract (float_of : string -> res Qc) (p : package) (other : arg) : package * res package :=
  match other with
  | AVal (NvFloat x) | AVal (NvNumpy x) =>
    if flt (get_mass p) x then (p, Err PyException) else
    let f := fdiv x (get_mass p) in
    (mkpsd (pk_material p) (array_mul (pk_masses p) (fsub (Fin 1) f)), Ok (mkpsd (pk_material p) (array_mul (pk_masses p) f)))
  | AVal (NvStr s) =>
    match (do q <- float_of s; get_size_class_index (pk_material p) q) with
    | Err e => (p, Err e)
    | Ok i => take_all p i
    end
  | _ =>
    match size_class_mass_tuple other with
    | None => (p, Err TypeError)
    | Some (s, x) => match class_index (pk_material p) s with Err e => (p, Err e) | Ok i => take_class p i x end
    end
  end.

(** psd.py:496-534: the package afterwards, and whether the call raised. *)
Fixpoint add_each (p : package) (o : package) (ss : list Qc) : package * res unit :=
  match ss with
  | [] => (p, Ok tt)
  | s :: ss' =>
    if negb (member qdec s (ps_classes (pk_material p))) then (p, Err TypeError) else
    match (do x <- get_size_class_mass o s; add_class p (Fin s) x) with
    | Err e => (p, Err e)
    | Ok p' => add_each p' o ss'
    end
  end.
Definition add_to (p : package) (other : arg) : package * res unit :=
  match other with
  | APackage o =>
    if ps_id (pk_material p) =? ps_id (pk_material o)
    then match array_add (pk_masses p) (pk_masses o) with
         | Err e => (p, Err e)
         | Ok ms => (mkpsd (pk_material p) ms, Ok tt)
         end
    else add_each p o (ps_classes (pk_material o))
  | _ =>
    match size_class_mass_tuple other with
    | None => (p, Err TypeError)
    | Some (s, x) => match add_class p s x with Err e => (p, Err e) | Ok p' => (p', Ok tt) end
    end
  end.
