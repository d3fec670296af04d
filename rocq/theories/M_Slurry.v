(** Model of auxi/modelling/process/materials/slurry.py.
    Conventions as in [M_Psd].  Densities are in ton/m3, that of water is 1.0
    (slurry.py:603). *)
From Verif Require Import Prelude M_Stoichiometry M_Text M_Lists M_Float.
Local Open Scope list_scope.
Local Open Scope Z_scope.

(** A dictionary from assay names to a number. *)
Definition ndict := list (string * fl).
Definition ndict_put (d : ndict) (k : string) (v : fl) : ndict :=
  if existsb (fun e => String.eqb (fst e) k) d
  then map (fun e => if String.eqb (fst e) k then (k, v) else e) d else d ++ [(k, v)].
Fixpoint ndict_get (d : ndict) (k : string) : res fl :=
  match d with [] => Err KeyError | (k', v) :: d' => if String.eqb k' k then Ok v else ndict_get d' k end.

Record material := mkslm {
  sl_id : Z; sl_classes : list Qc; sl_assays : list (string * list fl);
  sl_densities : ndict; sl_water : ndict }.
Definition qdec := Qc_eq_dec.

(** slurry.py:99-108 and 110-119: one line of numbers, the first word of which
    must be [word]; [d] is the dictionary with its default values. *)
Definition read_line (float_of : text -> res Qc) (word : string) (names : list text) (line : text) (d : ndict) : res ndict :=
  match split_sp line with
  | [] => Err IndexError
  | w :: _ =>
    if negb (String.eqb (str_of w) word) then Err PyException else
    foldM (fun d' j =>
        match nth_error names j with
        | None => Err IndexError
        | Some n =>
          match nth_error (split_sp line) (S j) with
          | None => Err IndexError
          | Some t => do x <- float_of t; Ok (ndict_put d' (str_of n) (Fin x))
          end
        end) (seq 0 (length d)) d
  end.

(** slurry.py:75-136. *)
Definition read_material (float_of : text -> res Qc) (id : Z) (lines : list text) : res material :=
  match prepare_lines lines with
  | [] => Err IndexError
  | header :: lines' =>
    let names := assay_names header in
    let init v := fold_left (fun d n => ndict_put d (str_of n) (Fin v)) names [] in
    match lines' with
    | [] => Err IndexError
    | l1 :: lines'' =>
      do ds <- read_line float_of "solid_density" names l1 (init 1%Qc);
      match lines'' with
      | [] => Err IndexError
      | l2 :: rows =>
        do ws <- read_line float_of "H2O" names l2 (init 0%Qc);
        do t <- read_rows float_of float_of names rows (empty_assays names);
        Ok (mkslm id (fst t) (map (fun kv => (str_of (fst kv), map Fin (snd kv))) (snd t)) ds ws)
      end
    end
  end.

(** slurry.py:195-215. *)
Definition get_size_class_index (m : material) (s : Qc) : res nat := index_of qdec s (sl_classes m).
Definition create_empty_assay (m : material) : list fl := repeat (Fin 0) (length (sl_classes m)).
Fixpoint find_assay (n : string) (l : list (string * list fl)) : res (list fl) :=
  match l with [] => Err KeyError | (k, v) :: l' => if String.eqb k n then Ok v else find_assay n l' end.
(** slurry.py:230-256: the material afterwards, and whether the call raised;
    the density and the water fraction are stored before the assay is checked.
    The array argument is given as a list. *)
Definition add_assay (m : material) (n : string) (density water : nval) (a : list fl) : material * res unit :=
  match density with
  | NvFloat d =>
    let m1 := mkslm (sl_id m) (sl_classes m) (sl_assays m) (ndict_put (sl_densities m) n d) (sl_water m) in
    match water with
    | NvFloat w =>
      let m2 := mkslm (sl_id m) (sl_classes m) (sl_assays m) (sl_densities m1) (ndict_put (sl_water m) n w) in
      if negb (length a =? length (sl_classes m))%nat then (m2, Err PyException)
      else if existsb (fun kv => String.eqb (fst kv) n) (sl_assays m) then (m2, Err PyException)
      else (mkslm (sl_id m) (sl_classes m) (sl_assays m ++ [(n, a)]) (sl_densities m2) (sl_water m2), Ok tt)
    | _ => (m1, Err PyException)
    end
  | _ => (m, Err PyException)
  end.
(** slurry.py:258-267. *)
Definition get_assay_total (m : material) (n : string) : res fl := do a <- find_assay n (sl_assays m); Ok (fsum a).

(** slurry.py:311-334. *)
Record package := mksl { sk_material : material; sk_density : fl; sk_water : fl; sk_masses : list fl }.

(** slurry.py:281-308. *)
Definition create_package (m : material) (assay : option string) (mass : fl) (normalise : bool) : res package :=
  match assay with
  | None => Ok (mksl m (Fin 1) (Fin 0) (create_empty_assay m))
  | Some n =>
    do total <- (if normalise
                 then do t <- get_assay_total m n; Ok (if feq t (Fin 0) then Fin 1 else t)
                 else Ok (Fin 1));
    do w <- ndict_get (sl_water m) n;
    let water := fmul mass w in
    let solid := fsub mass water in
    do d <- ndict_get (sl_densities m) n;
    do a <- find_assay n (sl_assays m);
    Ok (mksl m d water (array_div (map (fun x => fmul solid x) a) total))
  end.

(** slurry.py:540-610. *)
Definition get_solid_mass (p : package) : fl := fsum (sk_masses p).
Definition get_mass (p : package) : fl := fadd (fsum (sk_masses p)) (sk_water p).
Definition get_size_class_mass (p : package) (s : Qc) : res fl :=
  do i <- get_size_class_index (sk_material p) s; get (sk_masses p) i.
Definition get_size_class_mass_fraction (p : package) (s : Qc) : res fl :=
  do x <- get_size_class_mass p s; Ok (fdiv x (get_solid_mass p)).
Definition get_volume (p : package) : fl := fadd (fdiv (sk_water p) (Fin 1)) (fdiv (get_solid_mass p) (sk_density p)).
Definition get_density (p : package) : fl := fdiv (get_mass p) (get_volume p).
Definition get_mass_fraction_solids (p : package) : fl := fdiv (get_solid_mass p) (get_mass p).
Definition get_volume_fraction_solids (p : package) : fl := fsub (Fin 1) (fdiv (fdiv (sk_water p) (Fin 1)) (get_volume p)).
(** slurry.py:521-538. *)
Definition clear (p : package) : package := mksl (sk_material p) (Fin 1) (Fin 0) (array_mul (sk_masses p) (Fin 0)).
Definition get_assay (p : package) : list fl := array_div (sk_masses p) (fsum (sk_masses p)).

Inductive arg := APackage (p : package) | ATuple (l : list nval) | AVal (v : nval).

(** slurry.py:464-485. *)
Definition size_class_mass_tuple (a : arg) : option (fl * fl) :=
  match a with
  | ATuple [NvFloat s; v] => match as_float v with Some x => Some (s, x) | None => None end
  | _ => None
  end.
(** slurry.py:487-508: the first entry is rejected only if it is not a string
    and differs from "H2O", so every string passes. *)
Definition water_mass_tuple (a : arg) : option fl :=
  match a with
  | ATuple [NvStr _; v] => as_float v
  | _ => None
  end.
Definition class_index (m : material) (s : fl) : res nat :=
  match s with Fin q => get_size_class_index m q | _ => Err ValueError end.

(** slurry.py:419-428. *)
Definition add_class (p : package) (s : fl) (mass : fl) : res package :=
  do i <- class_index (sk_material p) s;
  do x <- get (sk_masses p) i;
  do ms <- set_nth (sk_masses p) i (fadd x mass);
  Ok (mksl (sk_material p) (sk_density p) (sk_water p) ms).

(** slurry.py:377-381. *)
Definition mixed_density (p o : package) : fl :=
  fdiv (fadd (get_solid_mass p) (get_solid_mass o))
       (fadd (fdiv (get_solid_mass p) (sk_density p)) (fdiv (get_solid_mass o) (sk_density o))).

(** slurry.py:361-432, p + other.  A missing size class: TypeError, because the
    message adds a string and a float (slurry.py:397-402). *)
Definition add (p : package) (other : arg) : res package :=
  match other with
  | APackage o =>
    let d := mixed_density p o in
    let w := fadd (sk_water p) (sk_water o) in
    if sl_id (sk_material p) =? sl_id (sk_material o)
    then do ms <- array_add (sk_masses p) (sk_masses o); Ok (mksl (sk_material p) d w ms)
    else foldM (fun r s =>
        if negb (member qdec s (sl_classes (sk_material p))) then Err TypeError else
        do x <- get_size_class_mass o s; add_class r (Fin s) x)
      (sl_classes (sk_material o)) (mksl (sk_material p) d w (sk_masses p))
  | _ =>
    match water_mass_tuple other with
    | Some x => Ok (mksl (sk_material p) (sk_density p) (fadd (sk_water p) x) (sk_masses p))
    | None =>
      match size_class_mass_tuple other with
      | Some (s, x) => add_class p s x
      | None => Err TypeError
      end
    end
  end.

(** slurry.py:434-462. *)
Definition mul (p : package) (scalar : nval) : res package :=
  match as_float scalar with
  | Some k =>
    if flt k (Fin 0) then Err PyException
    else Ok (mksl (sk_material p) (sk_density p) (fmul (sk_water p) k) (array_mul (sk_masses p) k))
  | None => Err TypeError
  end.

(** slurry.py:667-680: take [x] of the size class at index [i]. *)
Definition take_class (p : package) (i : nat) (x : fl) : package * res package :=
  match get (sk_masses p) i with
  | Err e => (p, Err e)
  | Ok y =>
    if flt y x then (p, Err PyException) else
    match set_nth (sk_masses p) i (fsub y x) with
    | Err e => (p, Err e)
    | Ok ps =>
      let p' := mksl (sk_material p) (sk_density p) (sk_water p) ps in
      match set_nth (array_mul ps (Fin 0)) i x with
      | Err e => (p', Err e)
      | Ok rs => (p', Ok (mksl (sk_material p) (sk_density p) (Fin 0) rs))
      end
    end
  end.
(** slurry.py:683-688. *)
Definition take_all (p : package) (i : nat) : package * res package :=
  match get (sk_masses p) i with
  | Err e => (p, Err e)
  | Ok y =>
    match set_nth (array_mul (sk_masses p) (Fin 0)) i y, set_nth (sk_masses p) i (Fin 0) with
    | Ok rs, Ok ps => (mksl (sk_material p) (sk_density p) (sk_water p) ps,
                       Ok (mksl (sk_material p) (sk_density p) (fmul (sk_water p) (Fin 0)) rs))
    | Err e, _ => (p, Err e)
    | _, Err e => (p, Err e)
    end
  end.
(** slurry.py:612-692; [float_of] is Python's float(str). *)
Definition extract (float_of : string -> res Qc) (p : package) (other : arg) : package * res package :=
  match other with
  | AVal (NvFloat x) | AVal (NvNumpy x) =>
    if flt (get_mass p) x then (p, Err PyException) else
    let f := fdiv x (get_mass p) in
    let g := fsub (Fin 1) f in
    (mksl (sk_material p) (sk_density p) (fmul (sk_water p) g) (array_mul (sk_masses p) g),
     Ok (mksl (sk_material p) (sk_density p) (fmul (sk_water p) f) (array_mul (sk_masses p) f)))
  | AVal (NvStr s) =>
    match (do q <- float_of s; get_size_class_index (sk_material p) q) with
    | Err e => (p, Err e)
    | Ok i => take_all p i
    end
  | _ =>
    match water_mass_tuple other with
    | Some x =>
      if flt (sk_water p) x then (p, Err PyException) else
      (mksl (sk_material p) (sk_density p) (fsub (sk_water p) x) (sk_masses p),
       Ok (mksl (sk_material p) (sk_density p) x (array_mul (sk_masses p) (Fin 0))))
    | None =>
      match size_class_mass_tuple other with
      | None => (p, Err TypeError)
      | Some (s, x) => match class_index (sk_material p) s with Err e => (p, Err e) | Ok i => take_class p i x end
      end
    end
  end.
