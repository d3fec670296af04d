(** Model of the Material and MaterialPackage classes of
    auxi/modelling/process/materials/thermo.py over the real numbers.
    The thermochemical database is the argument [db].  Materials are compared
    by identity ([tm_id]).  Where numpy would go on with inf or nan the model
    stops with [NonFinite].  Not modelled: names ([M_Print] has __str__), arrays shared
    between a package and its caller, rounding.  Packages are values here;
    [M_HeapThermo] has them as objects, and [M_Custom] their custom_properties. *)
From Verif Require Import Prelude M_Stoichiometry M_Text M_Lists M_Thermochem M_Chem.
From Coq Require Import Reals.
Local Open Scope string_scope.
Local Open Scope list_scope.
Local Open Scope Z_scope.
Local Open Scope R_scope.

Definition rsum (l : list R) : R := fold_right Rplus 0 l.
Definition rscale (l : list R) (k : R) : list R := map (fun x => x * k) l.
(** numpy division by a scalar. *)
Definition ndiv (a b : R) : res R := if Req_EM_T b 0 then Err NonFinite else Ok (a / b).
(** Sum of two arrays of one length. *)
Fixpoint radd (a b : list R) : res (list R) :=
  match a, b with
  | [], [] => Ok []
  | x :: a', y :: b' => do r <- radd a' b'; Ok (x + y :: r)
  | _, _ => Err ValueError
  end.

(** thermo.py:28-152.  [tm_properties] is the list custom_properties,
    [tm_custom] the dictionary assay_custom_properties. *)
Record material := mktm {
  tm_id : Z; tm_compounds : list string; tm_assays : list (string * list R);
  tm_properties : list string; tm_custom : list (string * list (string * R)); tm_elements : list string }.

(** self.assay_custom_properties[assay] *)
Definition custom_of (m : material) (a : string) : res (list (string * R)) :=
  match lookup a (tm_custom m) with Some d => Ok d | None => Err KeyError end.
(** thermo.py:257-261. *)
Definition is_coal (m : material) (a : string) : res bool :=
  if member string_dec "IsCoal" (tm_properties m)
  then do d <- custom_of m a;
       Ok (match lookup "IsCoal" d with Some x => if Req_EM_T x 1 then true else false | None => false end)
  else Ok false.
(** thermo.py:263-264. *)
Definition get_HHV (m : material) (a : string) : res (option R) := do d <- custom_of m a; Ok (lookup "HHV[MJ/kg]" d).
(** thermo.py:266-275. *)
Definition get_compound_index (m : material) (c : string) : res nat := index_of string_dec c (tm_compounds m).
(** thermo.py:277-287. *)
Definition create_empty_assay (m : material) : list R := repeat 0 (length (tm_compounds m)).
Definition find_assay (m : material) (n : string) : res (list R) := match lookup n (tm_assays m) with Some a => Ok a | None => Err KeyError end.
(** thermo.py:289-308; raw_assays and converted_assays always hold the same. *)
Definition add_assay (m : material) (n : string) (a : list R) : res material :=
  if negb (length a =? length (tm_compounds m))%nat then Err PyException
  else match lookup n (tm_assays m) with
       | Some _ => Err PyException
       | None => Ok (mktm (tm_id m) (tm_compounds m) (tm_assays m ++ [(n, a)]) (tm_properties m) (tm_custom m) (tm_elements m))
       end.
(** thermo.py:310-319. *)
Definition get_assay_total (m : material) (n : string) : res R := do a <- find_assay m n; Ok (rsum a).

(** * Reading a material file *)

(** line.startswith("#") *)
Definition hash_line (t : text) : bool := match t with c :: _ => Ascii.eqb c "#"%char | [] => false end.
(** thermo.py:110-113: the lines before the first "#" line, and those after it. *)
Fixpoint split_hash (ls : list text) : list text * list text :=
  match ls with
  | [] => ([], [])
  | l :: ls' => if hash_line l then ([], ls') else let x := split_hash ls' in (l :: fst x, snd x)
  end.
(** d[k] = v on a Python dictionary. *)
Definition put {A} (d : list (string * A)) (k : string) (v : A) : list (string * A) :=
  if existsb (fun e => String.eqb (fst e) k) d then map (fun e => if String.eqb (fst e) k then (k, v) else e) d else d ++ [(k, v)].
(** thermo.py:139-146: one line of custom properties; [n] is len(self.raw_assays). *)
Definition read_property (float_of : text -> res Qc) (names : list text) (n : nat) (s : list string * list (string * list (string * R))) (line : text) :
    res (list string * list (string * list (string * R))) :=
  let strings := split_sp line in
  foldM (fun s j =>
      match nth_error names j, nth_error strings 0, nth_error strings (S j) with
      | Some a, Some w, Some t =>
        match lookup (str_of a) (snd s) with
        | None => Err KeyError
        | Some d => do x <- float_of t; Ok (fst s ++ [str_of w], put (snd s) (str_of a) (put d (str_of w) (Q2R (this x))))
        end
      | _, _, _ => Err IndexError
      end) (seq 0 n) s.
(** thermo.py:79-152; [lines] are the lines of the file, [float_of] is float(str). *)
Definition read_material (float_of : text -> res Qc) (id : Z) (lines : list text) : res material :=
  match prepare_lines lines with
  | [] => Err IndexError
  | header :: rest =>
    let names := assay_names header in
    let d := empty_assays names in
    let parts := split_hash rest in
    do t <- read_rows float_of (fun w => Ok (str_of w)) names (fst parts) d;
    do custom0 <- foldM (fun c j => match nth_error names j with Some a => Ok (put c (str_of a) []) | None => Err IndexError end) (seq 0 (length d)) [];
    do pc <- foldM (read_property float_of names (length d)) (snd parts) ([], custom0);
    do els <- create_element_list (fst t);
    Ok (mktm id (fst t) (map (fun kv => (str_of (fst kv), map (fun x => Q2R (this x)) (snd kv))) (snd t)) (fst pc) (snd pc) els)
  end.

(** * Packages *)

(** thermo.py:376-413. *)
Record package := mktp {
  tp_material : material; tp_masses : list R; tp_P : R; tp_T : R; tp_H : R; tp_coal : bool; tp_HHV : option R }.
Definition set_masses (p : package) (ms : list R) : package := mktp (tp_material p) ms (tp_P p) (tp_T p) (tp_H p) (tp_coal p) (tp_HHV p).
Definition set_TH (p : package) (T H : R) : package := mktp (tp_material p) (tp_masses p) (tp_P p) T H (tp_coal p) (tp_HHV p).
(** thermo.py:827-841. *)
Definition set_P (p : package) (P : R) : package := mktp (tp_material p) (tp_masses p) P (tp_T p) (tp_H p) (tp_coal p) (tp_HHV p).

(** thermo.py:875-883. *)
Definition get_mass (p : package) : R := rsum (tp_masses p).
(** thermo.py:885-898. *)
Definition get_compound_mass (p : package) (c : string) : res R :=
  if member string_dec c (tm_compounds (tp_material p))
  then do i <- get_compound_index (tp_material p) c; get (tp_masses p) i
  else Ok 0.

(** thermo.py:594-599 and 1310-1315: the loop over the compounds. *)
Definition sum_H (db : database) (m : material) (ms : list R) (T : R) : res R :=
  foldM (fun H c => do i <- get_compound_index m c; do x <- get ms i; do dH <- thermo_H db c T x; Ok (H + dH)) (tm_compounds m) 0.
(** thermo.py:582-599.  MaterialPackage has no method _calculate_Hfr_coal. *)
Definition calculate_H (db : database) (p : package) (T : R) : res R :=
  if tp_coal p then Err AttributeError else sum_H db (tp_material p) (tp_masses p) T.

(** thermo.py:389-413.  For coal with mass the constructor ends in the missing
    method; that _calculate_DH298_coal may raise something else before is not
    modelled. *)
Definition new_package (db : database) (m : material) (ms : list R) (P T : R) (coal : bool) (HHV : option R) : res package :=
  let p := mktp m ms P T 0 coal HHV in
  if Rlt_dec 0 (rsum ms) then do H <- calculate_H db p T; Ok (set_TH p T H) else Ok p.

(** thermo.py:727-733: [n] rounds of the secant method; x0, x1 are the last two
    temperatures and y0, y1 their enthalpy differences.  The result is the last
    temperature. *)
Fixpoint secant (f : R -> res R) (n : nat) (x0 x1 y0 y1 : R) : res R :=
  match n with
  | O => Ok x1
  | S n' =>
    do s <- ndiv (x1 - x0) (y1 - y0);
    let x2 := x1 - y1 * s in
    do y2 <- f x2;
    if Rlt_dec (Rabs y1) (1 / 100000) then Ok x2 else secant f n' x1 x2 y1 y2
  end.
(** thermo.py:706-733 and 1425-1452; range(2, 50) has 48 members. *)
Definition find_T (h : R -> res R) (T H : R) : res R :=
  let f x := do y <- h x; Ok (y - H) in
  do y0 <- f T; do y1 <- f (T + 10); secant f 48 T (T + 10) y0 y1.
Definition calculate_T (db : database) (p : package) (H : R) : res R := find_T (calculate_H db p) (tp_T p) H.

(** thermo.py:793-803 and 815-825: the setters of H and T.  They first store
    their argument; an exception in the calculation leaves that stored. *)
Definition set_H (db : database) (p : package) (H : R) : package * res unit :=
  let p1 := set_TH p (tp_T p) H in
  match calculate_T db p1 H with Ok T => (set_TH p T H, Ok tt) | Err e => (p1, Err e) end.
Definition set_T (db : database) (p : package) (T : R) : package * res unit :=
  let p1 := set_TH p T (tp_H p) in
  match calculate_H db p1 T with Ok H => (set_TH p T H, Ok tt) | Err e => (p1, Err e) end.
(** A setter applied to a new object, which is then returned. *)
Definition finish (x : package * res unit) : res package := do _ <- snd x; Ok (fst x).

(** thermo.py:321-346. *)
Definition create_package (db : database) (m : material) (assay : option string) (mass P T : R) (normalise : bool) : res package :=
  match assay with
  | None => new_package db m (create_empty_assay m) P T false None
  | Some n =>
    do total <- (if normalise then get_assay_total m n else Ok 1);
    do a <- find_assay m n;
    do ms <- mapM (fun x => ndiv (mass * x) total) a;
    do coal <- is_coal m n;
    do hhv <- get_HHV m n;
    new_package db m ms P T coal hhv
  end.

(** Arguments of + and extract.  A tuple whose mass is not a float is [AOther];
    the type of the temperature in a triple is not checked by the program
    (thermo.py:776-779 tests the mass twice) and is a number here. *)
Inductive arg :=
| APackage (p : package) | APair (c : string) (x : R) | ATriple (c : string) (x T : R)
| AMass (x : R) | AStr (c : string) | AMaterial (m : material) | AOther.

(** thermo.py:523-533. *)
Definition add_pair (db : database) (p : package) (c : string) (x : R) : res package :=
  do i <- get_compound_index (tp_material p) c;
  do h <- thermo_H db c (tp_T p) x;
  do m <- get (tp_masses p) i;
  do ms <- set_nth (tp_masses p) i (m + x);
  Ok (set_TH (set_masses p ms) (tp_T p) (tp_H p + h)).

(** thermo.py:556-580.  The result is never marked as coal. *)
Definition mul (db : database) (p : package) (k : R) : res package :=
  if Rlt_dec k 0 then Err PyException
  else new_package db (tp_material p) (rscale (tp_masses p) k) (tp_P p) (tp_T p) false None.

(** thermo.py:473-554. *)
Definition add (db : database) (p : package) (other : arg) : res package :=
  match other with
  | APackage o =>
    if (tm_id (tp_material p) =? tm_id (tp_material o))%Z
    then do ms <- radd (tp_masses p) (tp_masses o);
         do r <- new_package db (tp_material p) ms 1 25 false None;
         do r <- finish (set_H db r (tp_H p + tp_H o));
         Ok (set_P r (tp_P p))
    else do r <- foldM (fun r c =>
             if negb (member string_dec c (tm_compounds (tp_material p))) then Err PyException else
             do x <- get_compound_mass o c; add_pair db r c x) (tm_compounds (tp_material o)) p;
         finish (set_H db r (tp_H p + tp_H o))
  | APair c x => add_pair db p c x
  | ATriple c x T =>
    do i <- get_compound_index (tp_material p) c;
    do h <- thermo_H db c T x;
    do r <- mul db p 1;
    do m <- get (tp_masses r) i;
    do ms <- set_nth (tp_masses r) i (m + x);
    do r <- finish (set_H db (set_masses r ms) (tp_H p + h));
    Ok (set_P r (tp_P p))
  | _ => Err TypeError
  end.

(** thermo.py:855-864. *)
Definition clear (p : package) : package := mktp (tp_material p) (rscale (tp_masses p) 0) 1 25 0 (tp_coal p) (tp_HHV p).
(** thermo.py:866-873. *)
Definition get_assay (p : package) : res (list R) := mapM (fun x => ndiv x (get_mass p)) (tp_masses p).

(** stoichiometry.amount (stoichiometry.py:188-199) for a numpy mass. *)
Definition ramount (c : string) (x : R) : res R := do m <- molar_mass (Some c); ndiv x (Q2R (this m)).
(** thermo.py:913-921 and 923-931. *)
Definition get_compound_amount (p : package) (c : string) : res R :=
  do i <- get_compound_index (tp_material p) c; do x <- get (tp_masses p) i; ramount c x.
Definition get_amount (p : package) : res R :=
  foldM (fun r c => do x <- get_compound_amount p c; Ok (r + x)) (tm_compounds (tp_material p)) 0.
(** thermo.py:900-911. *)
Definition get_compound_amounts (p : package) : res (list R) :=
  foldM (fun r c => do i <- get_compound_index (tp_material p) c; do x <- get r i; do n <- ramount c x; set_nth r i n)
    (tm_compounds (tp_material p)) (rscale (tp_masses p) 1).

(** thermo.py:944-947 and 970-972. *)
Definition element_masses (p : package) (els : list string) : res (list R) :=
  foldM (fun r c =>
      do x <- get_compound_mass p c;
      do fs <- element_mass_fractions c els;
      radd r (map (fun f => x * Q2R (this f)) fs)) (tm_compounds (tp_material p)) (repeat 0 (length els)).
(** thermo.py:933-947 with the material's elements, 949-960 and 962-973. *)
Definition get_element_masses (p : package) : res (list R) := element_masses p (tm_elements (tp_material p)).
Definition get_element_mass_dictionary (p : package) : res (list (string * R)) :=
  do ms <- get_element_masses p; Ok (combine (tm_elements (tp_material p)) ms).
Definition get_element_mass (p : package) (el : string) : res R := do r <- element_masses p [el]; get r 0.

(** self.T = self.T on the package with new masses: the package afterwards, and
    the package [r] unless that raised. *)
Definition keep_T (db : database) (p : package) (r : res package) : package * res package :=
  let x := set_T db p (tp_T p) in (fst x, do _ <- snd x; r).

(** thermo.py:1021-1034. *)
Definition extract_mass (db : database) (p : package) (x : R) : package * res package :=
  if Rlt_dec (get_mass p) x then (p, Err PyException) else
  match ndiv x (get_mass p) with
  | Err e => (p, Err e)
  | Ok f =>
    match new_package db (tp_material p) (rscale (tp_masses p) f) (tp_P p) (tp_T p) false None with
    | Err e => (p, Err e)
    | Ok r => keep_T db (set_masses p (rscale (tp_masses p) (1 - f))) (Ok r)
    end
  end.

(** thermo.py:1036-1050. *)
Definition extract_compound (db : database) (p : package) (c : string) : package * res package :=
  match create_package db (tp_material p) None 0 1 25 true with
  | Err e => (p, Err e)
  | Ok r =>
    if negb (member string_dec c (tm_compounds (tp_material p))) then (p, Ok r) else
    match (do i <- get_compound_index (tp_material p) c;
           do x <- get (tp_masses p) i;
           do rs <- set_nth (tp_masses r) i x;
           do r <- finish (set_T db (set_masses r rs) (tp_T p));
           do ps <- set_nth (tp_masses p) i 0;
           Ok (set_P r (tp_P p), ps)) with
    | Err e => (p, Err e)
    | Ok (r, ps) => keep_T db (set_masses p ps) (Ok r)
    end
  end.

(** thermo.py:1052-1066. *)
Definition extract_compound_mass (db : database) (p : package) (c : string) (x : R) : package * res package :=
  if negb (member string_dec c (tm_compounds (tp_material p))) then (p, create_package db (tp_material p) None 0 1 25 true) else
  match (do i <- get_compound_index (tp_material p) c; do y <- get (tp_masses p) i; Ok (i, y)) with
  | Err e => (p, Err e)
  | Ok (i, y) =>
    if Rlt_dec y x then (p, Err PyException) else
    match set_nth (tp_masses p) i (y - x) with
    | Err e => (p, Err e)
    | Ok ps => keep_T db (set_masses p ps)
                 (do r <- create_package db (tp_material p) None 0 (tp_P p) (tp_T p) true; add_pair db r c x)
    end
  end.

(** thermo.py:1068-1076.  The loop's [self.extract] calls change the package. *)
Fixpoint extract_each (db : database) (p r : package) (cs : list string) : package * res package :=
  match cs with
  | [] => (p, finish (set_T db r (tp_T p)))
  | c :: cs' =>
    match (do x <- get_compound_mass p c; add_pair db r c x) with
    | Err e => (p, Err e)
    | Ok r' =>
      match extract_compound db p c with
      | (p', Err e) => (p', Err e)
      | (p', Ok _) => extract_each db p' r' cs'
      end
    end
  end.
Definition extract_material (db : database) (p : package) (m : material) : package * res package :=
  match create_package db m None 0 1 25 true with
  | Err e => (p, Err e)
  | Ok r => extract_each db p r (tm_compounds m)
  end.

(** thermo.py:975-1019: the package afterwards and the result of the call. *)
Definition extract (db : database) (p : package) (other : arg) : package * res package :=
  match other with
  | AMass x => extract_mass db p x
  | APair c x => extract_compound_mass db p c x
  | AStr c => extract_compound db p c
  | AMaterial m => extract_material db p m
  | _ => (p, Err TypeError)
  end.
