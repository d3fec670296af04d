(** Model of the MaterialStream class of
    auxi/modelling/process/materials/thermo.py over the real numbers.  The same
    conventions as for packages (M_ThermoMat.v): materials are compared by
    identity, [db] is the thermochemical database, [NonFinite] marks where the
    program divides by a zero of numpy.  Not modelled here: __str__ ([M_Print]), custom
    properties, isCoal changed from outside, rounding. *)
From Verif Require Import Prelude M_Stoichiometry M_Text M_Lists M_Thermochem M_Chem M_Coals M_ThermoMat.
From Coq Require Import Reals.
Local Open Scope list_scope.
Local Open Scope Z_scope.
Local Open Scope R_scope.

(** thermo.py:1092-1114.  The attributes that streams share with packages
    (material, compound flow rates, P, T, enthalpy flow rate, isCoal, HHV) and
    _DH298, which only coal has. *)
Record stream := mks { s_body : package; s_DH298 : option R }.
Definition with_body (s : stream) (b : package) : stream := mks b (s_DH298 s).
Definition set_HHV (b : package) (h : option R) : package := mktp (tp_material b) (tp_masses b) (tp_P b) (tp_T b) (tp_H b) (tp_coal b) h.
(** thermo.py:1617-1625. *)
Definition mfr (s : stream) : R := rsum (tp_masses (s_body s)).

(** compound.split('[')[0] *)
Definition formula_part (c : string) : string := match split_at "["%char (text_of c) with t :: _ => str_of t | [] => EmptyString end.
(** stoichiometry.py:270-292, convert_compound, for real masses. *)
Definition rconvert (x : R) (source target el : string) : res R :=
  do tf <- element_mass_fraction target el;
  if Qc_eq_bool tf 0 then Ok 0 else
  do sf <- element_mass_fraction source el;
  Ok (x * Q2R (this sf) / Q2R (this tf)).

(** thermo.py:1335-1347 and 1392-1400: the elements tried in turn, and the
    first one that makes up the whole formula. *)
Definition daf_elements : list string := ["C"%string; "H"%string; "O"%string; "N"%string; "S"%string].
Fixpoint first_whole (formula : string) (els : list string) : res (option string) :=
  match els with
  | [] => Ok None
  | e :: els' => do x <- element_mass_fraction formula e; if Qc_eq_bool x 1 then Ok (Some e) else first_whole formula els'
  end.
(** The masses m_C, m_H, m_O, m_N, m_S as a function of the element. *)
Definition add_daf (m : string -> R) (e : string) (x : R) : string -> R := fun k => if string_dec k e then m k + x else m k.
Definition daf_total (m : string -> R) : R := m "C"%string + m "H"%string + m "O"%string + m "N"%string + m "S"%string.

(** thermo.py:1324-1349: the daf masses and Hin. *)
Definition daf_in (db : database) (b : package) : res ((string -> R) * R) :=
  foldM (fun s c =>
      do i <- get_compound_index (tp_material b) c;
      do e <- first_whole (formula_part c) daf_elements;
      match e with
      | None => Ok s
      | Some e => do x <- get (tp_masses b) i; do h <- thermo_H db c 25 x; Ok (add_daf (fst s) e x, snd s + h)
      end) (tm_compounds (tp_material b)) (fun _ => 0, 0).
(** thermo.py:1353-1358: Hout before it is divided. *)
Definition burnt (db : database) (m : string -> R) : res R :=
  do c <- rconvert (m "C"%string) "C" "CO2" "C"; do h1 <- thermo_H db "CO2[G]" 25 c;
  do w <- rconvert (m "H"%string) "H" "H2O" "H"; do h2 <- thermo_H db "H2O[L]" 25 w;
  do h3 <- thermo_H db "O2[G]" 25 (m "O"%string);
  do h4 <- thermo_H db "N2[G]" 25 (m "N"%string);
  do s <- rconvert (m "S"%string) "S" "SO2" "S"; do h5 <- thermo_H db "SO2[G]" 25 s;
  Ok (0 + h1 + h2 + h3 + h4 + h5).
(** thermo.py:1317-1370.  The docstring's units: kWh per kg daf. *)
Definition DH298_coal (db : database) (b : package) : res R :=
  do mh <- daf_in db b;
  let total := daf_total (fst mh) in
  do out <- burnt db (fst mh);
  do Hout <- ndiv out total;
  match tp_HHV b with
  | None => do HHV <- ndiv (Hout - snd mh) total; Ok (HHV + Hout)
  | Some h => do r <- ndiv (rsum (tp_masses b)) total; Ok (h / (36 / 10) * r + Hout)
  end.

(** thermo.py:1382-1404: the daf masses and the enthalpy of the other compounds. *)
Definition coal_parts (db : database) (b : package) (T : R) : res ((string -> R) * R) :=
  foldM (fun s c =>
      do i <- get_compound_index (tp_material b) c;
      do e <- first_whole (formula_part c) daf_elements;
      do x <- get (tp_masses b) i;
      match e with
      | Some e => Ok (add_daf (fst s) e x, snd s)
      | None => do h <- thermo_H db c T x; Ok (fst s, snd s + h)
      end) (tm_compounds (tp_material b)) (fun _ => 0, 0).
(** thermo.py:1413-1417: DafHTy at the composition of the daf masses, kWh/kg. *)
Definition daf_enthalpy (y : string -> R) (TK : R) : res R :=
  do h <- daf_H TK (y "C"%string) (y "H"%string) (y "O"%string) (y "N"%string) (y "S"%string); Ok (h / 3600000).
(** thermo.py:1372-1423. *)
Definition Hfr_coal (db : database) (s : stream) (T : R) : res R :=
  do mh <- coal_parts db (s_body s) T;
  let total := daf_total (fst mh) in
  do _ <- ndiv 1 total;
  let y k := fst mh k / total in
  do H <- daf_enthalpy y (T + 27315 / 100);
  do H298 <- daf_enthalpy y (29815 / 100);
  match s_DH298 s with
  | None => Err AttributeError
  | Some d => Ok (snd mh + (H - H298 + d) * total)
  end.
(** thermo.py:1297-1315. *)
Definition calculate_Hfr (db : database) (s : stream) (T : R) : res R :=
  if tp_coal (s_body s) then Hfr_coal db s T else sum_H db (tp_material (s_body s)) (tp_masses (s_body s)) T.

(** thermo.py:1556-1567: the HHV setter, which stores before it calculates. *)
Definition put_HHV (db : database) (s : stream) (h : option R) : stream * res unit :=
  let b := set_HHV (s_body s) h in
  if tp_coal b then match DH298_coal db b with Ok d => (mks b (Some d), Ok tt) | Err e => (with_body s b, Err e) end
  else (with_body s b, Ok tt).
(** A setter applied to a new object, which is then returned. *)
Definition done (x : stream * res unit) : res stream := do _ <- snd x; Ok (fst x).

(** thermo.py:1092-1114. *)
Definition new_stream (db : database) (m : material) (ms : list R) (P T : R) (coal : bool) (HHV : option R) : res stream :=
  do s <- done (put_HHV db (mks (mktp m ms P T 0 coal None) None) HHV);
  if Rlt_dec 0 (rsum ms) then do H <- calculate_Hfr db s T; Ok (with_body s (set_TH (s_body s) T H)) else Ok s.

(** thermo.py:1512-1522 and 1534-1544: the setters of Hfr and T, with the
    search of thermo.py:1425-1452. *)
Definition put_Hfr (db : database) (s : stream) (H : R) : stream * res unit :=
  let s1 := with_body s (set_TH (s_body s) (tp_T (s_body s)) H) in
  match find_T (calculate_Hfr db s1) (tp_T (s_body s)) H with
  | Ok T => (with_body s (set_TH (s_body s) T H), Ok tt)
  | Err e => (s1, Err e)
  end.
Definition put_T (db : database) (s : stream) (T : R) : stream * res unit :=
  let s1 := with_body s (set_TH (s_body s) T (tp_H (s_body s))) in
  match calculate_Hfr db s1 T with
  | Ok H => (with_body s (set_TH (s_body s) T H), Ok tt)
  | Err e => (s1, Err e)
  end.
(** thermo.py:1577-1583. *)
Definition put_P (s : stream) (P : R) : stream := with_body s (set_P (s_body s) P).

(** thermo.py:348-373. *)
Definition create_stream (db : database) (m : material) (assay : option string) (f P T : R) (normalise : bool) : res stream :=
  match assay with
  | None => new_stream db m (create_empty_assay m) P T false None
  | Some n =>
    do total <- (if normalise then get_assay_total m n else Ok 1);
    do a <- find_assay m n;
    do ms <- mapM (fun x => ndiv (f * x) total) a;
    do coal <- is_coal m n;
    do hhv <- get_HHV m n;
    new_stream db m ms P T coal hhv
  end.

(** thermo.py:1803-1816.  'COs' is the formula in the source. *)
Definition update_HHV (db : database) (s : stream) (c : string) (x : R) : stream * res unit :=
  if tp_coal (s_body s) then
    match
      match tp_HHV (s_body s) with
      | None => Err TypeError
      | Some h =>
        do dH <- thermo_H db c 25 x;
        do m1 <- rconvert x c "COs" "C"; do h1 <- thermo_H db "CO2[G]" 25 m1;
        do m2 <- rconvert x c "H2O" "H"; do h2 <- thermo_H db "H2O[L]" 25 m2;
        do m3 <- rconvert x c "SO2" "S"; do h3 <- thermo_H db "SO2[G]" 25 m3;
        ndiv (h * (mfr s - x) + (dH - h1 - h2 - h3) * (36 / 10)) (mfr s)
      end
    with
    | Err e => (s, Err e)
    | Ok h => put_HHV db s (Some h)
    end
  else (s, Ok tt).

(** thermo.py:1454-1500: the arguments of + and extract, as for packages. *)
Inductive sarg :=
| SStream (s : stream) | SPair (c : string) (x : R) | STriple (c : string) (x T : R)
| SMfr (x : R) | SStr (c : string) | SMaterial (m : material) | SOther.

(** thermo.py:1282-1295. *)
Definition smul (db : database) (s : stream) (k : R) : res stream :=
  if Rlt_dec k 0 then Err PyException
  else let b := s_body s in new_stream db (tp_material b) (rscale (tp_masses b) k) (tp_P b) (tp_T b) (tp_coal b) (tp_HHV b).

(** thermo.py:1627-1640. *)
Definition get_compound_mfr (s : stream) (c : string) : res R := get_compound_mass (s_body s) c.

(** thermo.py:1235-1248. *)
Definition sadd_pair (db : database) (s : stream) (c : string) (x : R) : res stream :=
  let b := s_body s in
  do i <- get_compound_index (tp_material b) c;
  do h <- thermo_H db c (tp_T b) x;
  do m <- get (tp_masses b) i;
  do ms <- set_nth (tp_masses b) i (m + x);
  do r <- done (update_HHV db (with_body s (set_masses b ms)) c x);
  Ok (with_body r (set_TH (s_body r) (tp_T (s_body r)) (tp_H (s_body r) + h))).

(** thermo.py:1202-1205: an HHV that is missing (or zero) counts as zero. *)
Definition heat_value (s : stream) : R := match tp_HHV (s_body s) with Some h => h * mfr s | None => 0 end.

(** thermo.py:1197-1268. *)
Definition sadd (db : database) (s : stream) (other : sarg) : res stream :=
  let b := s_body s in
  match other with
  | SStream o =>
    let bo := s_body o in
    if (tm_id (tp_material b) =? tm_id (tp_material bo))%Z
    then
      do hhv <- (if (tp_coal b || tp_coal bo)%bool
                 then do h <- ndiv (0 + heat_value s + heat_value o) (mfr s + mfr o); Ok (Some h) else Ok None);
      do ms <- radd (tp_masses b) (tp_masses bo);
      do r <- new_stream db (tp_material b) ms 1 25 (tp_coal b || tp_coal bo) hhv;
      do r <- done (put_Hfr db r (tp_H b + tp_H bo));
      Ok (put_P r (tp_P b))
    else
      do r <- foldM (fun r c =>
          if negb (member string_dec c (tm_compounds (tp_material b))) then Err PyException else
          do x <- get_compound_mfr o c; sadd_pair db r c x) (tm_compounds (tp_material bo)) s;
      done (put_Hfr db r (tp_H b + tp_H bo))
  | SPair c x => sadd_pair db s c x
  | STriple c x T =>
    do i <- get_compound_index (tp_material b) c;
    do h <- thermo_H db c T x;
    do r <- smul db s 1;
    do m <- get (tp_masses (s_body r)) i;
    do ms <- set_nth (tp_masses (s_body r)) i (m + x);
    do r <- done (put_Hfr db (with_body r (set_masses (s_body r) ms)) (tp_H b + h));
    Ok (put_P r (tp_P b))
  | _ => Err TypeError
  end.

(** thermo.py:1597-1606.  It sets an attribute _H, not _Hfr. *)
Definition sclear (s : stream) : stream :=
  let b := s_body s in with_body s (mktp (tp_material b) (rscale (tp_masses b) 0) 1 25 (tp_H b) (tp_coal b) (tp_HHV b)).
(** thermo.py:1608-1615. *)
Definition sget_assay (s : stream) : res (list R) := get_assay (s_body s).
(** thermo.py:1642-1676. *)
Definition get_compound_afrs (s : stream) : res (list R) := get_compound_amounts (s_body s).
Definition get_compound_afr (s : stream) (c : string) : res R := get_compound_amount (s_body s) c.
Definition get_afr (s : stream) : res R := get_amount (s_body s).
(** thermo.py:1678-1706. *)
Definition get_element_mfrs (s : stream) : res (list R) := element_masses (s_body s) (tm_elements (tp_material (s_body s))).
Definition get_element_mfr_dictionary (s : stream) : res (list (string * R)) :=
  do ms <- get_element_mfrs s; Ok (combine (tm_elements (tp_material (s_body s))) ms).
(** thermo.py:1708-1720. *)
Definition get_element_mfr (s : stream) (el : string) : res R :=
  foldM (fun r c =>
      do x <- get_compound_mfr s c;
      do f <- element_mass_fraction (formula_part c) el;
      Ok (r + x * Q2R (this f))) (tm_compounds (tp_material (s_body s))) 0.

(** self.T = self.T on the changed stream, then the result [r]. *)
Definition skeep_T (db : database) (s : stream) (r : res stream) : stream * res stream :=
  let x := put_T db s (tp_T (s_body s)) in (fst x, do _ <- snd x; r).
(** The changed stream after _update_HHV, then self.T = self.T, then [r] of the
    stream (thermo.py:1798-1801 and 1829-1835). *)
Definition supdate (db : database) (s : stream) (c : string) (x : R) (r : stream -> res stream) : stream * res stream :=
  match update_HHV db s c x with
  | (s', Err e) => (s', Err e)
  | (s', Ok _) => let y := put_T db s' (tp_T (s_body s')) in (fst y, do _ <- snd y; r (fst y))
  end.

(** thermo.py:1768-1782.  The result is never marked as coal. *)
Definition sextract_mfr (db : database) (s : stream) (x : R) : stream * res stream :=
  let b := s_body s in
  if Rlt_dec (mfr s) x then (s, Err PyException) else
  match ndiv x (mfr s) with
  | Err e => (s, Err e)
  | Ok f =>
    match new_stream db (tp_material b) (rscale (tp_masses b) f) (tp_P b) (tp_T b) false None with
    | Err e => (s, Err e)
    | Ok r => skeep_T db (with_body s (set_masses b (rscale (tp_masses b) (1 - f)))) (Ok r)
    end
  end.

(** thermo.py:1784-1801. *)
Definition sextract_compound (db : database) (s : stream) (c : string) : stream * res stream :=
  let b := s_body s in
  match create_stream db (tp_material b) None 0 1 25 true with
  | Err e => (s, Err e)
  | Ok r =>
    if negb (member string_dec c (tm_compounds (tp_material b))) then (s, Ok r) else
    match (do i <- get_compound_index (tp_material b) c;
           do x <- get (tp_masses b) i;
           do rs <- set_nth (tp_masses (s_body r)) i x;
           do r <- done (put_T db (with_body r (set_masses (s_body r) rs)) (tp_T b));
           do ms <- set_nth (tp_masses b) i 0;
           Ok (put_P r (tp_P b), ms, x)) with
    | Err e => (s, Err e)
    | Ok (r, ms, x) => supdate db (with_body s (set_masses b ms)) c (- x) (fun _ => Ok r)
    end
  end.

(** thermo.py:1818-1835. *)
Definition sextract_compound_mfr (db : database) (s : stream) (c : string) (x : R) : stream * res stream :=
  let b := s_body s in
  if negb (member string_dec c (tm_compounds (tp_material b))) then (s, create_stream db (tp_material b) None 0 1 25 true) else
  match (do i <- get_compound_index (tp_material b) c; do y <- get (tp_masses b) i; Ok (i, y)) with
  | Err e => (s, Err e)
  | Ok (i, y) =>
    if Rlt_dec y x then (s, Err PyException) else
    match set_nth (tp_masses b) i (y - x) with
    | Err e => (s, Err e)
    | Ok ms => supdate db (with_body s (set_masses b ms)) c (- x)
                 (fun s' => do r <- create_stream db (tp_material b) None 0 (tp_P (s_body s')) (tp_T (s_body s')) true; sadd_pair db r c x)
    end
  end.

(** thermo.py:1837-1845. *)
Fixpoint sextract_each (db : database) (s r : stream) (cs : list string) : stream * res stream :=
  match cs with
  | [] => (s, done (put_T db r (tp_T (s_body s))))
  | c :: cs' =>
    match (do x <- get_compound_mfr s c; sadd_pair db r c x) with
    | Err e => (s, Err e)
    | Ok r' =>
      match sextract_compound db s c with
      | (s', Err e) => (s', Err e)
      | (s', Ok _) => sextract_each db s' r' cs'
      end
    end
  end.
Definition sextract_material (db : database) (s : stream) (m : material) : stream * res stream :=
  match create_stream db m None 0 1 25 true with
  | Err e => (s, Err e)
  | Ok r => sextract_each db s r (tm_compounds m)
  end.

(** thermo.py:1722-1766. *)
Definition sextract (db : database) (s : stream) (other : sarg) : stream * res stream :=
  match other with
  | SMfr x => sextract_mfr db s x
  | SPair c x => sextract_compound_mfr db s c x
  | SStr c => sextract_compound db s c
  | SMaterial m => sextract_material db s m
  | _ => (s, Err TypeError)
  end.
