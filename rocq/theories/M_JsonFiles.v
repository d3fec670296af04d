(** Model of the files of compounds: auxi/tools/chemistry/thermochemistry.py,
    classes CpRecord, Phase and Compound as objects with attributes,
    write_compound_to_auxi_file, load_data_auxi, and Object.write and Object.read of
    auxi/core/objects.py.  A directory is the list of its files, name and text.
    Not modelled: paths that do not exist, formulas with a slash. *)
From Verif Require Import Prelude M_Stoichiometry M_Text M_Thermochem M_Factsage M_Json.
From Coq Require Import Reals.
Local Open Scope string_scope.
Local Open Scope list_scope.

(** thermochemistry.py:39-64, the attributes of a CpRecord. *)
Record arecord := mkar { ar_Tmin : Qc; ar_Tmax : Qc; ar_coefficients : list Qc; ar_exponents : list Qc }.
(** thermochemistry.py:152-190, the attributes of a Phase without magnetic data
    (C35: no other can be constructed); the records by the text of their highest
    temperature. *)
Record aphase := mkap { ap_name : text; ap_symbol : text; ap_Tref : Qc; ap_DHref : Qc; ap_Sref : Qc; ap_records : list (text * arecord) }.
(** thermochemistry.py:422-442, the attributes of a Compound. *)
Record acompound := mkac { ac_formula : text; ac_molar_mass : Qc; ac_phases : list (text * aphase); ac_reference : text }.

Definition module_name (c : string) : text := text_of "auxi.tools.chemistry.thermochemistry." ++ text_of c.
Definition record_obj (r : arecord) : pyobj :=
  OInst (module_name "CpRecord")
    [(text_of "Tmin", ONum (ar_Tmin r)); (text_of "Tmax", ONum (ar_Tmax r));
     (text_of "_coefficients", OList (map ONum (ar_coefficients r))); (text_of "_exponents", OList (map ONum (ar_exponents r)))].
(** thermochemistry.py:199-202: the four methods set by Phase._init. *)
Definition zero_mag : list (text * pyobj) :=
  map (fun k => (text_of k, OMethod (text_of "Zero_mag"))) ["Cp_mag"; "H_mag"; "S_mag"; "G_mag"]%list.
Definition phase_obj (p : aphase) : pyobj :=
  OInst (module_name "Phase")
    ([(text_of "name", OStr (ap_name p)); (text_of "symbol", OStr (ap_symbol p)); (text_of "Tref", ONum (ap_Tref p));
      (text_of "DHref", ONum (ap_DHref p)); (text_of "Sref", ONum (ap_Sref p));
      (text_of "_Cp_records", ODict (map (fun kr => (fst kr, record_obj (snd kr))) (ap_records p)))] ++ zero_mag).
Definition compound_obj (c : acompound) : pyobj :=
  OInst (module_name "Compound")
    [(text_of "formula", OStr (ac_formula c)); (text_of "molar_mass", ONum (ac_molar_mass c));
     (text_of "_phases", ODict (map (fun kp => (fst kp, phase_obj (snd kp))) (ac_phases c))); (text_of "reference", OStr (ac_reference c))].

(** * Reading the attributes of an object *)
Definition get_attr (o : pyobj) (k : string) : res pyobj :=
  match o with
  | OInst _ a => match dget tdec a (text_of k) with Ok v => Ok v | Err _ => Err AttributeError end
  | _ => Err AttributeError
  end.
Definition as_num (o : pyobj) : res Qc := match o with ONum x => Ok x | _ => Err TypeError end.
Definition as_str (o : pyobj) : res text := match o with OStr t => Ok t | _ => Err TypeError end.
Definition as_nums (o : pyobj) : res (list Qc) := match o with OList l => mapM as_num l | _ => Err TypeError end.
Definition as_dict (o : pyobj) : res (list (text * pyobj)) := match o with ODict d => Ok d | _ => Err TypeError end.
Definition qr (x : Qc) : R := Q2R (this x).

Section Reading.
Variable float_of : text -> res Qc.
(** zip(self._coefficients, self._exponents), thermochemistry.py:87. *)
Definition record_of (o : pyobj) : res cprecord :=
  do tmin <- get_attr o "Tmin"; do tmin <- as_num tmin;
  do tmax <- get_attr o "Tmax"; do tmax <- as_num tmax;
  do cs <- get_attr o "_coefficients"; do cs <- as_nums cs;
  do es <- get_attr o "_exponents"; do es <- as_nums es;
  Ok (mkcp (qr tmin) (qr tmax) (combine (map qr cs) (map qr es))).
(** The thermochemical data of a phase: thermochemistry.py:229-411 use DHref, Sref and
    the records by float(key); the data files hold no magnetic data. *)
Definition phase_data (o : pyobj) : res phase :=
  do dh <- get_attr o "DHref"; do dh <- as_num dh;
  do s <- get_attr o "Sref"; do s <- as_num s;
  do d <- get_attr o "_Cp_records"; do d <- as_dict d;
  do rs <- mapM (fun kr => do t <- float_of (fst kr); do r <- record_of (snd kr); Ok (qr t, r)) d;
  Ok (mkphase (qr dh) (qr s) rs None).
Definition compound_data (o : pyobj) : res tcompound :=
  do f <- get_attr o "formula"; do f <- as_str f;
  do m <- get_attr o "molar_mass"; do m <- as_num m;
  do d <- get_attr o "_phases"; do d <- as_dict d;
  do ps <- mapM (fun kp => do p <- phase_data (snd kp); Ok (str_of (fst kp), p)) d;
  Ok (mktc (str_of f) (qr m) ps).

(** thermochemistry.py:192-202, Phase._init of a phase without magnetic data. *)
Definition init_phase (o : pyobj) : pyobj :=
  match o with OInst c a => OInst c (fold_left (fun d kv => dput tdec d (fst kv) (snd kv)) zero_mag a) | _ => o end.
(** thermochemistry.py:453-455, Compound._init. *)
Definition init_compound (o : pyobj) : res pyobj :=
  do d <- get_attr o "_phases"; do d <- as_dict d;
  match o with
  | OInst c a => Ok (OInst c (dput tdec a (text_of "_phases") (ODict (map (fun kp => (fst kp, init_phase (snd kp))) d))))
  | _ => Err AttributeError
  end.
(** core/objects.py:41-47, Object.read, for a compound. *)
Definition read_compound (s : text) : res pyobj := do o <- object_read float_of s; init_compound o.

(** glob.glob('Compound_*.json'), thermochemistry.py:756. *)
Definition starts (p t : text) : bool := match word p t with Some _ => true | None => false end.
Definition is_compound_file (name : text) : bool :=
  match word (text_of "Compound_") name with Some r => starts (rev (text_of ".json")) (rev r) | None => false end.
(** thermochemistry.py:742-761, load_data_auxi: the dictionary [compounds]. *)
Definition load_data_auxi (dir : list (text * text)) : res (list (string * tcompound)) :=
  foldM (fun db f => do o <- read_compound (snd f); do c <- compound_data o; Ok (dput string_dec db (tc_formula c) c))
    (filter (fun f => is_compound_file (fst f)) dir) [].
End Reading.

Section Writing.
Variable repr : Qc -> text.
(** thermochemistry.py:707-717, write_compound_to_auxi_file. *)
Definition compound_file (o : pyobj) : res text := do f <- get_attr o "formula"; do f <- as_str f; Ok (text_of "Compound_" ++ f ++ text_of ".json").
Definition write_compound (dir : list (text * text)) (o : pyobj) : res (list (text * text)) :=
  do n <- compound_file o; Ok (dput tdec dir n (object_str repr o)).
(** thermochemistry.py:204-216, Phase.__str__, which Phase.write puts into the file
    (core/objects.py:37-39).  [record_str] stands for CpRecord.__str__. *)
Definition phase_str (record_str : arecord -> text) (p : aphase) : text :=
  let line a b := text_of a ++ b ++ [nl] in
  (tab :: line "PHASE: " (ap_name p)) ++ (tab :: tab :: line "Name: " (ap_name p)) ++ (tab :: tab :: line "Symbol: " (ap_symbol p)) ++
  (tab :: tab :: line "Tref: " (repr (ap_Tref p))) ++ (tab :: tab :: line "DHref: " (repr (ap_DHref p))) ++
  (tab :: tab :: line "Sref: " (repr (ap_Sref p))) ++
  (tab :: tab :: line "Cp record count:" (repr (Q2Qc (Z.of_nat (length (ap_records p)) # 1)))) ++
  flat_map (fun kr => record_str (snd kr)) (ap_records p).
End Writing.
