(** Model of what str() gives for the materials, packages and streams of
    auxi/modelling/process/materials/chem.py, psd.py, slurry.py and thermo.py.
    A name is a text; str() of a number is an argument of the definitions for
    chem, psd and slurry ([repr]), and thermo's '{:.8e}' is modelled for real
    numbers.  The printed characters are those below 256 (the degree sign is
    one of them). *)
From Verif Require Import Prelude M_Stoichiometry M_Text M_Lists M_Float M_Csv M_Tables M_Thermochem.
From Verif Require M_Chem M_Psd M_Slurry M_ThermoMat M_Streams.
From Coq Require Import Reals.
From Flocq Require Generic_fmt Round_NE.
Local Open Scope string_scope.
Local Open Scope list_scope.
Local Open Scope Z_scope.

(** str.ljust(n) and str.rjust(n): a longer text is not cut. *)
Definition spaces (n : nat) : text := repeat sp n.
Definition ljust (n : nat) (t : text) : text := t ++ spaces (n - length t).
Definition rjust (n : nat) (t : text) : text := spaces (n - length t) ++ t.
(** "\n" *)
Definition nl : text := [lf].
(** for x in l: result += f(x); an exception in a round ends it all. *)
Definition each {A} (f : A -> res text) (l : list A) : res text := do ts <- mapM f l; Ok (concat ts).

(** * Materials of chem, psd and slurry *)
Section Rows.
Context {C A : Type} (index : C -> res nat) (show_c : C -> text) (assay : string -> res (list A)) (show : A -> text).
(** The lines of the table, chem.py:78-84, psd.py:115-122, slurry.py:167-173. *)
Definition material_rows (names : list string) (cs : list C) : res text :=
  each (fun c =>
      do i <- index c;
      do cells <- each (fun n => do a <- assay n; do x <- get a i; Ok (ljust 20 (show x))) names;
      Ok (ljust 20 (show_c c) ++ cells ++ nl)) cs.
(** The lines of a package, chem.py:255-258, psd.py:254-257, slurry.py:355-358;
    the first column is [w] wide. *)
Definition package_rows (w : nat) (masses : list A) (cs : list C) : res text :=
  each (fun c => do i <- index c; do x <- get masses i; Ok (ljust w (show_c c) ++ show x ++ nl)) cs.
End Rows.
(** The first two lines, chem.py:69-76, psd.py:106-113, slurry.py:143-150. *)
Definition material_head (name : text) (names : list string) : text :=
  text_of "Material: name='" ++ name ++ text_of "'" ++ nl ++
  ljust 20 (text_of "Compound") ++ concat (map (fun n => ljust 20 (text_of n)) names) ++ nl.

(** chem.py:67-85. *)
Definition chem_material (repr : M_Chem.num -> text) (name : text) (m : M_Chem.material) : res text :=
  let names := M_Chem.sorted (map fst (M_Chem.m_assays m)) in
  do rows <- material_rows (M_Chem.get_compound_index m) text_of (fun n => M_Chem.find_assay n (M_Chem.m_assays m)) repr names (M_Chem.m_compounds m);
  Ok (material_head name names ++ rows).
(** psd.py:101-123. *)
Definition psd_material (repr : fl -> text) (name : text) (m : M_Psd.material) : res text :=
  let names := M_Chem.sorted (map fst (M_Psd.ps_assays m)) in
  do rows <- material_rows (M_Psd.get_size_class_index m) (fun s => repr (Fin s)) (fun n => M_Psd.find_assay n (M_Psd.ps_assays m)) repr names (M_Psd.ps_classes m);
  Ok (material_head name names ++ rows).
(** slurry.py:138-174. *)
Definition slurry_material (repr : fl -> text) (name : text) (m : M_Slurry.material) : res text :=
  let names := M_Chem.sorted (map fst (M_Slurry.sl_assays m)) in
  do ds <- each (fun n => do x <- M_Slurry.ndict_get (M_Slurry.sl_densities m) n; Ok (ljust 20 (repr x))) names;
  do ws <- each (fun n => do x <- M_Slurry.ndict_get (M_Slurry.sl_water m) n; Ok (ljust 20 (repr x))) names;
  do rows <- material_rows (M_Slurry.get_size_class_index m) (fun s => repr (Fin s)) (fun n => M_Slurry.find_assay n (M_Slurry.sl_assays m)) repr names (M_Slurry.sl_classes m);
  Ok (material_head name names ++ ljust 20 (text_of "Solid density") ++ ds ++ nl ++ ljust 20 (text_of "H2O fraction") ++ ws ++ nl ++ rows).

(** * Packages of chem, psd and slurry *)
(** One line: a label in a column [w] wide, and a text. *)
Definition label (w : nat) (l : string) (t : text) : text := ljust w (text_of l) ++ t ++ nl.
(** chem.py:250-259. *)
Definition chem_package (repr : M_Chem.num -> text) (name : text) (p : M_Chem.package) : res text :=
  do rows <- package_rows (M_Chem.get_compound_index (M_Chem.p_material p)) text_of repr 20 (M_Chem.p_masses p) (M_Chem.m_compounds (M_Chem.p_material p));
  Ok (text_of "MaterialPackage" ++ nl ++ label 20 "material" name ++ label 20 "mass" (repr (M_Chem.get_mass p)) ++ text_of "Component masses:" ++ nl ++ rows).
(** psd.py:245-258. *)
Definition psd_package (repr : fl -> text) (name : text) (p : M_Psd.package) : res text :=
  do rows <- package_rows (M_Psd.get_size_class_index (M_Psd.pk_material p)) (fun s => repr (Fin s)) repr 20 (M_Psd.pk_masses p) (M_Psd.ps_classes (M_Psd.pk_material p));
  Ok (text_of "MaterialPackage" ++ nl ++ label 20 "material" name ++ label 20 "mass" (repr (M_Psd.get_mass p)) ++ text_of "Component masses:" ++ nl ++ rows).
(** slurry.py:336-359. *)
Definition slurry_package (repr : fl -> text) (name : text) (p : M_Slurry.package) : res text :=
  do rows <- package_rows (M_Slurry.get_size_class_index (M_Slurry.sk_material p)) (fun s => repr (Fin s)) repr 24 (M_Slurry.sk_masses p) (M_Slurry.sl_classes (M_Slurry.sk_material p));
  Ok (text_of "MaterialPackage" ++ nl ++ label 24 "material" name ++
      label 24 "mass fraction solids" (repr (M_Slurry.get_mass_fraction_solids p)) ++
      label 24 "volume fraction solids" (repr (M_Slurry.get_volume_fraction_solids p)) ++
      label 24 "solid density" (repr (M_Slurry.sk_density p)) ++
      label 24 "slurry density" (repr (M_Slurry.get_density p)) ++
      label 24 "mass" (repr (M_Slurry.get_mass p)) ++
      label 24 "H2O mass" (repr (M_Slurry.sk_water p)) ++
      label 24 "volume" (repr (M_Slurry.get_volume p)) ++
      text_of "Component masses:" ++ nl ++ rows).

(** * '{:.8e}'.format(x) for a real number *)
(** The decimal exponent of a positive number. *)
Definition exponent (x : R) : Z := Int_part (ln x / ln 10)%R.
(** Nine digits, rounded to the nearest and to an even last digit in the middle;
    999999999.5 and more carries over into the exponent. *)
Definition nine (x : R) : Z * Z :=
  let e := exponent x in
  let m := Generic_fmt.Znearest (fun n => negb (Z.even n)) (x * powerRZ 10 (8 - e))%R in
  if m =? 10 ^ 9 then (10 ^ 8, e + 1) else (m, e).
Definition digits9 (m : Z) : text := match padded 9 m with d :: ds => d :: "."%char :: ds | [] => [] end.
Definition exponent_str (e : Z) : text :=
  (if e <? 0 then "-"%char else "+"%char) :: (if Z.abs e <? 10 then ["0"%char] else []) ++ decimal (Z.abs e).
Definition sci (x : R) : text :=
  if Req_EM_T x 0 then digits9 0 ++ "e"%char :: exponent_str 0 else
  let me := nine (Rabs x) in
  (if Rlt_dec x 0 then ["-"%char] else []) ++ digits9 (fst me) ++ "e"%char :: exponent_str (snd me).

(** * Materials, packages and streams of thermo *)
(** "=" * n and "-" * n, followed by a line end. *)
Definition rule (c : ascii) (n : nat) : text := repeat c n ++ nl.
(** Cells with two blanks between them, thermo.py:170-173, 181-185, 190-197, 209-215. *)
Fixpoint padded_cells (cells : list text) : text :=
  match cells with [] => [] | [t] => t | t :: ts => t ++ sp :: sp :: padded_cells ts end.
(** thermo.py:154-219. *)
Definition thermo_material (name : text) (m : M_ThermoMat.material) : res text :=
  let assays := M_ThermoMat.tm_assays m in
  let line_length := match assays with [] => (20 + length name)%nat | _ => (20 + (3 + 14) * length assays - 2)%nat end in
  let names := M_Chem.sorted (map fst assays) in
  let cs := M_Chem.sorted (M_ThermoMat.tm_compounds m) in
  let cell n c := do i <- M_ThermoMat.get_compound_index m c; do a <- M_ThermoMat.find_assay m n; get a i in
  do rows <- each (fun c => do cells <- mapM (fun n => do x <- cell n c; Ok (rjust 15 (sci x))) names;
                            Ok (ljust 20 (text_of c) ++ padded_cells cells ++ nl)) cs;
  do totals <- mapM (fun n => do t <- foldM (fun t c => do x <- cell n c; Ok (t + x)%R) cs 0%R; Ok (rjust 15 (sci t))) names;
  do custom <- match M_ThermoMat.tm_properties m with
    | [] => Ok []
    | _ => match M_Chem.sorted (map fst (M_ThermoMat.tm_custom m)) with
           | [] => Err IndexError
           | first :: _ =>
             do d <- M_ThermoMat.custom_of m first;
             do ls <- each (fun prop =>
                 do cells <- mapM (fun n => do d' <- M_ThermoMat.custom_of m n;
                                            match lookup prop d' with Some x => Ok (rjust 15 (sci x)) | None => Err KeyError end) names;
                 Ok (ljust 20 (text_of prop) ++ padded_cells cells ++ nl)) (M_Chem.sorted (map fst d));
             Ok (rule "-" line_length ++ text_of "Custom Properties:" ++ nl ++ rule "-" line_length ++ ls)
           end
    end;
  Ok (rule "=" line_length ++ text_of "Material" ++ nl ++ rule "=" line_length ++
      ljust 20 (text_of "Name") ++ name ++ nl ++ rule "-" line_length ++
      (match assays with [] => [] | _ => text_of "Composition Details (mass fractions)" ++ nl end) ++
      ljust 20 (text_of "Compound") ++ padded_cells (map (fun n => ljust 15 (firstn 15 (text_of n))) names) ++ nl ++ rule "-" line_length ++
      rows ++ ljust 20 (text_of "Total") ++ padded_cells totals ++ nl ++ custom ++ rule "=" line_length).

(** '{:.8e}'.format(x).rjust(15) after a label, and a unit. *)
Definition quantity (l : string) (x : R) (unit_ : text) : text := ljust 20 (text_of l) ++ rjust 15 (sci x) ++ sp :: unit_ ++ nl.
(** thermo.py:438-457 and 1141-1160. *)
Definition compound_rows (b : M_ThermoMat.package) : res text :=
  let m := M_ThermoMat.tp_material b in
  let mass := M_ThermoMat.get_mass b in
  do moles <- M_ThermoMat.get_compound_amounts b;
  let total := M_ThermoMat.rsum moles in
  if Rlt_dec 0 mass then
    each (fun c =>
        do i <- M_ThermoMat.get_compound_index m c;
        do x <- get (M_ThermoMat.tp_masses b) i;
        do f <- M_ThermoMat.ndiv x mass;
        do n <- get moles i;
        do g <- M_ThermoMat.ndiv n total;
        Ok (ljust 20 (text_of c) ++ sci x ++ spaces 2 ++ sci f ++ spaces 2 ++ sci g ++ nl)) (M_ThermoMat.tm_compounds m)
  else
    each (fun c =>
        do _ <- M_ThermoMat.get_compound_index m c;
        Ok (ljust 20 (text_of c) ++ sci 0 ++ spaces 2 ++ sci 0 ++ spaces 2 ++ sci 0 ++ nl)) (M_ThermoMat.tm_compounds m).
(** thermo.py:459-468 and 1162-1171; [props] is self.custom_properties. *)
Definition own_properties (props : list (string * R)) : res text :=
  match props with
  | [] => Ok []
  | _ => do ls <- each (fun k => match lookup k props with Some x => Ok (ljust 20 (text_of k) ++ sci x ++ nl) | None => Err KeyError end) (M_Chem.sorted (map fst props));
         Ok (rule "-" 67 ++ text_of "Custom Properties:" ++ nl ++ rule "-" 67 ++ ls)
  end.
Definition degrees : text := ["176"%char; "C"%char].
(** thermo.py:432-437 and 1135-1140. *)
Definition compound_head : text :=
  rule "-" 67 ++ text_of "Compound Details" ++ nl ++
  ljust 20 (text_of "Formula") ++ ljust 16 (text_of "Mass") ++ ljust 16 (text_of "Mass Fraction") ++ ljust 16 (text_of "Mole Fraction") ++ nl ++ rule "-" 67.
(** thermo.py:415-471. *)
Definition thermo_package (name : text) (p : M_ThermoMat.package) (props : list (string * R)) : res text :=
  do amount <- M_ThermoMat.get_amount p;
  do rows <- compound_rows p;
  do own <- own_properties props;
  Ok (rule "=" 67 ++ text_of "MaterialPackage" ++ nl ++ rule "=" 67 ++ ljust 20 (text_of "Material") ++ name ++ nl ++
      quantity "Mass" (M_ThermoMat.get_mass p) (text_of "kg") ++ quantity "Amount" amount (text_of "kmol") ++
      quantity "Pressure" (M_ThermoMat.tp_P p) (text_of "atm") ++ quantity "Temperature" (M_ThermoMat.tp_T p) degrees ++
      quantity "Enthalpy" (M_ThermoMat.tp_H p) (text_of "kWh") ++ compound_head ++ rows ++ own ++ rule "=" 67).
(** thermo.py:1116-1174; '{:.8e}'.format(None) is a TypeError. *)
Definition thermo_stream (name : text) (s : M_Streams.stream) (props : list (string * R)) : res text :=
  let b := M_Streams.s_body s in
  do afr <- M_Streams.get_afr s;
  do hhv <- (if M_ThermoMat.tp_coal b
             then match M_ThermoMat.tp_HHV b with Some h => Ok (quantity "HHV" h (text_of "MJ/kg")) | None => Err TypeError end
             else Ok []);
  do rows <- compound_rows b;
  do own <- own_properties props;
  Ok (rule "=" 67 ++ text_of "MaterialStream" ++ nl ++ rule "=" 67 ++ ljust 20 (text_of "Material") ++ name ++ nl ++
      quantity "Mass Flow Rate" (M_Streams.mfr s) (text_of "kg/h") ++ quantity "Amount Flow Rate" afr (text_of "kmol/h") ++
      quantity "Pressure" (M_ThermoMat.tp_P b) (text_of "atm") ++ quantity "Temperature" (M_ThermoMat.tp_T b) degrees ++
      quantity "Enthalpy Flow Rate" (M_ThermoMat.tp_H b) (text_of "kWh/h") ++ hhv ++ compound_head ++ rows ++ own ++ rule "=" 67).
