(** The polynomial and ideal gas property models in binary64
    (auxi/tools/materialphysicalproperties/polynomial.py and idealgas.py): the
    calculations of M_Physical.v with rounding, and with nan and infinities
    among the numbers.  Python floats; a numpy temperature differs in that a
    division by zero warns instead of raising.  Not modelled: overflow of an int
    argument (cerberus accepts ints for the type float). *)
From Verif Require Import Prelude M_Lists M_Thermochem M_Stoichiometry M_Ieee M_FloatCompare M_FloatMix M_FloatLoan M_FloatStoich.
From Flocq Require Import Core BinarySingleNaN.
Import ListNotations.
Local Open Scope list_scope.
Local Open Scope string_scope.

(** The value of a keyword argument of a model. *)
Inductive fsval := FNum (x : float64) | FDict (d : list (string * float64)) | FOther.
Definition fstate := list (string * fsval).
(** A cerberus rule with 'required': True and a type (polynomial.py:74,
    idealgas.py:33, 63, 130-131, 161-163); min and max (polynomial.py:67-68). *)
Record ffield := mkffield { ff_dict : bool; ff_min : option float64; ff_max : option float64 }.
(** cerberus reports an error if [value < min] or [value > max]. *)
Definition frule_ok (f : ffield) (v : fsval) : bool :=
  match v with
  | FNum x => negb (ff_dict f) && (match ff_min f with Some m => negb (lt64 x m) | None => true end)
                               && (match ff_max f with Some m => negb (gt64 x m) | None => true end)
  | FDict _ => ff_dict f
  | FOther => false
  end.
(** core.py:190-203: the arguments of the schema, and no others. *)
Definition fcheck_state (sc : list (string * ffield)) (st : fstate) : res unit :=
  if forallb (fun kf => match lookup (fst kf) st with Some v => frule_ok (snd kf) v | None => false end) sc
     && forallb (fun kv => member string_dec (fst kv) (map fst sc)) st then Ok tt else Err ValidationError.
(** state["T"], state["x"] *)
Definition fnumber_of (k : string) (st : fstate) : res float64 :=
  match lookup k st with Some (FNum x) => Ok x | Some _ => Err TypeError | None => Err KeyError end.
Definition fdict_of (k : string) (st : fstate) : res (list (string * float64)) :=
  match lookup k st with Some (FDict d) => Ok d | Some _ => Err TypeError | None => Err KeyError end.

(** np.polyval (called in polynomial.py:89): y = 0.0, then y = y * x + c for
    every coefficient, highest power first. *)
Definition polyval64 (cs : list float64) (T : float64) : float64 := fold_left (fun y c => add64 (mul64 y T) c) cs zero64.
(** polynomial.py:72-77 and 65-70; the attributes of a model read from a file. *)
Record fpoly := mkfpoly { fp_coeffs : list float64; fp_min : float64; fp_max : option float64 }.
Definition fnew_poly (cs : list float64) : fpoly := mkfpoly cs zero64 None.
(** polynomial.py:79-89 *)
Definition fpoly_calculate (m : fpoly) (st : fstate) : res float64 :=
  do _ <- fcheck_state [("T", mkffield false (Some (fp_min m)) (fp_max m))] st;
  do T <- fnumber_of "T" st;
  Ok (polyval64 (fp_coeffs m) T).

(** {"required": True, "type": "float", "min": 0.0} *)
Definition fpositive : ffield := mkffield false (Some zero64) None.
Definition fdictionary : ffield := mkffield true None None.
(** physicalconstants.py:47 *)
Definition R64 : float64 := literal64 (8314462618 # 1000000000).
(** 1000.0 *)
Definition thousand64 : float64 := binary_normalize 53 1024 _ _ mode_NE 1000 0 false.
(** idealgas.py:37-50 *)
Definition fbeta_T (st : fstate) : res float64 :=
  do _ <- fcheck_state [("T", fpositive)] st; do T <- fnumber_of "T" st; pydiv64 one64 T.
(** idealgas.py:84, 151, 187: mm * P / R / T, for a molar mass in kg/mol. *)
Definition ideal_density (mm P T : float64) : res float64 :=
  do x <- pydiv64 (mul64 mm P) R64; pydiv64 x T.
(** idealgas.py:62-84; [mm] is the molar mass in g/mol (67: divided by 1000.0). *)
Definition frho_T (mm P : float64) (st : fstate) : res float64 :=
  do _ <- fcheck_state [("T", fpositive)] st; do T <- fnumber_of "T" st;
  do m <- pydiv64 mm thousand64; ideal_density m P T.
(** idealgas.py:129-151 *)
Definition frho_TP (mm : float64) (st : fstate) : res float64 :=
  do _ <- fcheck_state [("T", fpositive); ("P", fpositive)] st;
  do T <- fnumber_of "T" st; do P <- fnumber_of "P" st;
  do m <- pydiv64 mm thousand64; ideal_density m P T.
(** idealgas.py:167-187: mm_average *)
Definition faverage (x : list (string * float64)) : res float64 :=
  do s <- foldM (fun a cx => do m <- fmolar_mass (Some (fst cx)); Ok (add64 a (mul64 (snd cx) m))) x zero64; pydiv64 s thousand64.
Definition frho_TPx (st : fstate) : res float64 :=
  do _ <- fcheck_state [("T", fpositive); ("P", fpositive); ("x", fdictionary)] st;
  do x <- fdict_of "x" st;
  do m <- faverage x;
  do T <- fnumber_of "T" st; do P <- fnumber_of "P" st;
  ideal_density m P T.
