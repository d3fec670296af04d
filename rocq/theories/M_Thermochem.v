(** Model of auxi/tools/chemistry/thermochemistry.py.
    Python floats are modelled as exact real numbers; [T**e] is Coq's
    [Rpower] and [math.log] is [ln], which agree with the mathematical power
    and logarithm for positive arguments.  All temperatures are in kelvin, so
    the theorems assume them positive.  Not in this file: file access
    (M_JsonFiles, M_Factsage), listing, loading and references (M_Listing). *)
From Verif Require Import Prelude M_Elements M_Stoichiometry.
From Coq Require Import Reals.
Local Open Scope R_scope.

(** physicalconstants.py:47, R (molar gas constant, J/mol/K). *)
Definition R_gas : R := 8314462618 / 1000000000.

(** thermochemistry.py:30-64, class CpRecord; [cr_terms] is
    zip(_coefficients, _exponents). *)
Record cprecord := mkcp { cr_Tmin : R; cr_Tmax : R; cr_terms : list (R * R) }.

(** thermochemistry.py:77-89, CpRecord.Cp. *)
Definition cp_Cp (r : cprecord) (T : R) : R :=
  fold_left (fun acc ce => acc + fst ce * Rpower T (snd ce)) (cr_terms r) 0.

(** thermochemistry.py:102-105 and 127-130. *)
Definition clamp (r : cprecord) (T : R) : R := if Rlt_dec T (cr_Tmax r) then T else cr_Tmax r.

(** thermochemistry.py:91-114, CpRecord.H. *)
Definition cp_H (r : cprecord) (T : R) : R :=
  let lT := clamp r T in
  let Tref := cr_Tmin r in
  fold_left (fun acc ce =>
    let c := fst ce in let e := snd ce in
    if Req_EM_T e (-1) then acc + c * ln (lT / Tref)
    else acc + c * (Rpower lT (e + 1) - Rpower Tref (e + 1)) / (e + 1)) (cr_terms r) 0.

(** thermochemistry.py:116-141, CpRecord.S. *)
Definition cp_S (r : cprecord) (T : R) : R :=
  let lT := clamp r T in
  let Tref := cr_Tmin r in
  fold_left (fun acc ce =>
    let c := fst ce in let e := snd ce in
    let e_modified := e - 1 in
    if Req_EM_T e_modified (-1) then acc + c * ln (lT / Tref)
    else let e_mod := e_modified + 1 in
         acc + c * (Rpower lT e_mod - Rpower Tref e_mod) / e_mod) (cr_terms r) 0.

(** thermochemistry.py:168-179 and 192-197: the magnetic parameters of a
    phase. *)
Record magnetic := mkmag { Tc_mag : R; beta0_mag : R; p_mag : R }.
Definition A_mag (m : magnetic) : R := 79 / (140 * p_mag m).
Definition B_mag (m : magnetic) : R := (474 / 497) * (1 / p_mag m - 1).
Definition D_mag (m : magnetic) : R := (518 / 1125) + (11692 / 15975) * (1 / p_mag m - 1).

(** thermochemistry.py:152-202, class Phase.  [ph_records] is the dictionary
    _Cp_records with its keys as numbers (str(float(k)) and float(str(k)) are
    inverse); [ph_mag] is None for the phases whose magnetic methods are
    replaced by Zero_mag. *)
Record phase := mkphase {
  ph_DHref : R; ph_Sref : R; ph_records : list (R * cprecord); ph_mag : option magnetic }.

(** thermochemistry.py:159, Tref. *)
Definition T_ref : R := 29815 / 100.

(** thermochemistry.py:152-190, Phase.__init__.  With a 'magnetic' entry,
    [['magnetic']['Tc']] indexes a list with a string. *)
Definition new_phase (DHref Sref : R) (records : list (R * cprecord)) (mag : option magnetic) : res phase :=
  match mag with
  | Some _ => Err TypeError
  | None => Ok (mkphase DHref Sref records None)
  end.

(** sorted([float(TT) for TT in self._Cp_records.keys()]), with the record of
    each key. *)
Fixpoint insert_record (x : R * cprecord) (l : list (R * cprecord)) : list (R * cprecord) :=
  match l with
  | [] => [x]
  | y :: l' => if Rle_dec (fst x) (fst y) then x :: l else y :: insert_record x l'
  end.
Definition sorted_records (p : phase) : list (R * cprecord) := fold_right insert_record [] (ph_records p).

(** max([float(TT) for TT in ...]) and its record: the last of the sorted keys;
    ValueError if there is none. *)
Definition last_record (p : phase) : res (R * cprecord) :=
  match rev (sorted_records p) with x :: _ => Ok x | [] => Err ValueError end.

(** The three magnetic functions that follow use integer powers of
    tau = T/Tc; [x ^ n] is Coq's power with a natural exponent and a negative
    integer exponent is the power of the inverse. *)

(** thermochemistry.py:248-270, Cp_mag (218-227, Zero_mag). *)
Definition Cp_mag (p : phase) (T : R) : R :=
  match ph_mag p with
  | None => 0
  | Some m =>
    let tau := T / Tc_mag m in
    let c := if Rle_dec tau 1
             then (B_mag m * (2 * tau^3 + 2 * tau^9 / 3 + 2 * tau^15 / 5)) / D_mag m
             else (2 * (/tau)^5 + 2 * (/tau)^15 / 3 + 2 * (/tau)^25 / 5) / D_mag m in
    R_gas * ln (beta0_mag m + 1) * c
  end.

(** thermochemistry.py:295-316. *)
Definition H_mag (p : phase) (T : R) : R :=
  match ph_mag p with
  | None => 0
  | Some m =>
    let tau := T / Tc_mag m in
    let h := if Rle_dec tau 1
             then (- A_mag m / tau + B_mag m * (tau^3 / 2 + tau^9 / 15 + tau^15 / 40)) / D_mag m
             else - ((/tau)^5 / 2 + (/tau)^15 / 21 + (/tau)^25 / 60) / D_mag m in
    R_gas * T * ln (beta0_mag m + 1) * h
  end.

(** thermochemistry.py:341-362. *)
Definition S_mag (p : phase) (T : R) : R :=
  match ph_mag p with
  | None => 0
  | Some m =>
    let tau := T / Tc_mag m in
    let s := if Rle_dec tau 1
             then 1 - (B_mag m * (2 * tau^3 / 3 + 2 * tau^9 / 27 + 2 * tau^15 / 75)) / D_mag m
             else (2 * (/tau)^5 / 5 + 2 * (/tau)^15 / 45 + 2 * (/tau)^25 / 125) / D_mag m in
    - R_gas * ln (beta0_mag m + 1) * s
  end.

(** thermochemistry.py:389-411. *)
Definition G_mag (p : phase) (T : R) : R :=
  match ph_mag p with
  | None => 0
  | Some m =>
    let tau := T / Tc_mag m in
    let g := if Rle_dec tau 1
             then 1 - (A_mag m / tau + B_mag m * (tau^3 / 6 + tau^9 / 135 + tau^15 / 600)) / D_mag m
             else - ((/tau)^5 / 10 + (/tau)^15 / 315 + (/tau)^25 / 1500) / D_mag m in
    R_gas * T * ln (beta0_mag m + 1) * g
  end.

(** thermochemistry.py:240-242: the first record with T < Tmax. *)
Fixpoint find_record (T : R) (l : list (R * cprecord)) : option cprecord :=
  match l with
  | [] => None
  | (Tmax, r) :: l' => if Rlt_dec T Tmax then Some r else find_record T l'
  end.

(** thermochemistry.py:229-246, Phase.Cp. *)
Definition phase_Cp (p : phase) (T : R) : res R :=
  match find_record T (sorted_records p) with
  | Some r => Ok (cp_Cp r T + Cp_mag p T)
  | None => do x <- last_record p; Ok (cp_Cp (snd x) (fst x) + Cp_mag p T)
  end.

(** The loop of thermochemistry.py:284-287 and 330-333: add the contribution
    [f] of each record; the flag tells whether the loop returned. *)
Fixpoint accumulate (f : cprecord -> R) (T : R) (l : list (R * cprecord)) (result : R) : bool * R :=
  match l with
  | [] => (false, result)
  | (Tmax, r) :: l' =>
    let result' := result + f r in
    if Rle_dec T Tmax then (true, result') else accumulate f T l' result'
  end.

(** thermochemistry.py:272-293, Phase.H. *)
Definition phase_H (p : phase) (T : R) : res R :=
  let x := accumulate (fun r => cp_H r T) T (sorted_records p) (ph_DHref p) in
  if fst x then Ok (snd x + H_mag p T)
  else do l <- last_record p;
       let Tmax := fst l in
       do cp <- phase_Cp p Tmax;
       Ok (snd x + cp * (T - Tmax) + H_mag p T).

(** thermochemistry.py:318-339, Phase.S. *)
Definition phase_S (p : phase) (T : R) : res R :=
  let x := accumulate (fun r => cp_S r T) T (sorted_records p) (ph_Sref p) in
  if fst x then Ok (snd x + S_mag p T)
  else do l <- last_record p;
       let Tmax := fst l in
       do cp <- phase_Cp p Tmax;
       Ok (snd x + cp * ln (T / Tmax) + S_mag p T).

(** The loop of thermochemistry.py:376-380. *)
Fixpoint accumulate2 (f g : cprecord -> R) (T : R) (l : list (R * cprecord)) (h s : R) : bool * (R * R) :=
  match l with
  | [] => (false, (h, s))
  | (Tmax, r) :: l' =>
    let h' := h + f r in
    let s' := s + g r in
    if Rle_dec T Tmax then (true, (h', s')) else accumulate2 f g T l' h' s'
  end.

(** thermochemistry.py:364-387, Phase.G. *)
Definition phase_G (p : phase) (T : R) : res R :=
  let x := accumulate2 (fun r => cp_H r T) (fun r => cp_S r T) T (sorted_records p) (ph_DHref p) (ph_Sref p) in
  let h := fst (snd x) in
  let s := snd (snd x) in
  if fst x then Ok (h - T * s + G_mag p T)
  else do l <- last_record p;
       let Tmax := fst l in
       do cp <- phase_Cp p Tmax;
       let h := h + cp * (T - Tmax) in
       let s := s + cp * ln (T / Tmax) in
       Ok (h - T * s + G_mag p T).

(** * Compounds *)

(** thermochemistry.py:414-442, class Compound; molar mass in kg/mol. *)
Record tcompound := mktc { tc_formula : string; tc_molar_mass : R; tc_phases : list (string * phase) }.

Fixpoint lookup {A} (k : string) (d : list (string * A)) : option A :=
  match d with
  | [] => None
  | (k', v) :: d' => if String.eqb k k' then Some v else lookup k d'
  end.

(** thermochemistry.py:422-442, Compound.__init__ (molar mass from the formula). *)
Definition new_compound (formula : string) (phases : list (string * phase)) : res tcompound :=
  do m <- molar_mass (Some formula); Ok (mktc formula (Q2R (this m) / 1000) phases).

(** thermochemistry.py:471-537, Compound.Cp, H, S, G. *)
Definition compound_of (f : phase -> R -> res R) (c : tcompound) (ph : string) (T : R) : res R :=
  match lookup ph (tc_phases c) with
  | Some p => f p T
  | None => Err PyException
  end.

(** * Module level functions *)

(** thermochemistry.py:656-671, _split_compound_string_. *)
Fixpoint split_at (c : ascii) (t : text) : list text :=
  match t with
  | [] => [[]]
  | d :: t' =>
    if Ascii.eqb c d then [] :: split_at c t'
    else match split_at c t' with x :: l => (d :: x) :: l | [] => [[d]] end
  end.
Definition split_compound_string (s : string) : res (string * string) :=
  let parts := split_at "["%char (filter (fun c => negb (Ascii.eqb "]"%char c)) (text_of s)) in
  match parts with
  | a :: b :: _ => Ok (str_of a, str_of b)
  | _ => Err IndexError
  end.

(** Division of floats. *)
Definition rdiv (a b : R) : res R := if Req_EM_T b 0 then Err ZeroDivisionError else Ok (a / b).

(** thermochemistry.py:674-690, _finalise_result_. *)
Definition finalise_result (c : tcompound) (value mass : R) : res R :=
  let result := value / 3600000 in
  do result <- rdiv result (tc_molar_mass c);
  Ok (result * mass).

(** thermochemistry.py:883, the dictionary [compounds]. *)
Definition database := list (string * tcompound).

(** thermochemistry.py:798-880, the functions Cp, H, S and G, which differ only
    in the method they call. *)
Definition thermo (f : phase -> R -> res R) (db : database) (compound_string : string) (T mass : R) : res R :=
  do fp <- split_compound_string compound_string;
  let TK := T + 27315 / 100 in
  match lookup (fst fp) db with
  | None => Err KeyError
  | Some c => do v <- compound_of f c (snd fp) TK; finalise_result c v mass
  end.
Definition thermo_Cp := thermo phase_Cp.
Definition thermo_H := thermo phase_H.
Definition thermo_S := thermo phase_S.
Definition thermo_G := thermo phase_G.

(** thermochemistry.py:786-795, molar_mass [kg/mol]. *)
Definition thermo_molar_mass (c : string) : res R :=
  do m <- molar_mass (Some c); Ok (Q2R (this m) / 1000).
