(** Model of auxi/tools/materialphysicalproperties (core.py, polynomial.py,
    idealgas.py, gases.py, slags.py) and auxi/modelling/process/materials/core.py
    over the real numbers.  Not modelled: rounding, overflow of exp, plotting,
    the csv and json readers; np.polyfit is in M_Polyfit. *)
From Verif Require Import Prelude M_Stoichiometry M_Lists M_Thermochem M_ThermoMat M_Coals.
From Coq Require Import Reals.
Local Open Scope list_scope.
Local Open Scope R_scope.

(** * State and validation *)
(** The value of a keyword argument: a number, a dictionary of numbers, or
    anything else (None included). *)
Inductive sval := VNum (x : R) | VDict (d : list (string * R)) | VOther.
(** The **state of a call: keyword arguments have distinct names. *)
Definition state := list (string * sval).
(** A cerberus rule: all of them have 'required': True (e.g. polynomial.py:74);
    type float or dict; min and max (polynomial.py:67-68). *)
Record field := mkfield { fd_dict : bool; fd_min : option R; fd_max : option R }.
Definition schema := list (string * field).
Definition rule_ok (f : field) (v : sval) : bool :=
  match v with
  | VNum x => negb (fd_dict f) && (match fd_min f with Some m => if Rlt_dec x m then false else true | None => true end)
                               && (match fd_max f with Some m => if Rlt_dec m x then false else true | None => true end)
  | VDict _ => fd_dict f
  | VOther => false
  end.
(** The cerberus validator (allow_unknown is False): the arguments of the schema
    are there and obey the rules, and there are no others. *)
Definition validate (sc : schema) (st : state) : bool :=
  forallb (fun kf => match lookup (fst kf) st with Some v => rule_ok (snd kf) v | None => false end) sc
  && forallb (fun kv => member string_dec (fst kv) (map fst sc)) st.
(** core.py:190-203. *)
Definition check_state (sc : schema) (st : state) : res unit := if validate sc st then Ok tt else Err ValidationError.
(** state['T'] and state['x']; a value of another type makes the arithmetic that
    follows raise a TypeError. *)
Definition number_of (k : string) (st : state) : res R :=
  match lookup k st with Some (VNum x) => Ok x | Some _ => Err TypeError | None => Err KeyError end.
Definition dict_of (k : string) (st : state) : res (list (string * R)) :=
  match lookup k st with Some (VDict d) => Ok d | Some _ => Err TypeError | None => Err KeyError end.
Definition positive_number : field := mkfield false (Some 0) None.
Definition dictionary : field := mkfield true None None.

(** * polynomial.py *)
(** np.polyval: Horner's scheme, highest power first. *)
Definition polyval (p : list R) (x : R) : R := fold_left (fun y c => y * x + c) p 0.
(** polynomial.py:72-77 and, for a model made by create or read from a file,
    65-70: the coefficients and the limits of T. *)
Record poly_model := mkpm { pm_coeffs : list R; pm_min : R; pm_max : option R }.
Definition new_poly (cs : list R) : poly_model := mkpm cs 0 None.
(** polynomial.py:79-89. *)
Definition poly_calculate (m : poly_model) (st : state) : res R :=
  do _ <- check_state [("T"%string, mkfield false (Some (pm_min m)) (pm_max m))] st;
  do T <- number_of "T" st;
  Ok (polyval (pm_coeffs m) T).

(** * idealgas.py *)
(** idealgas.py:37-50. *)
Definition beta_T (st : state) : res R :=
  do _ <- check_state [("T"%string, positive_number)] st; do T <- number_of "T" st; rdiv 1 T.
(** idealgas.py:62-84; [mm] is the molar mass in g/mol. *)
Definition rho_T (mm P : R) (st : state) : res R :=
  do _ <- check_state [("T"%string, positive_number)] st; do T <- number_of "T" st;
  rdiv (mm / 1000 * P / gas_constant) T.
(** idealgas.py:129-151. *)
Definition rho_TP (mm : R) (st : state) : res R :=
  do _ <- check_state [("T"%string, positive_number); ("P"%string, positive_number)] st;
  do T <- number_of "T" st; do P <- number_of "P" st;
  rdiv (mm / 1000 * P / gas_constant) T.
(** idealgas.py:167-187. *)
Definition rho_TPx (st : state) : res R :=
  do _ <- check_state [("T"%string, positive_number); ("P"%string, positive_number); ("x"%string, dictionary)] st;
  do x <- dict_of "x" st;
  do avg <- foldM (fun a cx => do m <- mm (fst cx); Ok (a + snd cx * m)) x 0;
  do T <- number_of "T" st; do P <- number_of "P" st;
  rdiv (avg / 1000 * P / gas_constant) T.

(** * materials/core.py *)
(** core.py:31-57: the property models by name; a model is what its calculate
    does with the state. *)
Definition model := state -> res R.
Definition fluid := list (string * model).
(** core.py:70-128: a property without a model raises NotImplementedError. *)
Definition property (m : fluid) (name : string) (st : state) : res R :=
  match lookup name m with Some f => f st | None => Err PyException end.
(** core.py:38-39 and 59-68. *)
Definition alpha (m : fluid) (st : state) : res R :=
  match lookup "alpha" m with
  | Some f => f st
  | None => do k <- property m "k" st; do rho <- property m "rho" st; do a <- ndiv k rho; do Cp <- property m "Cp" st; ndiv a Cp
  end.
(** core.py:53-54 and 110-118. *)
Definition nu (m : fluid) (st : state) : res R :=
  match lookup "nu" m with
  | Some f => f st
  | None => do mu <- property m "mu" st; do rho <- property m "rho" st; ndiv mu rho
  end.

(** * gases.py: mixtures.  [gases] is the dictionary materials (396-404). *)
Definition gas_table := list (string * fluid).
Definition at_T (T : R) : state := [("T"%string, VNum T)].
Definition known_gas (gases : gas_table) (c : string) : bool := member string_dec c (map fst gases).
(** gases.py:450-457, 538-545, 619-626: the gases known, with normalised amounts. *)
Definition normalise_gases (gases : gas_table) (x : list (string * R)) : res (list (string * R)) :=
  let x := filter (fun cx => known_gas gases (fst cx)) x in
  let total := rsum (map snd x) in
  mapM (fun cx => do y <- rdiv (snd cx) total; Ok (fst cx, y)) x.
(** materials[i].mu(T=T) *)
Definition gas_property (gases : gas_table) (name : string) (T : R) (i : string) : res R :=
  match lookup i gases with Some m => property m name (at_T T) | None => Err KeyError end.
(** A power of a numpy number: not a number if the base is negative. *)
Definition npow (x y : R) : res R :=
  if Rlt_dec x 0 then Err NonFinite else if Req_EM_T x 0 then (if Rlt_dec 0 y then Ok 0 else if Req_EM_T y 0 then Ok 1 else Err NonFinite) else Ok (Rpower x y).
(** gases.py:437-445. *)
Definition phi (i j : string) (mu_i mu_j : R) : res R :=
  do M_i <- mm i; do M_j <- mm j;
  do r <- ndiv mu_i mu_j; do a <- npow r (1 / 2); do q <- rdiv M_j M_i; do b <- npow q (1 / 4);
  do s <- rdiv M_i M_j; do c <- npow (1 + s) (1 / 2);
  ndiv ((1 + a * b) ^ 2 / (4 / sqrt 2)) c.
(** gases.py:422-469, with i ranging over (key, x[key], mu[key]). *)
Definition wilke_sum (g : list (string * R * R)) (i : string * R * R) : res R :=
  foldM (fun s j => if string_dec (fst (fst j)) (fst (fst i)) then Ok s
                    else do p <- phi (fst (fst i)) (fst (fst j)) (snd i) (snd j); Ok (s + snd (fst j) * p)) g 0.
Definition wilke (gases : gas_table) (T : R) (x : list (string * R)) : res R :=
  do x <- normalise_gases gases x;
  do g <- mapM (fun cx => do m <- gas_property gases "mu" T (fst cx); Ok (cx, m)) x;
  foldM (fun r i => do s <- wilke_sum g i; do y <- ndiv (snd (fst i) * snd i) (snd (fst i) + s); Ok (r + y)) g 0.
(** gases.py:520-552.  sum([]) is the integer 0, and 0 / 0 raises. *)
Definition herning_zipperer (gases : gas_table) (T : R) (x : list (string * R)) : res R :=
  do x <- normalise_gases gases x;
  do g <- mapM (fun cx => do m <- gas_property gases "mu" T (fst cx); Ok (cx, m)) x;
  do num <- mapM (fun i => do M <- mm (fst (fst i)); Ok (snd i * snd (fst i) * sqrt M)) g;
  do den <- mapM (fun i => do M <- mm (fst (fst i)); Ok (snd (fst i) * sqrt M)) g;
  match x with [] => Err ZeroDivisionError | _ => ndiv (rsum num) (rsum den) end.
(** gases.py:601-633. *)
Definition ideal_Cp (gases : gas_table) (T : R) (x : list (string * R)) : res R :=
  do x <- normalise_gases gases x;
  do g <- mapM (fun cx => do c <- gas_property gases "Cp" T (fst cx); Ok (cx, c)) x;
  do num <- mapM (fun i => do M <- mm (fst (fst i)); Ok (snd i * snd (fst i) * M)) g;
  do den <- mapM (fun i => do M <- mm (fst (fst i)); Ok (snd (fst i) * M)) g;
  match x with [] => Err ZeroDivisionError | _ => ndiv (rsum num) (rsum den) end.

(** * slags.py.  calculate does not call the validator. *)
(** x.get(c, 0.0) *)
Definition get0 (x : list (string * R)) (c : string) : R := match lookup c x with Some v => v | None => 0 end.
(** slags.py:83-88. *)
Definition urbain_B (a g : R) : R :=
  let B0 := 138 / 10 + 399355 / 10000 * a - 44049 / 1000 * a ^ 2 in
  let B1 := 30481 / 1000 - 1171505 / 10000 * a + 1299978 / 10000 * a ^ 2 in
  let B2 := - (409429 / 10000) + 2340846 / 10000 * a - 30004 / 100 * a ^ 2 in
  let B3 := 607619 / 10000 - 1539276 / 10000 * a + 2111616 / 10000 * a ^ 2 in
  B0 + B1 * g + B2 * g ^ 2 + B3 * g ^ 3.
(** slags.py:43-94. *)
Definition urbain (T : R) (x : list (string * R)) : res R :=
  let total := rsum (map snd x) in
  do x <- mapM (fun cx => do y <- rdiv (snd cx) total; Ok (fst cx, y)) x;
  let X := get0 x in
  let xg := X "SiO2"%string + X "P2O5"%string in
  let xm := X "CaO"%string + X "MgO"%string + X "Na2O"%string + X "K2O"%string + 3 * X "CaF2"%string + X "FeO"%string + X "MnO"%string + 2 * X "TiO2"%string + 2 * X "ZrO2"%string in
  let xa := X "Al2O3"%string + X "Fe2O3"%string + X "B2O3"%string in
  let norm := 1 + X "CaF2"%string + X "Fe2O3"%string + X "TiO2"%string + X "ZrO2"%string in
  do xg_norm <- rdiv xg norm; do xm_norm <- rdiv xm norm; do xa_norm <- rdiv xa norm;
  do a <- rdiv xm_norm (xm_norm + xa_norm);
  let B := urbain_B a xg_norm in
  let A := exp (- (2693 / 10000) * B - 116725 / 10000) in
  do e <- rdiv (1000 * B) T;
  Ok (A * T * exp e / 10).
(** slags.py:110-128, for rational mass fractions. *)
Definition to_R (d : pydict) : list (string * R) := map (fun kv => (fst kv, Q2R (this (snd kv)))) d.
Definition urbain_y (T : R) (y : pydict) : res R := do x <- amount_fractions y; urbain T (to_R x).

(** slags.py:162-169. *)
Definition riboud_cao : list string := ["CaO"; "MgO"; "FeO1.5"; "FeO"; "MnO"; "BO1.5"]%string.
Definition riboud_na2o : list string := ["Na2O"; "K2O"]%string.
Definition riboud_all : list string := (["SiO2"; "PO2.5"; "TiO2"; "ZrO2"]%string ++ riboud_cao ++ ["Al2O3"]%string ++ ["CaF2"]%string ++ riboud_na2o)%list.
(** x[k] = v on a dictionary. *)
Fixpoint dict_set (x : list (string * R)) (k : string) (v : R) : list (string * R) :=
  match x with
  | [] => [(k, v)]
  | (c, y) :: x' => if string_dec k c then (c, v) :: x' else (c, y) :: dict_set x' k v
  end.
(** slags.py:171-177: the caller's dictionary changes. *)
Definition double_cation (x : list (string * R)) (from to : string) : list (string * R) :=
  match lookup from x with Some v => dict_set x to (2 * v) | None => x end.
Definition riboud_prepare (x : list (string * R)) : list (string * R) :=
  double_cation (double_cation (double_cation x "P2O5" "PO2.5") "Fe2O3" "FeO1.5") "B2O3" "BO1.5".
(** slags.py:144-196: the caller's dictionary afterwards, and the result. *)
Definition riboud (T : R) (x : list (string * R)) : list (string * R) * res R :=
  let x := riboud_prepare x in
  (x,
   let total := rsum (map (get0 x) riboud_all) in
   do x <- mapM (fun c => do y <- rdiv (get0 x c) total; Ok (c, y)) riboud_all;
   let x2 := rsum (map (get0 x) riboud_cao) in
   let x3 := rsum (map (get0 x) ["Al2O3"%string]) in
   let x4 := rsum (map (get0 x) ["CaF2"%string]) in
   let x5 := rsum (map (get0 x) riboud_na2o) in
   let A := exp (- (1751 / 100) + 173 / 100 * x2 + 582 / 100 * x4 + 702 / 100 * x5 - 3376 / 100 * x3) in
   let B := 31140 - 23896 * x2 - 46356 * x4 - 39159 * x5 + 68833 * x3 in
   do e <- rdiv B T;
   Ok (A * T * exp e / 10)).
(** slags.py:212-230: the dictionary changed is the new one. *)
Definition riboud_y (T : R) (y : pydict) : res R := do x <- amount_fractions y; snd (riboud T (to_R x)).
