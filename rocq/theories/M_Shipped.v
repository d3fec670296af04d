(** How the shipped fluids are put together and named
    (materialphysicalproperties/gases.py and liquids.py), where their models are
    written to and read from, and the drawings of the ideal gas density and of the
    mixture models.  [M_Fluids] has the fluids' property models alone. *)
From Verif Require Import Prelude M_Thermochem M_Stoichiometry M_Csv M_Coals M_Physical M_Data_Fluids M_Fluids M_Polyfit.
From Coq Require Import Reals.
Local Open Scope list_scope.

(** str.replace(" ", "-") *)
Definition dashes (t : text) : text := map (fun c => if Ascii.eqb c " " then "-"%char else c) t.
(** str.split(".")[0] *)
Fixpoint before_dot (t : text) : text :=
  match t with [] => [] | c :: t' => if Ascii.eqb c "." then [] else c :: before_dot t' end.
(** The f-strings of gases.py:78-81 and 115 (model_type is "polynomialmodelt"). *)
Definition model_path (namel prop ds : text) : text :=
  text_of "data/" ++ namel ++ text_of "-" ++ prop ++ text_of "-" ++ text_of "polynomialmodelt" ++ text_of "-" ++ ds ++ text_of ".json".
(** gases.py:61-81 _create_polynomial_model: where the model is written to; the
    making of the model is in [M_Polyfit]. *)
Definition made_path (name symbol ds_name : text) : text := model_path (lower name) (lower symbol) (lower (before_dot ds_name)).
(** core.py:99: a data set is named after its file. *)
Definition dataset_name (n : text) : text := n ++ text_of ".csv".

(** PolynomialModelT.read(_path(name)): the file in data/ of that name; what is
    raised if there is none is not modelled further. *)
Definition find_file (path : text) : option string :=
  find (fun k => if list_eq_dec ascii_dec (text_of "data/" ++ text_of k ++ text_of ".json") path then true else false) (map fst fluid_data).
Definition read_model (path : text) : res model :=
  match find_file path with Some k => Ok (poly_file k) | None => Err PyException end.
(** d[k] = v of a dictionary of models. *)
Fixpoint model_set (d : fluid) (k : string) (m : model) : fluid :=
  match d with [] => [(k, m)] | (k', m') :: d' => if String.eqb k k' then (k', m) :: d' else (k', m') :: model_set d' k m end.
(** gases.py:114-116: one turn of the loop; the variable name is used for the file
    and holds the material's name. *)
Definition load_step (namel active : text) (acc : text * fluid) (prop : string) : res (text * fluid) :=
  let name := model_path namel (lower (text_of prop)) active in
  do m <- read_model name; Ok (name, model_set (snd acc) prop m).
(** gases.py:109-118: the loop, and the material with its name. *)
Definition create_gas (name namel active : text) (base : fluid) (props : list string) : res (text * fluid) :=
  foldM (load_step namel active) props (name, base).

(** gases.py:84-120 *)
Definition create_air : res (text * fluid) :=
  let name := text_of "Air" in let namel := lower name in
  create_gas name namel (text_of "dataset-air-lienhard2018") [("rho", rho_T (289645 / 10000)%R 101325%R); ("beta", beta_T)]%string ["Cp"; "mu"; "k"]%string.
(** gases.py:123-158, 235-271, 273-309, 311-347 and 349-385: argon, carbon monoxide, nitrogen, oxygen and water
    vapour (without a space in the name the replacement does nothing). *)
Definition create_ideal (title formula : string) : res (text * fluid) :=
  let name := text_of title in let namel := dashes (lower name) in
  do m <- mm formula;
  create_gas name namel (text_of "dataset-" ++ namel ++ text_of "-lienhard2018") [("rho", rho_T m 101325%R); ("beta", beta_T)]%string ["Cp"; "mu"; "k"]%string.
(** gases.py:161-195 and 198-232: ammonia and carbon dioxide. *)
Definition create_poly (title formula : string) : res (text * fluid) :=
  let name := text_of title in let namel := dashes (lower name) in
  do m <- mm formula;
  create_gas name namel (text_of "dataset-" ++ namel ++ text_of "-lienhard2018") [("beta", beta_T)]%string ["rho"; "Cp"; "mu"; "k"]%string.
(** gases.py:387-404: the dictionary of materials, with their names. *)
Definition materials : res (list (string * (text * fluid))) :=
  do air <- create_air; do argon <- create_ideal "Argon" "Ar"; do ammonia <- create_poly "Ammonia" "NH3"; do carbon_dioxide <- create_poly "Carbon Dioxide" "CO2";
  do carbon_monoxide <- create_ideal "Carbon Monoxide" "CO"; do nitrogen <- create_ideal "Nitrogen" "N2"; do oxygen <- create_ideal "Oxygen" "O2";
  do water_vapour <- create_ideal "Water Vapour" "H2O";
  Ok [("Air", air); ("Ar", argon); ("NH3", ammonia); ("CO2", carbon_dioxide); ("CO", carbon_monoxide); ("N2", nitrogen); ("O2", oxygen); ("H2O", water_vapour)]%string.
(** liquids.py:31-34 and 46-51: where a model of water is written to, and where it
    is read from. *)
Definition water_made_path (symbol : text) : text := text_of "data/h2o-" ++ lower symbol ++ text_of ".json".
Definition water_read_path (symbol : text) : text := text_of "data/water-" ++ lower symbol ++ text_of ".json".

(** * Drawings *)
Local Open Scope R_scope.
(** idealgas.py:86-118 RhoT.plot: the points drawn for the data sets, and those of
    the line. *)
Definition plot_ideal (mm P : R) (datasets : list (text * frame)) : res (list (list (R * R)) * list (R * R)) :=
  do acc <- foldM (plot_step (text_of "rho")) datasets ((10 ^ 100, - 10 ^ 100), []);
  let x_min := if Rlt_dec (fst (fst acc)) 0 then 0 else fst (fst acc) in
  let x_max := snd (fst acc) in
  do line <- mapM (fun x => do y <- rho_T mm P (at_T x); Ok (x, y)) (linspace80 x_min x_max);
  Ok (snd acc, line).
(** gases.py:471-502, 554-585 and 635-666, the plot methods of the three mixture
    models: [calc T x] is the model, [xs] the compositions by name; for every data
    set its points and the line drawn after it. *)
Definition mix_step (calc : R -> list (string * R) -> res R) (symbol : text) (xs : list (string * list (string * R)))
  (acc : R * list (list (R * R) * list (R * R))) (ds : string * frame) : res (R * list (list (R * R) * list (R * R))) :=
  do T_vals <- column (snd ds) temp; do y_vals <- column (snd ds) symbol;
  do lo <- list_min T_vals; do _ <- list_max T_vals;
  let T_min := if Rlt_dec (fst acc) lo then fst acc else lo in
  do line <- mapM (fun T => match lookup (fst ds) xs with None => Err KeyError | Some x => do y <- calc T x; Ok (T, y) end) (linspace80 T_min 1000);
  Ok (T_min, snd acc ++ [(combine T_vals y_vals, line)]).
Definition plot_mixtures (calc : R -> list (string * R) -> res R) (symbol : text) (xs : list (string * list (string * R))) (datasets : list (string * frame))
  : res (list (list (R * R) * list (R * R))) :=
  do acc <- foldM (mix_step calc symbol xs) datasets (10 ^ 100, []); Ok (snd acc).
