(** Model of the making and the plotting of polynomial models,
    auxi/tools/materialphysicalproperties/polynomial.py:44-70 and 91-124, over the
    real numbers. *)
From Verif Require Import Prelude M_Stoichiometry M_Csv M_Physical.
From Coq Require Import Reals.
Local Open Scope list_scope.
Local Open Scope R_scope.

(** core.py:147-148, pd.read_csv(path, header=6): what pandas reads is taken as
    given: columns of numbers with names.  Columns with missing or other entries
    are left out. *)
Definition frame := list (text * list R).
(** data[k].tolist() *)
Fixpoint column (f : frame) (k : text) : res (list R) :=
  match f with [] => Err KeyError | (k', v) :: f' => if list_eq_dec ascii_dec k' k then Ok v else column f' k end.
Definition temp : text := ["T"%char].

(** min(l) and max(l) of a list of numbers. *)
Definition list_min (l : list R) : res R :=
  match l with [] => Err ValueError | x :: l' => Ok (fold_left (fun a y => if Rlt_dec y a then y else a) l' x) end.
Definition list_max (l : list R) : res R :=
  match l with [] => Err ValueError | x :: l' => Ok (fold_left (fun a y => if Rlt_dec a y then y else a) l' x) end.

(** np.polyfit: a negative degree raises ValueError, no data TypeError, columns
    of different lengths TypeError; the solution of the linear least squares
    problem (numpy.linalg.lstsq) is the argument [lstsq]. *)
Definition solver := list R -> list R -> nat -> list R.
Definition polyfit (lstsq : solver) (xs ys : list R) (degree : Z) : res (list R) :=
  if (degree <? 0)%Z then Err ValueError
  else match xs with
       | [] => Err TypeError
       | _ => if Nat.eqb (length xs) (length ys) then Ok (lstsq xs ys (Z.to_nat degree)) else Err TypeError
       end.

(** polynomial.py:72-77 and core.py:168-178: what a model says about itself, and
    what it calculates with.  references is None. *)
Record fitted := mkfitted {
  ft_material : text; ft_property : text; ft_symbol : text; ft_display : text; ft_units : text; ft_datasets : list text;
  ft_model : poly_model }.

(** polynomial.py:44-70 PolynomialModelT.create; [ds] is the header of the data
    set and [data] its numbers.  The validator holds the schema itself, not a
    copy of it, and so sees the limits that are set last. *)
Definition create (lstsq : solver) (ds : dataset) (data : frame) (symbol : text) (degree : Z) : res fitted :=
  do x_vals <- column data temp;
  do y_vals <- column data symbol;
  do coeffs <- polyfit lstsq x_vals y_vals degree;
  do property <- tget (ds_names ds) symbol;
  do display <- tget (ds_displays ds) symbol;
  do units <- tget (ds_units ds) symbol;
  let m := new_poly coeffs in
  do lo <- list_min x_vals;
  do hi <- list_max x_vals;
  Ok (mkfitted (ds_material ds) property symbol display units [ds_name ds] (mkpm (pm_coeffs m) lo (Some hi))).

(** np.linspace(a, b, 80) *)
Definition linspace80 (a b : R) : list R := map (fun i => a + INR i * ((b - a) / 79)) (seq 0 80).
(** polynomial.py:93-103: one data set of the loop; the limits so far and the
    points drawn. *)
Definition plot_step (symbol : text) (acc : (R * R) * list (list (R * R))) (ds : text * frame) : res ((R * R) * list (list (R * R))) :=
  do x_vals <- column (snd ds) temp; do y_vals <- column (snd ds) symbol;
  do lo <- list_min x_vals; do hi <- list_max x_vals;
  let x_min := fst (fst acc) in let x_max := snd (fst acc) in
  Ok ((if Rlt_dec x_min lo then x_min else lo, if Rlt_dec hi x_max then x_max else hi), snd acc ++ [combine x_vals y_vals]).
(** polynomial.py:91-124 PolynomialModelT.plot: the points drawn for every data
    set, and those of the model's line; the page itself is left out. *)
Definition plot (m : poly_model) (symbol : text) (datasets : list (text * frame)) : res (list (list (R * R)) * list (R * R)) :=
  do acc <- foldM (plot_step symbol) datasets ((10 ^ 100, - 10 ^ 100), []);
  match pm_max m with
  | None => Err KeyError
  | Some top =>
    let x_min := if Rlt_dec (fst (fst acc)) (pm_min m) then pm_min m else fst (fst acc) in
    let x_max := if Rlt_dec top (snd (fst acc)) then top else snd (fst acc) in
    do line <- mapM (fun x => do y <- poly_calculate m (at_T x); Ok (x, y)) (linspace80 x_min x_max);
    Ok (snd acc, line)
  end.
