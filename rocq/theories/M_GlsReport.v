(** Model of the report on a general ledger structure in every format:
    auxi/modelling/financial/des.py:341-353 and auxi/modelling/financial/reporting.py:46-75
    with auxi/core/reporting.py:53-106.  [M_Ledger.gls_report] has the first three columns
    of its table; here are all four, and how the table is drawn.  An account without
    description has a cell None, which csv writes as an empty field (csv.writer) and
    tabulate 0.7 as an empty cell that does not count for the type of its column. *)
From Verif Require Import Prelude M_Stoichiometry M_Accounts M_Ledger M_Csv M_Tables M_Print M_Json M_Tabulate M_Latex M_Render.
Local Open Scope string_scope.
Local Open Scope list_scope.

(** A cell of the table: a text or None. *)
Definition gcell := option text.
Definition cell_text (c : gcell) : text := match c with Some t => t | None => [] end.

(** * The table *)
(** des.py:24-33, AccountType.name *)
Definition type_name (t : atype) : string :=
  match t with Asset => "asset" | Equity => "equity" | Expense => "expense" | Liability => "liability" | Revenue => "revenue" end.
Section Table.
(** The description of the account object with an identity (core/objects.py:47-62). *)
Variable description : nat -> option text.
(** reporting.py:57-63 _gl_accounts_to_table_ (as [M_Ledger.gls_rows], with the cells). *)
Fixpoint table_rows (prefix : string) (a : acct) : res (string * list (list gcell)) :=
  let 'Acct i n num ty _ _ ks := a in
  match num with
  | None => Err TypeError
  | Some k =>
      do subs <- (fix go (l : list acct) : res (list (string * list (list gcell))) :=
                    match l with
                    | [] => Ok []
                    | x :: r => do y <- table_rows (k ++ "/")%string x; do ys <- go r; Ok (y :: ys)
                    end) ks;
      Ok (k, [Some (text_of (type_name ty)); Some (text_of (prefix ++ k)%string); Some (text_of n); description i] :: concat (map snd (M_Ledger.sort_key subs)))
  end.
(** reporting.py:65-75 _generate_table_, first row *)
Definition structure_headers : list text := map text_of ["Type"; "Number"; "Name"; "Description"].
(** reporting.py:65-75 _generate_table_, the other rows *)
Definition gls_table (g : gls) : res (list (list gcell)) :=
  if existsb (fun a => match a_number a with None => true | Some _ => false end) (g_accounts g)
  then Err AttributeError else
  do i <- mapM (table_rows "") (filter (number_starts "I") (g_accounts g));
  do b <- mapM (table_rows "") (filter (number_starts "B") (g_accounts g));
  Ok (concat (map snd (M_Ledger.sort_key i)) ++ concat (map snd (M_Ledger.sort_key b))).
End Table.

(** * tabulate(table, headers="firstrow") with None cells *)
Section Tabulate.
Variable int_of : text -> bool.
Variable float_of : text -> option pyfloat.
(** Column [j]. *)
Definition cell_column (rows : list (list gcell)) (j : nat) : list gcell := map (fun r => nth j r None) rows.
(** _column_type: _type(None) is the least of the types, and an int is where the
    search begins. *)
Definition cells_type (col : list gcell) : Z := column_type int_of float_of (flat_map (fun c => match c with Some s => [s] | None => [] end) col).
(** _format: None gives missingval, the empty text. *)
Definition show_cell (ct : Z) (c : gcell) : text := match c with Some s => format_cell float_of ct s | None => [] end.
(** As [M_Tabulate.printed_column]. *)
Definition printed_cells (header : text) (col : list gcell) : text * nat * list text :=
  let w := (length header + 2)%nat in
  match col with
  | [] => (ljust w header, w, [])
  | _ =>
    let ct := cells_type col in
    let cells := align_column int_of float_of ct (map (show_cell ct) col) w in
    let w := Nat.max w (length (hd [] cells)) in
    ((if is_number ct then rjust w header else ljust w header), w, cells)
  end.
Definition cell_columns (headers : list text) (rows : list (list gcell)) : list (text * nat * list text) :=
  map (fun jh => printed_cells (snd jh) (cell_column rows (fst jh))) (combine (seq 0 (length headers)) headers).
(** The format "simple", as [M_Tabulate.tabulate]. *)
Definition draw_cells (headers : list text) (rows : list (list gcell)) : text :=
  let cols := cell_columns headers rows in
  join nl (simple_row (map (fun c => fst (fst c)) cols) ::
           simple_row (map (fun c => repeat "-"%char (snd (fst c))) cols) ::
           map (fun i => simple_row (map (fun c => nth i (snd c) []) cols)) (seq 0 (length rows))).
(** The format "latex", as [M_Latex.tabulate_latex]. *)
Definition latex_cells (headers : list text) (rows : list (list gcell)) : text :=
  let cols := cell_columns headers rows in
  let letters := match rows with [] => [] | _ => map (fun j => latex_align (cells_type (cell_column rows j))) (seq 0 (length headers)) end in
  join nl ((text_of "\begin{tabular}{" ++ letters ++ ["}"%char]) :: text_of "\hline" ::
           latex_row (map (fun c => fst (fst c)) cols) :: text_of "\hline" ::
           map (fun i => latex_row (map (fun c => nth i (snd c) []) cols)) (seq 0 (length rows)) ++
           [text_of "\hline"; text_of "\end{tabular}"]).

(** des.py:341-353 report *)
Definition structure_report (description : nat -> option text) (g : gls) (format : report_format) (output : option text) : res effects :=
  do rows <- gls_table description g;
  Ok (render (fun _ => draw_cells structure_headers rows) (fun _ => latex_cells structure_headers rows) format output (structure_headers :: map (map cell_text) rows)).
End Tabulate.
