(** Model of rendering reports: auxi/core/reporting.py:24-106 and the report methods of
    the ledger, auxi/modelling/financial/des.py:393-451.  The drawing of a table as
    text and as LaTeX, by the tabulate package, are the arguments [draw] and [latex]
    (M_Tabulate has a model of the first).  Simplifications: opening and writing the
    file succeeds; the matplotlib renderer of Report, which the ledger's reports do not
    override, does nothing. *)
From Verif Require Import Prelude M_Stoichiometry M_Dates M_Ledger M_Csv M_Tables.
Local Open Scope string_scope.
Local Open Scope list_scope.

(** reporting.py:24-35 ReportFormat *)
Inductive report_format := Printout | Latex | Txt | Csv | Str | Matplotlib | Png.
(** What a call does: the text it returns (None if it returns None), what it prints on
    the console, and the file it writes, with its name. *)
Record effects := mkeff { returned : option text; console : text; written : option (text * text) }.
Definition nothing_done : effects := mkeff None [] None.
(** print(t) *)
Definition print (t : text) : effects := mkeff None (t ++ [lf]) None.
(** with open(name, 'w') as f: f.write(t) *)
Definition write (name t : text) : effects := mkeff None [] (Some (name, t)).

Section Render.
Variables draw latex : list row -> text.
(** reporting.py:83-89 _render_latex_ *)
Definition render_latex (path : option text) (table : list row) : effects :=
  match path with Some p => write (p ++ text_of ".tex") (latex table) | None => print (latex table) end.
(** reporting.py:91-97 _render_txt_ *)
Definition render_txt (path : option text) (table : list row) : effects :=
  match path with Some p => write (p ++ text_of ".txt") (draw table) | None => print (draw table) end.
(** reporting.py:99-106 _render_csv_ *)
Definition render_csv_ (path : option text) (table : list row) : effects :=
  match path with Some p => write (p ++ text_of ".csv") (render_csv table) | None => print (render_csv table) end.
(** reporting.py:50-51 _render_matplotlib_ *)
Definition render_matplotlib (png : bool) : effects := nothing_done.
(** reporting.py:53-81 render, after the table is made *)
Definition render (format : report_format) (path : option text) (table : list row) : effects :=
  match format with
  | Printout => print (draw table)
  | Latex => render_latex path table
  | Txt => render_txt path table
  | Csv => render_csv_ path table
  | Str => mkeff (Some (draw table)) [] None
  | Matplotlib => render_matplotlib false
  | Png => match path with None => render_matplotlib false | Some _ => render_matplotlib true end
  end.
(** des.py:393-413 transaction_list *)
Definition ledger_transaction_list (l : ledger) (start fin : pytime) (format : report_format) (component_path : string) (output : option text) : res effects :=
  do table <- transaction_table l start fin component_path; Ok (render format output table).
(** des.py:415-429 balance_sheet *)
Definition ledger_balance_sheet (l : ledger) (fin : pytime) (format : report_format) (output : option text) : res effects :=
  do sh <- balance_sheet_report l fin; do table <- balance_table sh; Ok (render format output table).
(** des.py:431-451 income_statement *)
Definition ledger_income_statement (l : ledger) (start fin : pytime) (format : report_format) (component_path : string) (output : option text) : res effects :=
  do st <- income_statement_report l start fin component_path; Ok (render format output (income_table st)).
End Render.
