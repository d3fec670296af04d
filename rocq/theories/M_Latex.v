(** Model of tabulate(table, headers="firstrow", tablefmt="latex") as
    auxi/core/reporting.py:87 and 89 call it, for tables of texts.  The source of tabulate
    is not in /repo: this follows tabulate 0.7 (2016), with the simplifications of
    [M_Tabulate]. *)
From Verif Require Import Prelude M_Stoichiometry M_Csv M_Tables M_Print M_Json M_Tabulate.
Local Open Scope string_scope.
Local Open Scope list_scope.

(** LATEX_ESCAPE_RULES *)
Definition escape_rules : list (ascii * text) :=
  [("&"%char, text_of "\&"); ("%"%char, text_of "\%"); ("$"%char, text_of "\$"); ("#"%char, text_of "\#"); ("_"%char, text_of "\_");
   ("^"%char, text_of "\^{}"); ("{"%char, text_of "\{"); ("}"%char, text_of "\}"); ("~"%char, text_of "\textasciitilde{}");
   ("\"%char, text_of "\textbackslash{}"); ("<"%char, text_of "\ensuremath{<}"); (">"%char, text_of "\ensuremath{>}")].
(** escrules.get(c, c) *)
Fixpoint escaped (rules : list (ascii * text)) (c : ascii) : text :=
  match rules with [] => [c] | (d, t) :: rules' => if Ascii.eqb c d then t else escaped rules' c end.
(** _pad_row with a padding of 1. *)
Definition padded_cell (c : text) : text := " "%char :: c ++ [" "%char].
(** _latex_row and _build_simple_row: ampersands between the cells. *)
Definition latex_row (cells : list text) : text :=
  rstrip (join ["&"%char] (map (fun c => flat_map (escaped escape_rules) (padded_cell c)) cells) ++ text_of "\\").
(** _latex_line_begin_tabular: decimal columns are set flush right. *)
Definition latex_align (ct : Z) : ascii := if is_number ct then "r"%char else "l"%char.

Section Latex.
Variable int_of : text -> bool.
Variable float_of : text -> option pyfloat.
(** tabulate and _format_table: with no rows there are no columns to align and the
    preamble is empty. *)
Definition tabulate_latex (table : list row) : text :=
  let headers := hd [] table in let rows := tl table in
  let cols := map (fun jh => printed_column int_of float_of (snd jh) (column rows (fst jh))) (combine (seq 0 (length headers)) headers) in
  let letters := match rows with [] => [] | _ => map (fun j => latex_align (column_type int_of float_of (column rows j))) (seq 0 (length headers)) end in
  join nl ((text_of "\begin{tabular}{" ++ letters ++ ["}"%char]) :: text_of "\hline" ::
           (match table with [] => [] | _ => [latex_row (map (fun c => fst (fst c)) cols); text_of "\hline"] end) ++
           map (fun i => latex_row (map (fun c => nth i (snd c) []) cols)) (seq 0 (length rows)) ++
           [text_of "\hline"; text_of "\end{tabular}"]).
End Latex.
