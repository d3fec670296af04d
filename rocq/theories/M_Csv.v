(** Model of the csv files auxi writes and reads: auxi/core/reporting.py
    Report._render_csv_ and auxi/tools/materialphysicalproperties/core.py
    DataSet.  Python's csv module is not in /repo; the writer and the reader
    transcribe CPython's Modules/_csv.c for the "excel" dialect (delimiter ',',
    double quotes, doubled inside fields, QUOTE_MINIMAL, not strict). *)
From Verif Require Import Prelude M_Stoichiometry.
From Coq Require DecimalString.
Local Open Scope list_scope.

Definition comma : ascii := ","%char.
Definition dquote : ascii := """"%char.
Definition cr : ascii := "013"%char.
Definition lf : ascii := "010"%char.
Definition row := list text.

(** * csv.writer(f, lineterminator=lt).writerows(table) *)
(** _csv.c join_append_data: the characters that make a field be quoted.  (Newer
    Pythons also quote CR and LF when the terminator does not have them.) *)
Definition special (lt : text) (c : ascii) : bool := Ascii.eqb c comma || Ascii.eqb c dquote || existsb (Ascii.eqb c) lt.
Fixpoint double_quotes (t : text) : text :=
  match t with [] => [] | c :: t' => if Ascii.eqb c dquote then dquote :: dquote :: double_quotes t' else c :: double_quotes t' end.
Definition field_out (lt : text) (f : text) : text :=
  if existsb (special lt) f then dquote :: double_quotes f ++ [dquote] else f.
Fixpoint join_fields (fs : list text) : text :=
  match fs with [] => [] | [f] => f | f :: r => f ++ comma :: join_fields r end.
(** csv_writerow: a row with a single empty field is written as two quotes. *)
Definition row_out (lt : text) (r : row) : text :=
  match r with [[]] => [dquote; dquote] | _ => join_fields (map (field_out lt) r) end ++ lt.
Definition csv_write (lt : text) (table : list row) : text := concat (map (row_out lt) table).

(** core/reporting.py:99-106 Report._render_csv_: the text that is written or
    printed, with the cells as str() gives them. *)
Definition render_csv (table : list row) : text := csv_write [lf] table.

(** * csv.reader(file, delimiter=',', quotechar=double quote) on a file opened with
      newline='' *)
(** The lines of the file, each with its end. *)
Fixpoint lines_of (t : text) : list text :=
  match t with
  | [] => []
  | c :: t' =>
    if Ascii.eqb c lf then [lf] :: lines_of t'
    else if Ascii.eqb c cr then
      match t' with
      | d :: t'' => if Ascii.eqb d lf then [cr; lf] :: lines_of t'' else [cr] :: lines_of t'
      | [] => [[cr]]
      end
    else match lines_of t' with l :: ls => (c :: l) :: ls | [] => [[c]] end
  end.

Inductive pstate := StartRecord | StartField | InField | InQuoted | QuoteInQuoted | EatCrnl.
(** The reader: its state, the field being read, the fields before it. *)
Record reader := mkrd { rd_state : pstate; rd_field : text; rd_fields : list text }.
Definition rd_init : reader := mkrd StartRecord [] [].
(** parse_add_char, parse_save_field. *)
Definition add_char (s : reader) (c : ascii) (st : pstate) : reader := mkrd st (rd_field s ++ [c]) (rd_fields s).
Definition save_field (s : reader) (st : pstate) : reader := mkrd st [] (rd_fields s ++ [rd_field s]).
Definition goto (s : reader) (st : pstate) : reader := mkrd st (rd_field s) (rd_fields s).
Definition is_end (c : ascii) : bool := Ascii.eqb c lf || Ascii.eqb c cr.

(** parse_process_char; [None] is the end of a line.  The csv.Error it raises is
    [PyException] here. *)
Definition start_field (s : reader) (c : ascii) : reader :=
  if is_end c then save_field s EatCrnl
  else if Ascii.eqb c dquote then goto s InQuoted
  else if Ascii.eqb c comma then save_field s StartField
  else add_char s c InField.
Definition process (s : reader) (c : option ascii) : res reader :=
  match rd_state s, c with
  | StartRecord, None => Ok s
  | StartRecord, Some c => Ok (if is_end c then goto s EatCrnl else start_field s c)
  | StartField, None => Ok (save_field s StartRecord)
  | StartField, Some c => Ok (start_field s c)
  | InField, None => Ok (save_field s StartRecord)
  | InField, Some c => Ok (if is_end c then save_field s EatCrnl else if Ascii.eqb c comma then save_field s StartField else add_char s c InField)
  | InQuoted, None => Ok s
  | InQuoted, Some c => Ok (if Ascii.eqb c dquote then goto s QuoteInQuoted else add_char s c InQuoted)
  | QuoteInQuoted, None => Ok (save_field s StartRecord)
  | QuoteInQuoted, Some c =>
    Ok (if Ascii.eqb c dquote then add_char s c InQuoted
        else if Ascii.eqb c comma then save_field s StartField
        else if is_end c then save_field s EatCrnl
        else add_char s c InField)
  | EatCrnl, None => Ok (goto s StartRecord)
  | EatCrnl, Some c => if is_end c then Ok s else Err PyException
  end.
(** Reader_iternext on one line. *)
Definition process_line (s : reader) (l : text) : res reader :=
  do s' <- foldM (fun s c => process s (Some c)) l s; process s' None.
(** The rows a loop over the reader gets, and the exception that ends it, if
    any.  At the end of the file an unfinished record is returned if it has
    something in its last field or is inside quotes. *)
Fixpoint read_lines (ls : list text) (s : reader) : list row * option exn :=
  match ls with
  | [] => (match rd_state s, rd_field s with InQuoted, _ => [rd_fields s ++ [rd_field s]] | _, _ :: _ => [rd_fields s ++ [rd_field s]] | _, [] => [] end, None)
  | l :: ls' =>
    match process_line s l with
    | Err e => ([], Some e)
    | Ok s' => match rd_state s' with
               | StartRecord => let r := read_lines ls' rd_init in (rd_fields s' :: fst r, snd r)
               | _ => read_lines ls' s'
               end
    end
  end.
Definition csv_read (t : text) : list row * option exn := read_lines (lines_of t) rd_init.

(** * DataSet *)
(** dict(zip(keys, values)): the last of equal keys wins. *)
Definition tdict := list (text * text).
Definition tput (d : tdict) (kv : text * text) : tdict :=
  if existsb (fun e => if list_eq_dec ascii_dec (fst e) (fst kv) then true else false) d
  then map (fun e => if list_eq_dec ascii_dec (fst e) (fst kv) then (fst e, snd kv) else e) d else d ++ [kv].
Definition tdict_of (keys values : list text) : tdict := fold_left tput (combine keys values) [].
Fixpoint tget (d : tdict) (k : text) : res text :=
  match d with [] => Err KeyError | (k', v) :: r => if list_eq_dec ascii_dec k' k then Ok v else tget r k end.

(** core.py:106-145. *)
Record dataset := mkds {
  ds_name : text; ds_material : text; ds_description : text; ds_reference : text;
  ds_col_names : list text; ds_col_display : list text; ds_col_units : list text; ds_col_symbols : list text;
  ds_names : tdict; ds_displays : tdict; ds_units : tdict }.

(** os.path.basename. *)
Fixpoint basename_from (acc t : text) : text :=
  match t with [] => acc | c :: t' => if Ascii.eqb c "/" then basename_from [] t' else basename_from (acc ++ [c]) t' end.
Definition basename (t : text) : text := basename_from [] t.

(** next(lines): StopIteration, which [exn] does not have, is [PyException]
    here, as is the csv.Error. *)
Definition next_row (rows : list row * option exn) : res (row * (list row * option exn)) :=
  match fst rows with r :: rs => Ok (r, (rs, snd rows)) | [] => Err (match snd rows with Some e => e | None => PyException end) end.
Definition second (r : row) : res text := match r with _ :: x :: _ => Ok x | _ => Err IndexError end.

(** core.py:106-145 DataSet._read_header_information: [path] and the text in the
    file. *)
Definition read_header (path content : text) : res dataset :=
  do x <- next_row (csv_read content); do material <- second (fst x);
  do x <- next_row (snd x); do description <- second (fst x);
  do x <- next_row (snd x); do reference <- second (fst x);
  do x <- next_row (snd x); let names := fst x in
  do x <- next_row (snd x); let display := fst x in
  do x <- next_row (snd x); let units := fst x in
  do x <- next_row (snd x); let symbols := fst x in
  Ok (mkds (basename path) material description reference names display units symbols
        (tdict_of symbols names) (tdict_of symbols display) (tdict_of symbols units)).

(** str.lower() of an ascii text. *)
Definition lower_char (c : ascii) : ascii :=
  let n := nat_of_ascii c in if ((65 <=? n) && (n <=? 90))%nat then ascii_of_nat (n + 32) else c.
Definition lower (t : text) : text := map lower_char t.
(** os.path.join of two parts. *)
Definition path_join (a b : text) : text :=
  match b with
  | "/"%char :: _ => b
  | _ => match rev a with [] => b | c :: _ => if Ascii.eqb c "/" then a ++ b else a ++ "/"%char :: b end
  end.
(** core.py:62-63. *)
Definition template_path (dir material : text) : text :=
  path_join dir (text_of "dataset-" ++ lower material ++ text_of ".csv").
(** str() of a float with a whole value below 10^16. *)
Definition whole_float (n : nat) : text := text_of (DecimalString.NilZero.string_of_uint (Nat.to_uint n)) ++ text_of ".0".
(** core.py:65-83: the rows of the template. *)
Definition template_rows (material : text) : list row :=
  [ [text_of "Name"; material];
    [text_of "Description"; text_of "<Add a data set description here.>"];
    [text_of "Reference"; text_of "<Add a reference to the source of the data set here.>"];
    [text_of "Temperature"; text_of "<parameter 1 name>"; text_of "<parameter 2 name>"; text_of "<parameter 3 name>"];
    [text_of "T"; text_of "<parameter 1 display symbol>"; text_of "<parameter 2 display symbol>"; text_of "<parameter 3 display symbol>"];
    [text_of "K"; text_of "<parameter 1 units>"; text_of "<parameter 2 units>"; text_of "<parameter 3 units>"];
    [text_of "T"; text_of "<parameter 1 symbol>"; text_of "<parameter 2 symbol>"; text_of "<parameter 3 symbol>"] ]
  ++ map (fun i => [whole_float (100 + i * 50); whole_float i; whole_float (10 + i); whole_float (100 + i)]) (seq 0 10).
(** core.py:53-86 DataSet.create_template: the path and the text of the file;
    the default line terminator is CR LF.  Opening the file in a browser is left
    out. *)
Definition create_template (material dir : text) : text * text :=
  (template_path dir material, csv_write [cr; lf] (template_rows material)).
