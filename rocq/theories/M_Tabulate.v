(** Model of tabulate(table, headers="firstrow", tablefmt="simple") as
    auxi/core/reporting.py:66, 74, 95 and 97 call it, for tables of texts.  The
    source of tabulate is not in /repo: this follows tabulate 0.7 (2016), the release
    of the time.  Simplifications: every row has as many cells as the
    first; no cell has a line end, an escape sequence or wide characters; cells that
    are dates are the texts str() gives. *)
From Verif Require Import Prelude M_Stoichiometry M_Csv M_Tables M_Print M_Json.
From Coq Require Import Reals.
From Flocq Require Generic_fmt.
Local Open Scope string_scope.
Local Open Scope list_scope.
Local Open Scope Z_scope.

(** A Python float: its sign and its size. *)
Inductive pyfloat := GFin (neg : bool) (size : R) | GInf (neg : bool) | GNaN.

(** * format(x, "g") *)
(** Six digits, rounded to the nearest and to an even last digit in the middle. *)
Definition six (x : R) : Z * Z :=
  let e := exponent x in
  let m := Generic_fmt.Znearest (fun n => negb (Z.even n)) (x * powerRZ 10 (5 - e))%R in
  if m =? 10 ^ 6 then (10 ^ 5, e + 1) else (m, e).
(** The zeros at the end are dropped. *)
Fixpoint drop_zeros (t : text) : text :=
  match t with
  | [] => []
  | c :: t' => match drop_zeros t' with [] => if Ascii.eqb c "0" then [] else [c] | u => c :: u end
  end.
(** The digits after the point, and the point if there are any. *)
Definition after_point (t : text) : text := match drop_zeros t with [] => [] | u => "."%char :: u end.
(** A positive number: fixed notation for the exponents -4 to 5, and scientific
    notation for the others. *)
Definition general (me : Z * Z) : text :=
  let ds := padded 6 (fst me) in let e := snd me in
  if (-4 <=? e) && (e <? 0) then "0"%char :: after_point (repeat "0"%char (Z.to_nat (- e - 1)) ++ ds)
  else if (0 <=? e) && (e <? 6) then firstn (Z.to_nat (e + 1)) ds ++ after_point (skipn (Z.to_nat (e + 1)) ds)
  else firstn 1 ds ++ after_point (skipn 1 ds) ++ "e"%char :: exponent_str e.
Definition minus (neg : bool) : text := if neg then ["-"%char] else [].
Definition format_g (x : pyfloat) : text :=
  match x with
  | GFin neg s => minus neg ++ (if Req_EM_T s 0 then ["0"%char] else general (six s))
  | GInf neg => minus neg ++ text_of "inf"
  | GNaN => text_of "nan"
  end.

Section Tabulate.
(** Whether int(s) succeeds, and what float(s) gives; float(s) succeeds whenever
    int(s) does. *)
Variable int_of : text -> bool.
Variable float_of : text -> option pyfloat.

(** _type, _more_generic and _column_type: 1 for int, 2 for float, 4 for text. *)
Definition cell_type (s : text) : Z := if int_of s then 1 else match float_of s with Some _ => 2 | None => 4 end.
Definition column_type (col : list text) : Z := fold_left (fun a s => Z.max a (cell_type s)) col 1.
(** _format: only cells of a column of floats are changed. *)
Definition format_cell (ct : Z) (s : text) : text :=
  if ct =? 2 then match float_of s with Some x => format_g x | None => s end else s.
(** _afterpoint: the characters after the last point, or else after the last e. *)
Fixpoint last_at (p : ascii -> bool) (i : Z) (t : text) (r : Z) : Z :=
  match t with [] => r | c :: t' => last_at p (i + 1) t' (if p c then i else r) end.
Definition afterpoint (s : text) : Z :=
  match float_of s with
  | None => -1
  | Some _ =>
    if int_of s then -1 else
    let n := Z.of_nat (length s) in
    let pos := last_at (Ascii.eqb ".") 0 s (-1) in
    let pos := if pos <? 0 then last_at (fun c => Ascii.eqb "e" c || Ascii.eqb "E" c)%bool 0 s (-1) else pos in
    if 0 <=? pos then n - pos - 1 else -1
  end.
Definition maxZ (d : Z) (l : list Z) : Z := fold_left Z.max l d.
Definition widest (l : list text) (w : nat) : nat := fold_left Nat.max (map (@length ascii) l) w.
(** _align_column: a text column is stripped and filled up on the right, a
    column of numbers is filled up to the same number of decimals and then on the
    left. *)
Definition is_number (ct : Z) : bool := (ct =? 1) || (ct =? 2).
Definition align_column (ct : Z) (col : list text) (w : nat) : list text :=
  if is_number ct then
    let m := maxZ (-1) (map afterpoint col) in
    let col := map (fun s => s ++ spaces (Z.to_nat (m - afterpoint s))) col in
    map (rjust (widest col w)) col
  else
    let col := map strip col in
    map (ljust (widest col w)) col.
(** str.rstrip() *)
Definition rstrip (t : text) : text := rev (lstrip (rev t)).
(** _build_simple_row for the format "simple": two blanks between cells. *)
Definition simple_row (cells : list text) : text := rstrip (join (spaces 2) cells).
(** Column [j] of the rows. *)
Definition column (rows : list row) (j : nat) : list text := map (fun r => nth j r []) rows.
(** A column as it is printed: the header (MIN_PADDING is 2, _align_header), its
    width and its cells. *)
Definition printed_column (header : text) (col : list text) : text * nat * list text :=
  let w := (length header + 2)%nat in
  match col with
  | [] => (ljust w header, w, [])
  | _ =>
    let ct := column_type col in
    let cells := align_column ct (map (format_cell ct) col) w in
    let w := Nat.max w (length (hd [] cells)) in
    ((if is_number ct then rjust w header else ljust w header), w, cells)
  end.
(** tabulate and _format_table: the header, a line of dashes and the rows. *)
Definition tabulate (table : list row) : text :=
  match table with
  | [] => []
  | headers :: rows =>
    let cols := map (fun jh => printed_column (snd jh) (column rows (fst jh))) (combine (seq 0 (length headers)) headers) in
    join nl (simple_row (map (fun c => fst (fst c)) cols) ::
             simple_row (map (fun c => repeat "-"%char (snd (fst c))) cols) ::
             map (fun i => simple_row (map (fun c => nth i (snd c) []) cols)) (seq 0 (length rows)))
  end.
End Tabulate.
