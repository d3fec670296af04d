(** Model of the tables that the reports of auxi/modelling/financial/reporting.py
    print, cell by cell (what they compute is in M_Ledger).  A cell is the text
    str() gives for it; the drawing of the table by the tabulate package is in
    M_Tabulate. *)
From Verif Require Import Prelude M_Stoichiometry M_Lists M_Dates M_Accounts M_Ledger M_Csv.
Local Open Scope Z_scope.
Local Open Scope list_scope.

(** * "%.2f" % x *)
Definition chr (n : Z) : ascii := ascii_of_nat (48 + Z.to_nat n).
(** The decimal digits of a whole number; [P_Tables] proves that there are always
    enough rounds. *)
Fixpoint dec_loop (fuel : nat) (n : Z) (acc : text) : text :=
  match fuel with
  | O => acc
  | S k => if n <? 10 then chr n :: acc else dec_loop k (n / 10) (chr (n mod 10) :: acc)
  end.
Definition decimal (n : Z) : text := dec_loop (S (Z.to_nat (Z.log2 n))) n [].
(** C's printf rounds to the nearest, and to an even last digit in the middle. *)
Definition half_even (a b : Z) : Z :=
  let q := a / b in let r := a mod b in
  if 2 * r <? b then q else if b <? 2 * r then q + 1 else if Z.even q then q else q + 1.
Definition cents (x : Qc) : Z := half_even (100 * Z.abs (Qnum (this x))) (Zpos (Qden (this x))).
(** (The floating-point zero -0.0, printed as -0.00, does not exist here.) *)
Definition fmt2 (x : Qc) : text :=
  (if Qnum (this x) <? 0 then ["-"%char] else []) ++ decimal (cents x / 100) ++ "."%char :: [chr (cents x / 10 mod 10); chr (cents x mod 10)].

(** str() of a date and of a datetime. *)
Fixpoint padded (k : nat) (n : Z) : text := match k with O => [] | S k' => padded k' (n / 10) ++ [chr (n mod 10)] end.
Definition date_str (t : datetime) : text := padded 4 (dt_year t) ++ "-"%char :: padded 2 (dt_month t) ++ "-"%char :: padded 2 (dt_day t).
Definition time_str (us : Z) : text :=
  padded 2 (us / 3600000000) ++ ":"%char :: padded 2 (us / 60000000 mod 60) ++ ":"%char :: padded 2 (us / 1000000 mod 60) ++
  (if us mod 1000000 =? 0 then [] else "."%char :: padded 6 (us mod 1000000)).
Definition pytime_str (p : pytime) : text :=
  match p with PDate t => date_str t | PDateTime t => date_str t ++ " "%char :: time_str (dt_us t) end.

Definition opt_str (s : option string) : text := match s with Some n => text_of n | None => [] end.

(** * reporting.py:100-119 TransactionList._generate_table_ *)
Definition tl_cells (r : tl_row) : row :=
  [pytime_str (r_date r); text_of (r_source r); text_of (r_name r); opt_str (r_dt r); opt_str (r_cr r); fmt2 (r_amount r); text_of (r_desc r)].
Definition transaction_table (l : ledger) (start fin : pytime) (path : string) : res (list row) :=
  do x <- transaction_list l start fin path;
  Ok (map text_of ["Date"; "Source"; "Tx Name"; "Debit Account"; "Credit Account"; "Amount"; "Description"]%string ::
      map tl_cells (fst x) ++ [[[]; []; text_of "Total"; []; []; fmt2 (snd x); []]]).

(** * reporting.py:181-233 BalanceSheet._generate_table_ *)
(** rows[i][j] = t *)
Definition set_cell (rows : list row) (i j : nat) (t : text) : res (list row) :=
  do r <- get rows i; do r' <- set_nth r j t; set_nth rows i r'.
(** rows[ix][a] = entry; rows[ix][b] = "%.2f" % d[entry]; ix += 1 *)
Definition entry_step (a b : nat) (s : nat * list row) (kv : string * Qc) : res (nat * list row) :=
  do rows <- set_cell (snd s) (fst s) a (text_of (fst kv));
  do rows <- set_cell rows (fst s) b (fmt2 (snd kv));
  Ok (S (fst s), rows).
Definition balance_body (sh : balance_sheet) : res (list row) :=
  let n := Nat.max (length (sheet_assets sh)) (length (sheet_liab sh) + length (sheet_equity sh) + 4 + 3) in
  let rows := repeat (repeat ([] : text) 5) n in
  do x <- foldM (entry_step 0 1) (sheet_assets sh) (0%nat, rows);
  do rows <- set_cell (snd x) 0 2 (text_of "Liabilities");
  do rows <- set_cell rows 1 2 (text_of "-----------");
  do x <- foldM (entry_step 2 3) (sheet_liab sh) (2%nat, rows);
  let ix := fst x in
  do rows <- set_cell (snd x) ix 2 (text_of "Total liabilities");
  do rows <- set_cell rows ix 4 (fmt2 (sheet_total_liab sh));
  do rows <- set_cell rows (ix + 1) 2 (text_of "-----------------");
  do rows <- set_cell rows (ix + 2) 2 (text_of "Owners' Equity");
  do rows <- set_cell rows (ix + 3) 2 (text_of "--------------");
  do x <- foldM (entry_step 2 3) (sheet_equity sh) ((ix + 4)%nat, rows);
  do rows <- set_cell (snd x) (fst x) 2 (text_of "Total owners' equities");
  set_cell rows (fst x) 4 (fmt2 (sheet_total_equity sh)).
Definition balance_table (sh : balance_sheet) : res (list row) :=
  do body <- balance_body sh;
  Ok (map text_of ["Assets"; " "; "Liabilities and Equity"; ""; "  "]%string :: body ++
      [map text_of ["-----"; "--------"; "----------------------"; ""; "--------"]%string;
       [text_of "Total"; fmt2 (sheet_total_assets sh); text_of "Total"; []; fmt2 (sheet_total_le sh)]]).

(** * reporting.py:294-331 IncomeStatement._generate_table_ *)
Definition income_table (st : income_statement) : list row :=
  let line := map text_of in
  [line ["" ; "Debit"; "Credit"]; line ["Revenues"; ""; ""]; line ["--------"; ""; ""]]%string ++
  map (fun kv : string * Qc => [text_of (fst kv); []; fmt2 (snd kv)]) (inc_revenue st) ++
  [line [""; ""; ""]; line ["Cost of Sales"; ""; ""]; line ["-------------"; ""; ""]]%string ++
  map (fun kv : string * Qc => [text_of (fst kv); fmt2 (snd kv); []]) (inc_cos st) ++
  [line [""; ""; "--------"]%string; [text_of "Gross Revenues (including interest income)"; []; fmt2 (inc_gross st)]; line [""; ""; "--------"]%string;
   line ["Expenses"; ""; ""]%string; line ["--------"; ""; ""]%string] ++
  map (fun kv : string * Qc => [text_of (fst kv); fmt2 (snd kv); []]) (inc_expense st) ++
  [line [""; "--------"; ""]%string; [text_of "Total Expenses"; fmt2 (inc_total_expenses st); []]; line [""; "--------"; "--------"]%string;
   [text_of "Net Income"; []; if Qnum (this (inc_net st)) <? 0 then "("%char :: fmt2 (- inc_net st)%Qc ++ [")"%char] else fmt2 (inc_net st)]].
