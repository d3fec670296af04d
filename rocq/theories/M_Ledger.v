(** Model of the general ledger (auxi/modelling/financial/des.py:145-193,
    356-451) and its reports (auxi/modelling/financial/reporting.py). *)
From Verif Require Import Prelude M_Dates M_Accounts.
Open Scope string_scope.

(** A Python [datetime.date] or [datetime.datetime] value.  A date is kept as a
    datetime record whose time is ignored by construction (0). *)
Inductive pytime := PDate (t : datetime) | PDateTime (t : datetime).

Definition py_raw (p : pytime) : datetime := match p with PDate t | PDateTime t => t end.
Definition py_is_dt (p : pytime) : bool := match p with PDate _ => false | PDateTime _ => true end.

(** [a <= b] in Python: comparing a date with a datetime raises TypeError. *)
Definition py_le (a b : pytime) : res bool :=
  match a, b with
  | PDate x, PDate y | PDateTime x, PDateTime y => Ok (dt_leb x y)
  | _, _ => Err TypeError
  end.

(** [a <= t <= b] with short-circuit evaluation. *)
Definition py_between (a t b : pytime) : res bool :=
  do l <- py_le a t; if l then py_le t b else Ok false.

(** des.py:145-175 Transaction.  [None] stands for Python's None default of the
    account and source arguments. *)
Record tx := mktx {
  tx_name : string; tx_desc : option string; tx_date : pytime;
  tx_dt : option string; tx_cr : option string; tx_source : option string;
  tx_amount : Qc; tx_closing_dt : bool; tx_closing_cr : bool }.

(** des.py:356-368 GeneralLedger *)
Record ledger := mkledger { l_structure : gls; l_txs : list tx }.

(** des.py:370-391 create_transaction: both closing flags keep their default
    False; returns the ledger and the transaction. *)
Definition create_transaction (l : ledger) (name : string) (desc : option string) (date : pytime)
  (dt cr source : option string) (amount : Qc) : ledger * tx :=
  let t := mktx name desc date dt cr source amount false false in
  (mkledger (l_structure l) (l_txs l ++ [t])%list, t).

(** get_account on an argument that may be None ('/' in None: TypeError). *)
Definition get_account_o (g : gls) (s : option string) : res (option acct) :=
  match s with None => Err TypeError | Some n => get_account g n end.

(** gls.get_account(s).account_type; None has no attribute: AttributeError. *)
Definition account_type_of (g : gls) (s : option string) : res atype :=
  do a <- get_account_o g s; match a with None => Err AttributeError | Some x => Ok (a_type x) end.

Definition str_of (s : option string) : string := match s with Some n => n | None => "" end.

(** str.startswith / str.endswith *)
Definition starts_with (s p : string) : bool := String.prefix p s.
Definition ends_with (s suf : string) : bool :=
  (String.length suf <=? String.length s)%nat &&
  (String.substring (String.length s - String.length suf) (String.length suf) s =? suf).

(** t.source.startswith(path): None has no such method. *)
Definition source_starts (t : tx) (p : string) : res bool :=
  match tx_source t with None => Err AttributeError | Some s => Ok (starts_with s p) end.

(** Python's sorted(l, key=tx_date): stable; raises TypeError when dates and
    datetimes are mixed (any sort of such a list compares a mixed pair). *)
Fixpoint insert_tx (x : tx) (l : list tx) : list tx :=
  match l with
  | [] => [x]
  | y :: r => if dt_leb (py_raw (tx_date x)) (py_raw (tx_date y)) then x :: l else y :: insert_tx x r
  end.
Fixpoint sort_raw (l : list tx) : list tx :=
  match l with [] => [] | x :: r => insert_tx x (sort_raw r) end.
Definition same_kind (l : list tx) : bool :=
  forallb (fun t => py_is_dt (tx_date t)) l || forallb (fun t => negb (py_is_dt (tx_date t))) l.
Definition sorted_by_date (l : list tx) : res (list tx) :=
  if same_kind l then Ok (sort_raw l) else Err TypeError.

(** reporting.py:100-119 TransactionList._generate_table_: a row keeps the
    transaction's fields with the printed name; amounts are kept exact instead
    of formatted with "%.2f". *)
Record tl_row := mkrow {
  r_date : pytime; r_source : string; r_name : string; r_dt : option string; r_cr : option string;
  r_amount : Qc; r_desc : string }.

Definition tl_row_of (t : tx) : tl_row :=
  let s := str_of (tx_source t) in
  mkrow (tx_date t) s (if ends_with s (tx_name t) then "" else tx_name t) (tx_dt t) (tx_cr t)
        (tx_amount t) (str_of (tx_desc t)).

Definition tl_step (start fin : pytime) (path : string) (acc : list tl_row * Qc) (t : tx) :
  res (list tl_row * Qc) :=
  do m <- source_starts t path;
  if negb m then Ok acc else
  do b <- py_between start (tx_date t) fin;
  if b then Ok ((fst acc ++ [tl_row_of t])%list, (snd acc + tx_amount t)%Qc) else Ok acc.

Definition transaction_list (l : ledger) (start fin : pytime) (path : string) : res (list tl_row * Qc) :=
  do s <- sorted_by_date (l_txs l);
  foldM (tl_step start fin path) s ([], 0%Qc).

(** A Python dict from account name to number, in insertion order:
    [if k in d: d[k] += delta else: d[k] = init]. *)
Definition dict := list (string * Qc).
Fixpoint dict_upd (k : string) (delta init : Qc) (d : dict) : dict :=
  match d with
  | [] => [(k, init)]
  | (k', v) :: r => if k' =? k then (k', (v + delta)%Qc) :: r else (k', v) :: dict_upd k delta init r
  end.
Fixpoint dict_get (k : string) (d : dict) : option Qc :=
  match d with [] => None | (k', v) :: r => if k' =? k then Some v else dict_get k r end.
Definition dict_sum (d : dict) : Qc := Qcsum (map snd d).

(** reporting.py:138-179 BalanceSheet._sum_amounts_per_account_ *)
Record bs_acc := mkbs { bs_assets : dict; bs_liab : dict; bs_equity : dict }.

Definition bs_credit (ty : atype) (k : string) (v : Qc) (s : bs_acc) : bs_acc :=
  match ty with
  | Asset => mkbs (dict_upd k (- v) (- v) (bs_assets s)) (bs_liab s) (bs_equity s)
  | Liability => mkbs (bs_assets s) (dict_upd k v v (bs_liab s)) (bs_equity s)
  | Equity => mkbs (bs_assets s) (bs_liab s) (dict_upd k v v (bs_equity s))
  | _ => s
  end.
Definition bs_debit (ty : atype) (k : string) (v : Qc) (s : bs_acc) : bs_acc :=
  match ty with
  | Asset => mkbs (dict_upd k v v (bs_assets s)) (bs_liab s) (bs_equity s)
  | Liability => mkbs (bs_assets s) (dict_upd k (- v) (- v) (bs_liab s)) (bs_equity s)
  | Equity => mkbs (bs_assets s) (bs_liab s) (dict_upd k (- v) (- v) (bs_equity s))
  | _ => s
  end.

Definition bs_step (g : gls) (fin : pytime) (s : bs_acc) (t : tx) : res bs_acc :=
  do le <- py_le (tx_date t) fin;
  if le then
    do ct <- account_type_of g (tx_cr t);
    do dt <- account_type_of g (tx_dt t);
    Ok (bs_debit dt (str_of (tx_dt t)) (tx_amount t) (bs_credit ct (str_of (tx_cr t)) (tx_amount t) s))
  else Ok s.

Definition bs_sums (l : ledger) (fin : pytime) : res bs_acc :=
  foldM (bs_step (l_structure l) fin) (l_txs l) (mkbs [] [] []).

(** reporting.py:181-233 BalanceSheet._generate_table_: the lines and totals
    (the layout into columns is not modelled). *)
Record balance_sheet := mkbsheet {
  sheet_assets : dict; sheet_liab : dict; sheet_equity : dict;
  sheet_total_assets : Qc; sheet_total_liab : Qc; sheet_total_equity : Qc; sheet_total_le : Qc }.

Definition balance_sheet_report (l : ledger) (fin : pytime) : res balance_sheet :=
  do s <- bs_sums l fin;
  Ok (mkbsheet (bs_assets s) (bs_liab s) (bs_equity s)
        (dict_sum (bs_assets s)) (dict_sum (bs_liab s)) (dict_sum (bs_equity s))
        (dict_sum (bs_liab s) + dict_sum (bs_equity s))%Qc).

(** reporting.py:258-292 IncomeStatement._sum_amounts_per_account_; the
    initial values are transcribed as they are (a first credit of an expense
    account and a first debit of a revenue account are stored positive). *)
Definition is_credit (ty : atype) (k : string) (v : Qc) (s : dict * dict) : dict * dict :=
  match ty with
  | Revenue => (dict_upd k v v (fst s), snd s)
  | Expense => (fst s, dict_upd k (- v) v (snd s))
  | _ => s
  end.
Definition is_debit (ty : atype) (k : string) (v : Qc) (s : dict * dict) : dict * dict :=
  match ty with
  | Revenue => (dict_upd k (- v) v (fst s), snd s)
  | Expense => (fst s, dict_upd k v v (snd s))
  | _ => s
  end.

(** [x != ""] for a value that may be None *)
Definition not_empty (s : option string) : bool := match s with Some n => negb (n =? "") | None => true end.

Definition is_step (g : gls) (start fin : pytime) (path : string) (s : dict * dict) (t : tx) :
  res (dict * dict) :=
  do m <- source_starts t path;
  if negb m then Ok s else
  do b <- py_between start (tx_date t) fin;
  if negb b then Ok s else
  do ct <- account_type_of g (tx_cr t);
  do dt <- account_type_of g (tx_dt t);
  let s1 := if negb (tx_closing_cr t) && negb (tx_closing_dt t) && not_empty (tx_cr t)
            then is_credit ct (str_of (tx_cr t)) (tx_amount t) s else s in
  let s2 := if negb (tx_closing_cr t) && negb (tx_closing_dt t) && not_empty (tx_dt t)
            then is_debit dt (str_of (tx_dt t)) (tx_amount t) s1 else s1 in
  Ok s2.

Definition is_sums (l : ledger) (start fin : pytime) (path : string) : res (dict * dict) :=
  foldM (is_step (l_structure l) start fin path) (l_txs l) ([], []).

(** reporting.py:294-331 IncomeStatement._generate_table_: lines and totals. *)
Record income_statement := mkistat {
  inc_revenue : dict; inc_cos : dict; inc_expense : dict;
  inc_gross : Qc; inc_total_expenses : Qc; inc_net : Qc }.

Definition is_cos (k : string) : bool := starts_with k "Cost of Sales".

Definition income_statement_report (l : ledger) (start fin : pytime) (path : string) : res income_statement :=
  do s <- is_sums l start fin path;
  let inc := fst s in let exp := snd s in
  let cos := filter (fun kv => is_cos (fst kv)) exp in
  let oth := filter (fun kv => negb (is_cos (fst kv))) exp in
  Ok (mkistat inc cos oth (dict_sum inc - dict_sum cos)%Qc (dict_sum exp - dict_sum cos)%Qc
              (dict_sum inc - dict_sum exp)%Qc).

(** auxi/core/helpers.py:23-34 get_date on an already parsed 'YYYY-MM-DD'
    string gives a date, never a datetime; other values pass unchanged. *)
Definition get_date_of_string (t : datetime) : pytime := PDate (mkdt (dt_year t) (dt_month t) (dt_day t) 0).

(** reporting.py:57-63 GeneralLedgerStructure._gl_accounts_to_table_: one row
    (type, number with the parent's own number as prefix, name) per account, sub
    accounts sorted by number.  An account without number makes the sort or the
    concatenation raise TypeError.  The rows of the sub accounts are computed
    before they are sorted (same rows, same exception). *)
Record gls_row := mkglsrow { gr_type : atype; gr_number : string; gr_name : string }.

Definition str_leb (a b : string) : bool := match String.compare a b with Gt => false | _ => true end.

(** stable sort on the first component *)
Fixpoint insert_key {A} (x : string * A) (l : list (string * A)) : list (string * A) :=
  match l with
  | [] => [x]
  | y :: r => if str_leb (fst x) (fst y) then x :: l else y :: insert_key x r
  end.
Definition sort_key {A} (l : list (string * A)) : list (string * A) := fold_right insert_key [] l.

Fixpoint gls_rows (prefix : string) (a : acct) : res (string * list gls_row) :=
  let 'Acct _ n num ty _ _ ks := a in
  match num with
  | None => Err TypeError
  | Some k =>
      do subs <- (fix go (l : list acct) : res (list (string * list gls_row)) :=
                    match l with
                    | [] => Ok []
                    | x :: r => do y <- gls_rows (k ++ "/") x; do ys <- go r; Ok (y :: ys)
                    end) ks;
      Ok (k, mkglsrow ty (prefix ++ k) n :: concat (map snd (sort_key subs)))
  end.

(** reporting.py:65-75 _generate_table_: top-level accounts whose number starts
    with I, then those whose number starts with B, each sorted by number
    (None.startswith raises AttributeError). *)
Definition number_starts (p : string) (a : acct) : bool :=
  match a_number a with Some k => starts_with k p | None => false end.

Definition gls_report (g : gls) : res (list gls_row) :=
  if existsb (fun a => match a_number a with None => true | Some _ => false end) (g_accounts g)
  then Err AttributeError else
  do i <- mapM (gls_rows "") (filter (number_starts "I") (g_accounts g));
  do b <- mapM (gls_rows "") (filter (number_starts "B") (g_accounts g));
  Ok (concat (map snd (sort_key i)) ++ concat (map snd (sort_key b)))%list.
