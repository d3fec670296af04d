(** The sums of the financial reports in binary64, auxi/modelling/financial/reporting.py.
    A transaction is paired with its amount as a float; everything else is as in M_Ledger. *)
From Verif Require Import Prelude M_Dates M_Accounts M_Ledger M_Ieee.
Open Scope string_scope.

(** des.py:391-406 GeneralLedger: the structure and the transactions. *)
Record fledger := mkfledger { fl_structure : gls; fl_txs : list (tx * float64) }.

(** [if k in d: d[k] = upd d[k] else: d[k] = init] *)
Definition fdict := list (string * float64).
Fixpoint fdict_upd (k : string) (upd : float64 -> float64) (init : float64) (d : fdict) : fdict :=
  match d with
  | [] => [(k, init)]
  | (k', v) :: r => if k' =? k then (k', upd v) :: r else (k', v) :: fdict_upd k upd init r
  end.
Definition plus_ (x v : float64) : float64 := add64 v x.
Definition minus_ (x v : float64) : float64 := sub64 v x.

(** reporting.py:138-179 BalanceSheet._sum_amounts_per_account_ *)
Record fbs_acc := mkfbs { fb_assets : fdict; fb_liab : fdict; fb_equity : fdict }.
Definition fbs_credit (ty : atype) (k : string) (x : float64) (s : fbs_acc) : fbs_acc :=
  match ty with
  | Asset => mkfbs (fdict_upd k (minus_ x) (neg64 x) (fb_assets s)) (fb_liab s) (fb_equity s)
  | Liability => mkfbs (fb_assets s) (fdict_upd k (plus_ x) x (fb_liab s)) (fb_equity s)
  | Equity => mkfbs (fb_assets s) (fb_liab s) (fdict_upd k (plus_ x) x (fb_equity s))
  | _ => s
  end.
Definition fbs_debit (ty : atype) (k : string) (x : float64) (s : fbs_acc) : fbs_acc :=
  match ty with
  | Asset => mkfbs (fdict_upd k (plus_ x) x (fb_assets s)) (fb_liab s) (fb_equity s)
  | Liability => mkfbs (fb_assets s) (fdict_upd k (minus_ x) (neg64 x) (fb_liab s)) (fb_equity s)
  | Equity => mkfbs (fb_assets s) (fb_liab s) (fdict_upd k (minus_ x) (neg64 x) (fb_equity s))
  | _ => s
  end.
Definition fbs_step (g : gls) (fin : pytime) (s : fbs_acc) (p : tx * float64) : res fbs_acc :=
  do le <- py_le (tx_date (fst p)) fin;
  if le then
    do ct <- account_type_of g (tx_cr (fst p));
    do dt <- account_type_of g (tx_dt (fst p));
    Ok (fbs_debit dt (str_of (tx_dt (fst p))) (snd p) (fbs_credit ct (str_of (tx_cr (fst p))) (snd p) s))
  else Ok s.

(** reporting.py:181-233 BalanceSheet._generate_table_: lines and totals before
    they are printed. *)
Record fsheet := mkfsheet {
  fs_assets : fdict; fs_liab : fdict; fs_equity : fdict;
  fs_total_assets : float64; fs_total_liab : float64; fs_total_equity : float64; fs_total_le : float64 }.
Definition dict_sum64 (d : fdict) : float64 := sum64 (map snd d).
Definition float_balance_sheet (l : fledger) (fin : pytime) : res fsheet :=
  do s <- foldM (fbs_step (fl_structure l) fin) (fl_txs l) (mkfbs [] [] []);
  Ok (mkfsheet (fb_assets s) (fb_liab s) (fb_equity s)
        (dict_sum64 (fb_assets s)) (dict_sum64 (fb_liab s)) (dict_sum64 (fb_equity s))
        (add64 (dict_sum64 (fb_liab s)) (dict_sum64 (fb_equity s)))).

(** reporting.py:258-292 IncomeStatement._sum_amounts_per_account_ *)
Definition fis_credit (ty : atype) (k : string) (x : float64) (s : fdict * fdict) : fdict * fdict :=
  match ty with
  | Revenue => (fdict_upd k (plus_ x) x (fst s), snd s)
  | Expense => (fst s, fdict_upd k (minus_ x) x (snd s))
  | _ => s
  end.
Definition fis_debit (ty : atype) (k : string) (x : float64) (s : fdict * fdict) : fdict * fdict :=
  match ty with
  | Revenue => (fdict_upd k (minus_ x) x (fst s), snd s)
  | Expense => (fst s, fdict_upd k (plus_ x) x (snd s))
  | _ => s
  end.
Definition fis_step (g : gls) (start fin : pytime) (path : string) (s : fdict * fdict) (p : tx * float64) :
  res (fdict * fdict) :=
  let t := fst p in
  do m <- source_starts t path;
  if negb m then Ok s else
  do b <- py_between start (tx_date t) fin;
  if negb b then Ok s else
  do ct <- account_type_of g (tx_cr t);
  do dt <- account_type_of g (tx_dt t);
  let s1 := if negb (tx_closing_cr t) && negb (tx_closing_dt t) && not_empty (tx_cr t)
            then fis_credit ct (str_of (tx_cr t)) (snd p) s else s in
  let s2 := if negb (tx_closing_cr t) && negb (tx_closing_dt t) && not_empty (tx_dt t)
            then fis_debit dt (str_of (tx_dt t)) (snd p) s1 else s1 in
  Ok s2.
(** reporting.py:294-331 IncomeStatement._generate_table_: sum_incomes - cos_sum,
    sum_expenses - cos_sum and net_income. *)
Record fincome := mkfincome {
  fi_revenue : fdict; fi_cos : fdict; fi_expense : fdict;
  fi_gross : float64; fi_total_expenses : float64; fi_net : float64 }.
Definition float_income_statement (l : fledger) (start fin : pytime) (path : string) : res fincome :=
  do s <- foldM (fis_step (fl_structure l) start fin path) (fl_txs l) ([], []);
  let cos := filter (fun kv => is_cos (fst kv)) (snd s) in
  let oth := filter (fun kv => negb (is_cos (fst kv))) (snd s) in
  Ok (mkfincome (fst s) cos oth (sub64 (dict_sum64 (fst s)) (dict_sum64 cos))
                (sub64 (dict_sum64 (snd s)) (dict_sum64 cos)) (sub64 (dict_sum64 (fst s)) (dict_sum64 (snd s)))).

(** reporting.py:100-119 TransactionList._generate_table_: the transactions shown,
    in order, and amount_tot (0, then += amount). *)
Fixpoint finsert (x : tx * float64) (l : list (tx * float64)) : list (tx * float64) :=
  match l with
  | [] => [x]
  | y :: r => if dt_leb (py_raw (tx_date (fst x))) (py_raw (tx_date (fst y))) then x :: l else y :: finsert x r
  end.
Definition fsorted (l : list (tx * float64)) : list (tx * float64) := fold_right finsert [] l.
Definition ftl_step (start fin : pytime) (path : string) (acc : list (tx * float64) * float64) (p : tx * float64) :
  res (list (tx * float64) * float64) :=
  do m <- source_starts (fst p) path;
  if negb m then Ok acc else
  do b <- py_between start (tx_date (fst p)) fin;
  if b then Ok ((fst acc ++ [p])%list, add64 (snd acc) (snd p)) else Ok acc.
Definition float_transaction_list (l : fledger) (start fin : pytime) (path : string) : res (list (tx * float64) * float64) :=
  if same_kind (map fst (fl_txs l)) then foldM (ftl_step start fin path) (fsorted (fl_txs l)) ([], zero64) else Err TypeError.
