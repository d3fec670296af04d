(** Vocabulary for saying exactly when and how a report or the year-end closing
    fails on a ledger. *)
From Verif Require Import Prelude M_Dates M_Accounts M_Ledger M_Business Spec_Accounts Spec_Ledger Spec_Business.
Open Scope string_scope.

(** The name is the path of an account of the structure. *)
Definition known (g : gls) (n : string) : Prop := exists a, in_structure g a /\ a_path a = n.
(** The part of the name before its first slash is the name of a top account. *)
Definition known_top (g : gls) (n : string) : Prop :=
  exists t, In t (g_accounts g) /\ no_slash (a_name t) = true /\ (n = a_name t \/ exists r, n = a_name t ++ "/" ++ r).

(** What is wrong with the account of a posting. *)
Inductive account_fault (g : gls) : option string -> exn -> Prop :=
| no_account : account_fault g None TypeError
| unknown_top n : ~ known g n -> ~ known_top g n -> account_fault g (Some n) AttributeError
| unknown_sub n : ~ known g n -> known_top g n -> account_fault g (Some n) IndexError.
Definition good_account (g : gls) (o : option string) : Prop := exists n, o = Some n /\ known g n.
(** ... of both accounts, the credited one first. *)
Definition entry_fault (g : gls) (t : tx) (e : exn) : Prop :=
  account_fault g (tx_cr t) e \/ good_account g (tx_cr t) /\ account_fault g (tx_dt t) e.

(** What is wrong with a transaction for the balance sheet until [fin]. *)
Definition sheet_fault (g : gls) (fin : pytime) (t : tx) (e : exn) : Prop :=
  ~ comparable (tx_date t) fin /\ e = TypeError \/
  comparable (tx_date t) fin /\ py_leb (tx_date t) fin = true /\ entry_fault g t e.
(** ... for a report from [start] until [fin] of the sources beginning with [path]. *)
Definition period_fault (start fin : pytime) (d : pytime) (e : exn) : Prop :=
  e = TypeError /\ (~ comparable start d \/ py_leb start d = true /\ ~ comparable d fin).
Definition row_fault (start fin : pytime) (path : string) (t : tx) (e : exn) : Prop :=
  tx_source t = None /\ e = AttributeError \/
  (exists s, tx_source t = Some s /\ starts_with s path = true) /\ period_fault start fin (tx_date t) e.
Definition statement_fault (g : gls) (start fin : pytime) (path : string) (t : tx) (e : exn) : Prop :=
  row_fault start fin path t e \/
  (exists s, tx_source t = Some s /\ starts_with s path = true) /\
  py_leb start (tx_date t) = true /\ py_leb (tx_date t) fin = true /\ entry_fault g t e.

(** The first faulty transaction has the fault [e]. *)
Definition first_fault (fault : tx -> exn -> Prop) (txs : list tx) (e : exn) : Prop :=
  exists before t after, txs = (before ++ t :: after)%list /\ (forall u e', In u before -> ~ fault u e') /\ fault t e.
Definition no_fault (fault : tx -> exn -> Prop) (txs : list tx) : Prop := forall t e, In t txs -> ~ fault t e.

(** All dates are dates, or all are datetimes. *)
Definition one_kind (txs : list tx) : Prop := forall t u, In t txs -> In u txs -> comparable (tx_date t) (tx_date u).

(** The accounts the year-end closing refers to are still in the structure. *)
Definition closing_accounts (g : gls) : Prop :=
  forall i, In i [id_sales; id_cos; id_gross_profit; id_inc_sum; id_ret_earnings] -> exists a, deref g i = Some a.
(** What is wrong with a transaction of the year for the year-end closing: an
    unknown top account is noticed only if the closing gets so far as to ask for
    its type. *)
Definition not_trading (g : gls) (o : option string) : Prop := forall n, o = Some n -> ~ trading_account g n.
Inductive closing_fault (g : gls) (t : tx) : exn -> Prop :=
| credit_missing e : account_fault g (tx_cr t) e -> e <> AttributeError -> closing_fault g t e
| debit_missing e : account_fault g (tx_cr t) AttributeError \/ good_account g (tx_cr t) ->
    account_fault g (tx_dt t) e -> e <> AttributeError -> closing_fault g t e
| credit_unknown : account_fault g (tx_cr t) AttributeError ->
    account_fault g (tx_dt t) AttributeError \/ good_account g (tx_dt t) /\ not_trading g (tx_dt t) -> closing_fault g t AttributeError
| debit_unknown n : tx_cr t = Some n -> known g n -> not_trading g (tx_cr t) -> ~ has_type g n Revenue ->
    account_fault g (tx_dt t) AttributeError -> closing_fault g t AttributeError.
