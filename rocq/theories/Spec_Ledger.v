(** Vocabulary for stating ledger and report properties. *)
From Verif Require Import Prelude M_Dates M_Accounts M_Ledger.
Open Scope string_scope.

(** [a <= b] for two dates or two datetimes (false when they are mixed). *)
Definition py_leb (a b : pytime) : bool :=
  Bool.eqb (py_is_dt a) (py_is_dt b) && dt_leb (py_raw a) (py_raw b).

Definition comparable (a b : pytime) : Prop := py_is_dt a = py_is_dt b.

(** Total debited to / credited to account [s] by a list of transactions. *)
Definition is_acc (o : option string) (s : string) : bool := match o with Some n => n =? s | None => false end.
Definition debits (txs : list tx) (s : string) : Qc :=
  Qcsum (map tx_amount (filter (fun t => is_acc (tx_dt t) s) txs)).
Definition credits (txs : list tx) (s : string) : Qc :=
  Qcsum (map tx_amount (filter (fun t => is_acc (tx_cr t) s) txs)).
(** Some transaction debits or credits [s]. *)
Definition touched (txs : list tx) (s : string) : Prop :=
  exists t, In t txs /\ (tx_dt t = Some s \/ tx_cr t = Some s).

(** [s] names an existing account of type [ty]. *)
Definition has_type (g : gls) (s : string) (ty : atype) : Prop :=
  exists a, get_account g s = Ok (Some a) /\ a_type a = ty.
Definition exists_account (g : gls) (o : option string) : Prop :=
  exists s a, o = Some s /\ get_account g s = Ok (Some a).

(** The account is an income statement account (revenue or expense). *)
Definition income_account (g : gls) (o : option string) : bool :=
  match o with
  | None => false
  | Some s => match get_account g s with
              | Ok (Some a) => atype_eqb (a_type a) Revenue || atype_eqb (a_type a) Expense
              | _ => false
              end
  end.

(** Credits minus debits of all revenue and expense accounts. *)
Definition income_net_credit (g : gls) (txs : list tx) : Qc :=
  (Qcsum (map tx_amount (filter (fun t => income_account g (tx_cr t)) txs)) -
   Qcsum (map tx_amount (filter (fun t => income_account g (tx_dt t)) txs)))%Qc.

(** Transactions dated on or before [fin]. *)
Definition upto (fin : pytime) (txs : list tx) : list tx := filter (fun t => py_leb (tx_date t) fin) txs.

(** Transactions selected by source prefix and period. *)
Definition selected (start fin : pytime) (path : string) (txs : list tx) : list tx :=
  filter (fun t => starts_with (str_of (tx_source t)) path &&
                   py_leb start (tx_date t) && py_leb (tx_date t) fin) txs.
(** ... and not part of a closing entry. *)
Definition operating (txs : list tx) : list tx :=
  filter (fun t => negb (tx_closing_cr t) && negb (tx_closing_dt t)) txs.

(** First posting to account [s]: [Some (true, v)] a credit of v, [Some (false,
    v)] a debit (within one transaction the credit comes first). *)
Fixpoint first_posting (s : string) (txs : list tx) : option (bool * Qc) :=
  match txs with
  | [] => None
  | t :: r => if is_acc (tx_cr t) s then Some (true, tx_amount t)
              else if is_acc (tx_dt t) s then Some (false, tx_amount t)
              else first_posting s r
  end.

Definition keys (d : dict) : list string := map fst d.

(** Calls of create_transaction. *)
Record posting := mkposting {
  p_name : string; p_desc : option string; p_date : pytime;
  p_dt : option string; p_cr : option string; p_source : option string; p_amount : Qc }.
Definition post (l : ledger) (p : posting) : ledger :=
  fst (create_transaction l (p_name p) (p_desc p) (p_date p) (p_dt p) (p_cr p) (p_source p) (p_amount p)).
Definition plain (p : posting) : tx :=
  mktx (p_name p) (p_desc p) (p_date p) (p_dt p) (p_cr p) (p_source p) (p_amount p) false false.

(** Not later than. *)
Definition date_le (x y : tx) : Prop := dt_leb (py_raw (tx_date x)) (py_raw (tx_date y)) = true.

(** Every income account is first posted on its normal side: a revenue account
    by a credit, an expense account by a debit. *)
Definition normal_first (g : gls) (ts : list tx) : Prop :=
  forall s, (has_type g s Revenue -> forall v, first_posting s ts <> Some (false, v)) /\
            (has_type g s Expense -> forall v, first_posting s ts <> Some (true, v)).

(** What a row of the structure report shows of an account, besides the number. *)
Definition row_key (r : gls_row) := (gr_type r, gr_name r).
Definition acct_key (a : acct) := (a_type a, a_name a).
Definition numbered (a : acct) : Prop := exists k, a_number a = Some k.
