(** Model of the chart of accounts: auxi/modelling/financial/des.py:24-353. *)
From Verif Require Import Prelude.
Open Scope string_scope.

(** des.py:24-33 AccountType *)
Inductive atype := Asset | Equity | Expense | Liability | Revenue.

Definition atype_eqb (a b : atype) : bool :=
  match a, b with
  | Asset, Asset | Equity, Equity | Expense, Expense | Liability, Liability | Revenue, Revenue => true
  | _, _ => false
  end.

(** des.py:38-56 GeneralLedgerAccount: [a_id] stands for the identity of the
    Python object (accounts are compared by identity, core/objects.py defines no
    __eq__); then _name, number, account_type, the two cached strings
    _parent_path and path, and the list of sub accounts.  The description is
    left out: no modelled code reads it. *)
Inductive acct :=
  Acct (id : nat) (name : string) (number : option string) (ty : atype)
       (pp path : string) (kids : list acct).

Definition a_id (a : acct) := let 'Acct i _ _ _ _ _ _ := a in i.
Definition a_name (a : acct) := let 'Acct _ n _ _ _ _ _ := a in n.
Definition a_number (a : acct) := let 'Acct _ _ n _ _ _ _ := a in n.
Definition a_type (a : acct) := let 'Acct _ _ _ t _ _ _ := a in t.
Definition a_pp (a : acct) := let 'Acct _ _ _ _ p _ _ := a in p.
Definition a_path (a : acct) := let 'Acct _ _ _ _ _ p _ := a in p.
Definition a_kids (a : acct) := let 'Acct _ _ _ _ _ _ k := a in k.

(** des.py:64-77 set_parent_path, _update_childrens_parent_path *)
Fixpoint set_parent_path (v : string) (a : acct) : acct :=
  let 'Acct i n num ty _ _ ks := a in
  let p := v ++ "/" ++ n in
  Acct i n num ty v p (map (set_parent_path p) ks).

(** des.py:83-90 name.setter *)
Definition rename (v : string) (a : acct) : acct :=
  let 'Acct i _ num ty pp _ ks := a in
  let p := if pp =? "" then v else pp ++ "/" ++ v in
  Acct i v num ty pp p (map (set_parent_path p) ks).

(** des.py:48-56 __init__ (the name setter runs with an empty parent path) *)
Definition new_account (i : nat) (n : string) (num : option string) (ty : atype) : acct :=
  Acct i n num ty "" n [].

(** des.py:92-107 create_account, [i] is the identity of the new object *)
Definition create_account (i : nat) (n : string) (num : option string) (a : acct) : acct :=
  let 'Acct i0 n0 num0 ty pp p ks := a in
  Acct i0 n0 num0 ty pp p (ks ++ [set_parent_path p (new_account i n num ty)])%list.

(** Remove the last element of a list that satisfies [f]. *)
Fixpoint remove_last {A} (f : A -> bool) (l : list A) : list A :=
  match l with
  | [] => []
  | x :: r => if f x && negb (existsb f r) then r else x :: remove_last f r
  end.

(** des.py:109-121 remove_account: the loop keeps the last match; list.remove
    then removes that object. *)
Definition remove_account (n : string) (a : acct) : acct :=
  let 'Acct i0 n0 num0 ty pp p ks := a in
  Acct i0 n0 num0 ty pp p (remove_last (fun k => a_name k =? n) ks).

(** str.split('/', 1): the text before the first slash, and the text after it
    if there is a slash. *)
Fixpoint split_slash (s : string) : string * option string :=
  match s with
  | EmptyString => ("", None)
  | String c r => if Ascii.eqb c "/" then ("", Some r)
                  else let (h, t) := split_slash r in (String c h, t)
  end.

(** des.py:123-142 get_child_account with __getitem__ (58-59): the first child
    with the name, IndexError if there is none. *)
Fixpoint get_child_account (a : acct) (s : string) {struct a} : res acct :=
  let 'Acct _ _ _ _ _ _ ks := a in
  let (h, rest) := split_slash s in
  (fix go (l : list acct) : res acct :=
     match l with
     | [] => Err IndexError
     | k :: l' => if a_name k =? h
                  then match rest with None => Ok k | Some r => get_child_account k r end
                  else go l'
     end) ks.

(** des.py:196-252 GeneralLedgerStructure: the top-level accounts, and the
    identity given to the next account object. *)
Record gls := mkgls { g_accounts : list acct; g_next : nat }.

(** des.py:264-277 _create_account_ *)
Definition create_top (n : string) (num : option string) (ty : atype) (g : gls) : gls :=
  mkgls (g_accounts g ++ [new_account (g_next g) n num ty])%list (S (g_next g)).

(** Apply a method to the account object with identity [i]. *)
Fixpoint update_acct (i : nat) (f : acct -> acct) (a : acct) : acct :=
  let 'Acct i0 n0 num0 ty pp p ks := a in
  if Nat.eqb i0 i then f a else Acct i0 n0 num0 ty pp p (map (update_acct i f) ks).

Definition update_gls (i : nat) (f : acct -> acct) (g : gls) : gls :=
  mkgls (map (update_acct i f) (g_accounts g)) (g_next g).

(** The operations on a chart of accounts. *)
Inductive gls_op :=
| OCreateTop (n : string) (num : option string) (ty : atype)
| OCreate (i : nat) (n : string) (num : option string)
| ORename (i : nat) (n : string)
| ORemove (i : nat) (n : string).

Definition gls_step (g : gls) (o : gls_op) : gls :=
  match o with
  | OCreateTop n num ty => create_top n num ty g
  | OCreate i n num =>
      let g' := update_gls i (create_account (g_next g) n num) g in mkgls (g_accounts g') (S (g_next g))
  | ORename i n => update_gls i (rename n) g
  | ORemove i n => update_gls i (remove_account n) g
  end.

(** des.py:206-250 GeneralLedgerStructure.__init__, in source order; the
    identities are 0, 1, 2, ... in order of creation. *)
Definition default_ops : list gls_op :=
  [ OCreateTop "Unallocated Income Statement" (Some "I05") Revenue (* 0 *);
    OCreateTop "Sales" (Some "I10") Revenue (* 1 *);
    OCreateTop "Cost of Sales" (Some "I15") Expense (* 2 *);
    OCreateTop "Other Income" (Some "I20") Revenue (* 3 *);
    OCreateTop "Expense" (Some "I25") Expense (* 4 *);
    OCreateTop "Tax" (Some "I30") Expense (* 5 *);
    OCreateTop "Dividends" (Some "I35") Expense (* 6 *);
    OCreateTop "Share Capital" (Some "B10") Asset (* 7 *);
    OCreateTop "Retained Income" (Some "B15") Equity (* 8 *);
    OCreateTop "Shareholders Loan" (Some "B20") Liability (* 9 *);
    OCreateTop "Long Term Borrowing" (Some "B25") Liability (* 10 *);
    OCreateTop "Other Long Term Liabilities" (Some "B30") Liability (* 11 *);
    OCreateTop "Fixed Assets" (Some "B35") Asset (* 12 *);
    OCreateTop "Investments" (Some "B40") Asset (* 13 *);
    OCreateTop "Other Fixed Assets" (Some "B45") Asset (* 14 *);
    OCreateTop "Inventory" (Some "B50") Asset (* 15 *);
    OCreateTop "Accounts Receivable" (Some "B55") Asset (* 16 *);
    OCreateTop "Bank" (Some "B60") Asset (* 17 *);
    OCreate 17 "Default" (Some "0000") (* 18 *);
    OCreateTop "Other Current Assets" (Some "B65") Asset (* 19 *);
    OCreateTop "Account Payable" (Some "B70") Liability (* 20 *);
    OCreateTop "Taxation" (Some "B75") Liability (* 21 *);
    OCreateTop "Other Current Liabilities" (Some "B80") Liability (* 22 *);
    OCreate 0 "Gross Profit" (Some "0000") (* 23 *);
    OCreate 0 "Income Summary" (Some "0010") (* 24 *);
    OCreate 8 "Retained Earnings" (Some "0000") (* 25 *);
    OCreate 5 "Income Tax Expense" (Some "0000") (* 26 *) ].

Definition empty_gls : gls := mkgls [] 0.
Definition default_gls : gls := fold_left gls_step default_ops empty_gls.

(** Identities of the accounts the structure keeps references to. *)
Definition id_sales : nat := 1.            (* _acci_sales_, des.py:215 *)
Definition id_cos : nat := 2.              (* _acci_cos_, des.py:216 *)
Definition id_gross_profit : nat := 23.    (* _acci_gross_prof_, des.py:243 *)
Definition id_inc_sum : nat := 24.         (* _acci_inc_sum_, des.py:245 *)
Definition id_ret_earnings : nat := 25.    (* _accb_ret_earnings_acc_, des.py:247 *)

(** des.py:254-259 __getitem__ of the structure: first match or None *)
Definition top_item (g : gls) (n : string) : option acct :=
  find (fun a => a_name a =? n) (g_accounts g).

(** des.py:279-298 get_account *)
Definition get_account (g : gls) (s : string) : res (option acct) :=
  let (h, rest) := split_slash s in
  match rest with
  | Some r => match top_item g h with
              | None => Ok None
              | Some a => do x <- get_child_account a r; Ok (Some x)
              end
  | None => Ok (top_item g s)
  end.

(** des.py:315-325 _get_account_and_descendants_ *)
Fixpoint acct_and_descendants (a : acct) : list acct :=
  let 'Acct _ _ _ _ _ _ ks := a in a :: flat_map acct_and_descendants ks.

(** des.py:300-313 get_account_descendants *)
Definition account_descendants (a : acct) : list acct := flat_map acct_and_descendants (a_kids a).

(** des.py:327-339 validate_account_names *)
Definition validate_account_names (g : gls) (names : list string) : res unit :=
  foldM (fun _ n => do a <- get_account g n;
                    match a with None => Err ValueError | Some _ => Ok tt end) names tt.

(** All accounts of the structure. *)
Definition all_accounts (g : gls) : list acct := flat_map acct_and_descendants (g_accounts g).

(** The account object with identity [i] (the value of a Python reference such
    as gls._acci_sales_). *)
Definition deref (g : gls) (i : nat) : option acct :=
  find (fun a => Nat.eqb (a_id a) i) (all_accounts g).
