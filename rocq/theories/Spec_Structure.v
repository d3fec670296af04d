(** Independent vocabulary for the structure report (C53): a depth-first listing
    in the order of the numbers. *)
From Verif Require Import Prelude M_Accounts M_Ledger.
From Coq Require Import Permutation Sorted.
Local Open Scope string_scope.

(** [a] comes before or ties with [b] in the order of the characters' codes. *)
Fixpoint text_le (a b : string) : Prop :=
  match a, b with
  | EmptyString, _ => True
  | String _ _, EmptyString => False
  | String x a', String y b' => (nat_of_ascii x < nat_of_ascii y)%nat \/ x = y /\ text_le a' b'
  end.
Definition number_le (a b : acct) : Prop := forall k l, a_number a = Some k -> a_number b = Some l -> text_le k l.
Definition has_number (k : string) (a : acct) : bool := match a_number a with Some l => String.eqb l k | None => false end.
(** The same accounts by number; accounts with one number stay in order. *)
Definition by_number (l s : list acct) : Prop :=
  Permutation s l /\ StronglySorted number_le s /\ forall k, filter (has_number k) s = filter (has_number k) l.
(** The rows of an account: its own, then those of its sub accounts by number.
    The number shown is preceded by that of the account directly above. *)
Inductive rows_of (above : string) : acct -> list gls_row -> Prop :=
| rows_account i n k ty pp p subs sorted rss : by_number subs sorted -> Forall2 (rows_of (k ++ "/")) sorted rss ->
    rows_of above (Acct i n (Some k) ty pp p subs) (mkglsrow ty (above ++ k) n :: concat rss).
Definition begins (c : ascii) (a : acct) : bool := match a_number a with Some (String d _) => Ascii.eqb d c | _ => false end.
(** The report: first the accounts with I, then those with B. *)
Definition structure_rows (g : gls) (rows : list gls_row) : Prop :=
  exists i b ri rb, by_number (filter (begins "I") (g_accounts g)) i /\ by_number (filter (begins "B") (g_accounts g)) b /\
    Forall2 (rows_of "") i ri /\ Forall2 (rows_of "") b rb /\ rows = (concat ri ++ concat rb)%list.
