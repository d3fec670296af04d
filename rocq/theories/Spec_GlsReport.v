(** Independent vocabulary for C100: what the report on a structure lists. *)
From Verif Require Import Prelude M_Stoichiometry M_Accounts M_Tabulate Spec_Structure.
Local Open Scope string_scope.
Local Open Scope list_scope.

(** An account and those below it, each with the number of the account directly above:
    first the account, then those below it by number. *)
Inductive listed (above : string) : acct -> list (string * acct) -> Prop :=
| listed_account a k sorted rss : a_number a = Some k -> by_number (a_kids a) sorted -> Forall2 (listed (k ++ "/")) sorted rss ->
    listed above a ((above, a) :: concat rss).
(** The whole structure: first the accounts with I, then those with B. *)
Definition listing_of (g : gls) (l : list (string * acct)) : Prop :=
  exists i b ri rb, by_number (filter (begins "I") (g_accounts g)) i /\ by_number (filter (begins "B") (g_accounts g)) b /\
    Forall2 (listed "") i ri /\ Forall2 (listed "") b rb /\ l = concat ri ++ concat rb.
(** What is told of an account: its type in words, its number after that of the account
    above it and a slash, its name, and its description, if it has one. *)
Definition type_word (t : atype) (w : string) : Prop :=
  match t with Asset => w = "asset" | Equity => w = "equity" | Expense => w = "expense" | Liability => w = "liability" | Revenue => w = "revenue" end.
Definition told (description : nat -> option text) (x : string * acct) (cells : list (option text)) : Prop :=
  exists w k, type_word (a_type (snd x)) w /\ a_number (snd x) = Some k /\
    cells = [Some (text_of w); Some (text_of (fst x ++ k)); Some (text_of (a_name (snd x))); description (a_id (snd x))].
(** A cell without text is empty. *)
Definition or_empty (c : option text) : text := match c with Some t => t | None => [] end.
(** float() takes no text that begins, but for white space and a sign, with anything but a
    digit, a point or one of the letters of inf and nan that can come first. *)
Definition begins_a_number (t : text) : Prop :=
  exists a s c r, t = a ++ s ++ c :: r /\ forallb is_space a = true /\ (s = [] \/ s = ["+"%char] \/ s = ["-"%char]) /\
    (is_digit c = true \/ In c ["."; "i"; "I"; "n"; "N"]%char).
Definition reads_no_words (float_of : text -> option pyfloat) : Prop := forall t, float_of t <> None -> begins_a_number t.
