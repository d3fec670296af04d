(** Vocabulary: a ledger with float amounts and the exact ledger behind it. *)
From Verif Require Import Prelude M_Dates M_Accounts M_Ledger Spec_Ledger M_Ieee Spec_Ieee M_FloatReports.
From Coq Require Import Reals Qreals.
Open Scope string_scope.

(** The same ledger over exact numbers. *)
Definition exact_ledger (l : fledger) : ledger := mkledger (fl_structure l) (map fst (fl_txs l)).
(** Every float amount is a number, and it is the transaction's amount. *)
Definition faithful (l : fledger) : Prop :=
  Forall (fun p => finite (snd p) /\ value (snd p) = Q2R (tx_amount (fst p))) (fl_txs l).
(** The float amounts of the postings on account [s], once for each side. *)
Definition on_account (s : string) (l : list (tx * float64)) : list float64 :=
  flat_map (fun p => ((if is_acc (tx_cr (fst p)) s then [snd p] else []) ++ (if is_acc (tx_dt (fst p)) s then [snd p] else []))%list) l.
Definition fupto (fin : pytime) (l : list (tx * float64)) : list (tx * float64) := filter (fun p => py_leb (tx_date (fst p)) fin) l.
Definition fselected (start fin : pytime) (path : string) (l : list (tx * float64)) : list (tx * float64) :=
  filter (fun p => starts_with (str_of (tx_source (fst p))) path && py_leb start (tx_date (fst p)) && py_leb (tx_date (fst p)) fin)%bool l.
Definition foperating (l : list (tx * float64)) : list (tx * float64) :=
  filter (fun p => negb (tx_closing_cr (fst p)) && negb (tx_closing_dt (fst p)))%bool l.
(** A printed float line against the exact line of the same account: off by at
    most the accumulated rounding of the account's postings. *)
Definition line_close (ts : list (tx * float64)) (e : string * Qc) (f : string * float64) : Prop :=
  fst f = fst e /\
  (finite (snd f) -> (Rabs (value (snd f) - Q2R (snd e)) <= gamma (Nat.pred (length (on_account (fst e) ts))) * exact_turnover (on_account (fst e) ts))%R).
(** A float against an exact number, off by at most the accumulated rounding of
    adding every amount of [ts] [k] times. *)
Definition close_to (k : nat) (ts : list (tx * float64)) (e : Qc) (f : float64) : Prop :=
  finite f -> (Rabs (value f - Q2R e) <= gamma (k * length ts) * (INR k * exact_turnover (map snd ts)))%R.
(** Both computations end in the same way: both with a result, and the results
    are related, or both with the same exception. *)
Definition agree {A B} (R : A -> B -> Prop) (x : res A) (y : res B) : Prop :=
  match x, y with Ok a, Ok b => R a b | Err e, Err e' => e = e' | _, _ => False end.
(** Every amount is a whole multiple of [2^e] (0 for whole units of currency). *)
Definition multiples (e : Z) (ts : list (tx * float64)) : Prop :=
  forall p, In p ts -> exists k : Z, value (snd p) = (IZR k * Flocq.Core.Raux.bpow Flocq.Core.Zaux.radix2 e)%R.
(** The float is the exact number, without any rounding. *)
Definition exact_as (e : Qc) (f : float64) : Prop := finite f /\ value f = Q2R e.
Definition exact_line (e : string * Qc) (f : string * float64) : Prop := fst f = fst e /\ exact_as (snd e) (snd f).
