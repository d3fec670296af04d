(** Vocabulary for windows that are changed between runs and for filtered reports. *)
From Verif Require Import Prelude M_Dates M_Accounts M_Ledger M_Business Spec_Dates Spec_Accounts Spec_Ledger Spec_Business Spec_Loan.
Open Scope string_scope.

(** Assigning the end_datetime attribute (structure.py:44). *)
Definition act_set_end (t : datetime) (a : activity) : activity :=
  mkact (ac_name a) (ac_desc a) (ac_ppath a) (ac_path a) (ac_start a) t (ac_interval a)
        (ac_start_ix a) (ac_end_ix a) (ac_count a) (ac_kind a).
(** The transaction was posted below the component with path [p]. *)
Definition posted_below (p : string) (t : tx) : Prop := exists y, tx_source t = Some (p ++ "/" ++ y).
(** The transaction is dated in the period of the report. *)
Definition dated (start fin : pytime) (t : tx) : Prop := py_leb start (tx_date t) = true /\ py_leb (tx_date t) fin = true.
