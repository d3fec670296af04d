(** Parts of auxi/modelling/business that only a user's script calls: looking up
    entities and components by name, and changing a loan's terms one after the
    other. *)
From Verif Require Import Prelude M_Dates M_Accounts M_Ledger M_Business.
Local Open Scope string_scope.

(** structure.py:292-293 Entity.__getitem__ (137-141 are Component's
    get_component and get_activity). *)
Definition ent_get_component (n : string) (e : entity) : res comp :=
  match filter (fun s => c_name s =? n) (en_comps e) with x :: _ => Ok x | [] => Err IndexError end.
(** models.py:114-115 TimeBasedModel.__getitem__ *)
Definition md_get_entity (n : string) (m : tbm) : res entity :=
  match filter (fun s => en_name s =? n) (md_ents m) with x :: _ => Ok x | [] => Err IndexError end.

(** Assignments to the attributes of a BasicLoanActivity (basic.py:200-217). *)
Inductive term := SetAmount (v : Qc) | SetRate (v : Qc) | SetDuration (n : Z).
Definition set_term (l : loan) (t : term) : res loan :=
  match t with SetAmount v => loan_set_amount v l | SetRate v => loan_set_rate v l | SetDuration n => Ok (loan_set_duration n l) end.
Definition set_terms (ts : list term) (a : activity) : res activity :=
  match ac_kind a with
  | KLoan l => do l' <- foldM set_term ts l; Ok (with_kind a (KLoan l'))
  | KBasic _ _ _ => Err AttributeError
  end.
