(** Vocabulary for stating properties of charts of accounts. *)
From Verif Require Import Prelude M_Accounts.
Open Scope string_scope.

(** [below a d]: d is a sub account of a, at any depth >= 1. *)
Inductive below : acct -> acct -> Prop :=
| below_kid a d : In d (a_kids a) -> below a d
| below_deep a k d : In k (a_kids a) -> below k d -> below a d.

(** a is somewhere in the structure *)
Definition in_structure (g : gls) (a : acct) : Prop :=
  exists t, In t (g_accounts g) /\ (a = t \/ below t a).

(** The operations whose names become top-level names are given non-empty ones. *)
Definition op_names_ok (o : gls_op) : bool :=
  match o with
  | OCreateTop n _ _ => negb (n =? "")
  | ORename _ n => negb (n =? "")
  | _ => true
  end.

(** Structures reachable from the default one. *)
Definition built (ops : list gls_op) : gls := fold_left gls_step ops default_gls.

(** A string without slash. *)
Fixpoint no_slash (s : string) : bool :=
  match s with
  | EmptyString => true
  | String c r => negb (Ascii.eqb c "/") && no_slash r
  end.

(** Names are usable as path components: no slashes, siblings distinct. *)
Definition names_distinct (g : gls) : Prop :=
  (forall a, in_structure g a -> no_slash (a_name a) = true) /\
  NoDup (map a_name (g_accounts g)) /\
  (forall a, in_structure g a -> NoDup (map a_name (a_kids a))).
