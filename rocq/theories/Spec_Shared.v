(** Vocabulary for models that share activities and ledger structures. *)
From Verif Require Import Prelude M_Dates M_Accounts M_Ledger M_Business M_Shared.
Local Open Scope list_scope.

(** The same model where every place holds an activity of its own, and every
    entity a ledger structure of its own, equal to the shared ones. *)
Fixpoint own_comp (h : heap) (k : scomp) : comp :=
  let 'SComp n pp p ss aa := k in Comp n pp p (map (own_comp h) ss) (map (hget h) aa).
Definition own_entity (h : heap) (bs : list gls) (e : sentity) : entity :=
  mkent (se_name e) (se_ppath e) (se_path e) (mkledger (book bs (se_book e)) (se_txs e)) (map (own_comp h) (se_comps e))
    (se_count e) (se_prev e) (se_curr e) (se_exec e).
Definition own (s : shared) : tbm :=
  mktbm (sh_name s) (sh_clock s) (sh_count s) (map (own_entity (sh_acts s) (sh_books s)) (sh_ents s)).

(** The places of a model, as addresses of activities, in the order of running. *)
Fixpoint refs (k : scomp) : list nat := let 'SComp _ _ _ ss aa := k in flat_map refs ss ++ aa.
Definition places (s : shared) : list nat := flat_map (fun e => flat_map refs (se_comps e)) (sh_ents s).
Definition is_loan (a : activity) : bool := match ac_kind a with KLoan _ => true | KBasic _ _ _ => false end.
(** No loan is in two places; basic activities may be. *)
Definition loans_once (s : shared) : Prop :=
  NoDup (filter (fun i => is_loan (hget (sh_acts s) i)) (places s)).

(** [s_under v l w k]: [k] is somewhere below the owner with path [v] of the
    components [l], and [w] is the path of its direct owner. *)
Inductive s_under : string -> list scomp -> string -> scomp -> Prop :=
| s_under_here v l k : In k l -> s_under v l v k
| s_under_deep v l k w d : In k l -> s_under (sc_path k) (sc_subs k) w d -> s_under v l w d.
(** The user adds no activity to a component more than once. *)
Definition added_once (ops : list shared_op) : Prop :=
  NoDup (flat_map (fun o => match o with SAdd _ _ _ a => [a] | _ => [] end) ops).
(** What the user does to the structure [b]. *)
Definition book_ops (b : nat) (ops : list shared_op) : list gls_op :=
  flat_map (fun o => match o with SBook c g => if Nat.eqb b c then [g] else [] | _ => [] end) ops.
