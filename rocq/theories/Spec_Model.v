(** Independent vocabulary for C76 to C78. *)
From Verif Require Import Prelude M_Dates M_Accounts M_Ledger M_Business M_Model Spec_Business.
Local Open Scope string_scope.
Local Open Scope list_scope.

(** A model as a user builds it. *)
Inductive model_op :=
| MName (n : string) | MCreate (n : string) (g : gls) | MRemove (n : string) | MAt (i : nat) (o : ent_op).
Definition model_step (m : tbm) (o : model_op) : tbm :=
  match o with
  | MName n => md_set_name n m
  | MCreate n g => md_create_entity n g m
  | MRemove n => md_remove_entity n m
  | MAt i o => mktbm (md_name m) (md_clock m) (md_count m) (upd_nth i (fun e => ent_step e o) (md_ents m))
  end.
Definition model_built (name : string) (start : datetime) (p : period) (n : Z) (ops : list model_op) : tbm :=
  fold_left model_step ops (new_model name start p n).
(** The user does not move entities by hand. *)
Definition no_moves (ops : list model_op) : Prop := Forall (fun o => match o with MAt _ (EParent _) => False | _ => True end) ops.

(** [under v l w k]: [k] is somewhere below the owner with path [v] of the
    components [l], and [w] is the path of its direct owner. *)
Inductive under : string -> list comp -> string -> comp -> Prop :=
| under_here v l k : In k l -> under v l v k
| under_deep v l k w d : In k l -> under (c_path k) (c_subs k) w d -> under v l w d.

(** [x] is the first, or the last, of [l] with the name [n]. *)
Definition first_named {A} (name : A -> string) (n : string) (l : list A) (x : A) : Prop :=
  exists before after, l = before ++ x :: after /\ name x = n /\ forall y, In y before -> name y <> n.
Definition without_last {A} (name : A -> string) (n : string) (l l' : list A) : Prop :=
  (~ In n (map name l) /\ l' = l) \/ exists before x after, l = before ++ x :: after /\ name x = n /\ ~ In n (map name after) /\ l' = before ++ after.

(** The amount and the rate after some assignments. *)
Definition final_amount (ts : list term) (v : Qc) : Qc := fold_left (fun v t => match t with SetAmount x => x | _ => v end) ts v.
Definition final_rate (ts : list term) (v : Qc) : Qc := fold_left (fun v t => match t with SetRate x => x | _ => v end) ts v.
Definition final_duration (ts : list term) (n : Z) : Z := fold_left (fun v t => match t with SetDuration x => x | _ => v end) ts n.
Definition keeps_duration (ts : list term) : Prop := Forall (fun t => match t with SetDuration _ => False | _ => True end) ts.
