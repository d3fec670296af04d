(** Vocabulary for stating properties of business models. *)
From Verif Require Import Prelude M_Dates M_Accounts M_Ledger M_Business Spec_Dates Spec_Accounts Spec_Ledger.
Open Scope string_scope.

(** An activity that has never been prepared. *)
Definition fresh (a : activity) : Prop := ac_start_ix a = (-1)%Z /\ ac_end_ix a = (-1)%Z /\ ac_count a = (-1)%Z.

(** i is the first of the periods 0..n-1 that is dated after t. *)
Definition first_period_after (c : clock) (t : datetime) (n i : Z) : Prop :=
  (0 <= i < n)%Z /\ (exists d, datetime_at c i = Ok d /\ dt_ltb t d = true) /\
  (forall j, (0 <= j < i)%Z -> exists d, datetime_at c j = Ok d /\ dt_ltb t d = false).
Definition some_period_after (c : clock) (t : datetime) (n : Z) : Prop := exists i, first_period_after c t n i.

(** The activity can post at all: positive amount (and duration, for a loan). *)
Definition active (a : activity) : bool :=
  match ac_kind a with
  | KBasic _ _ amount => qpos amount
  | KLoan l => qpos (ln_amount l) && (0 <? ln_duration l)%Z
  end.

(** All activities of a component, in the order in which they run. *)
Fixpoint acts_of (k : comp) : list activity :=
  let 'Comp _ _ _ ss aa := k in (flat_map acts_of ss ++ aa)%list.
Definition entity_acts (e : entity) : list activity := flat_map acts_of (en_comps e).

(** The clock c showing period i. *)
Definition clock_at (c : clock) (i : Z) : clock := mkclock (ck_start c) (ck_period c) i.

(** The transaction a basic activity posts at time [now]. *)
Definition basic_tx (a : activity) (now : datetime) (dt cr : string) (amount : Qc) : tx :=
  mktx (match ac_desc a with Some d => d | None => ac_name a end) (Some "") (PDateTime now)
       (Some dt) (Some cr) (Some (ac_path a)) amount false false.

(** What a loan posts when it executes for the k-th time (k = 0, 1, ...) at
    [now], when [left] is outstanding. *)
Definition loan_tx (a : activity) (now : datetime) (desc dt cr : string) (amount : Qc) : tx :=
  mktx (match ac_desc a with Some d => d | None => ac_name a end) (Some desc) (PDateTime now)
       (Some dt) (Some cr) (Some (ac_path a)) amount false false.

Definition all_basic (e : entity) : Prop := forall a, In a (entity_acts e) -> exists dt cr v, ac_kind a = KBasic dt cr v.

(** An entity and its components as a user builds them.  Components are
    addressed by their positions, outermost first. *)
Inductive comp_op :=
| CName (n : string) | CCreate (n : string) | CRemove (n : string)
| CAdd (a : activity) | CActName (j : nat) (n : string).
Inductive ent_op :=
| EName (n : string) | EParent (v : string) | ECreate (n : string) | ERemove (n : string)
| EAt (i : nat) (addr : list nat) (o : comp_op).

Fixpoint upd_nth {A} (i : nat) (f : A -> A) (l : list A) : list A :=
  match l, i with
  | [], _ => []
  | x :: r, O => f x :: r
  | x :: r, S i' => x :: upd_nth i' f r
  end.
Definition comp_step (g : gls) (o : comp_op) (k : comp) : comp :=
  match o with
  | CName n => comp_set_name n k
  | CCreate n => create_component n k
  | CRemove n => remove_component n k
  | CAdd a => match add_activity g a k with Ok k' => k' | Err _ => k end
  | CActName j n => let 'Comp nm pp p ss aa := k in Comp nm pp p ss (upd_nth j (act_set_name n) aa)
  end.
Fixpoint comp_at (addr : list nat) (f : comp -> comp) (k : comp) : comp :=
  match addr with
  | [] => f k
  | i :: r => let 'Comp nm pp p ss aa := k in Comp nm pp p (upd_nth i (comp_at r f) ss) aa
  end.
Definition ent_step (e : entity) (o : ent_op) : entity :=
  match o with
  | EName n => ent_set_name n e
  | EParent v => ent_set_parent v e
  | ECreate n => ent_create_component n e
  | ERemove n => ent_remove_component n e
  | EAt i addr o => with_comps e (upd_nth i (comp_at addr (comp_step (l_structure (en_gl e)) o)) (en_comps e))
  end.
Definition ent_built (name : string) (g : gls) (ops : list ent_op) : entity :=
  fold_left ent_step ops (new_entity name g).

(** k occurs in the list of components, at any depth. *)
Inductive comp_in : list comp -> comp -> Prop :=
| comp_in_here l k : In k l -> comp_in l k
| comp_in_deep l k d : In k l -> comp_in (c_subs k) d -> comp_in l d.

(** Periods that bound an activity's window: the period with which it starts
    and the period that ends it (of n modelled periods). *)
Definition start_period (c : clock) (a : activity) (n s : Z) : Prop :=
  (ac_start a = dt_min /\ s = 0%Z) \/ (ac_start a <> dt_min /\ first_period_after c (ac_start a) n s).
Definition end_period (c : clock) (a : activity) (n s e : Z) : Prop :=
  (ac_end a <> dt_max /\ first_period_after c (ac_end a) n e) \/
  ((ac_end a = dt_max \/ ~ some_period_after c (ac_end a) n) /\ e = (s + n)%Z).

(** Start of the k-th year (k = 0, 1, ...) of a run that starts at s. *)
Fixpoint year_start (s : datetime) (k : nat) : res datetime :=
  match k with O => Ok s | S j => do y <- year_start s j; add_years y 1 end.
(** The k-th year, from its start up to one second before the next one. *)
Definition year_window (s : datetime) (k : nat) (w : datetime * datetime) : Prop :=
  year_start s k = Ok (fst w) /\ exists y, year_start s (S k) = Ok y /\ add_us y (-1000000) = Ok (snd w).
Definition in_window (w : datetime * datetime) (d : datetime) : Prop :=
  dt_leb (fst w) d = true /\ dt_leb d (snd w) = true.

(** Credits minus debits of account s. *)
Definition net_credit (l : list tx) (s : string) : Qc := (credits l s - debits l s)%Qc.

(** The transactions of a year. *)
Definition of_year (ys ye : datetime) (l : list tx) : list tx :=
  filter (fun t => py_leb (PDateTime ys) (tx_date t) && py_leb (tx_date t) (PDateTime ye)) l.

(** s names an account strictly below Sales or below Cost of Sales. *)
Definition trading_account (g : gls) (s : string) : Prop :=
  exists a top, get_account g s = Ok (Some a) /\ (deref g id_sales = Some top \/ deref g id_cos = Some top) /\ below top a.

(** Every transaction refers to existing accounts, at most one of them an income
    statement account. *)
Definition simple_entries (g : gls) (l : list tx) : Prop :=
  forall t, In t l -> exists_account g (tx_dt t) /\ exists_account g (tx_cr t) /\
                      (income_account g (tx_dt t) = false \/ income_account g (tx_cr t) = false).

(** The same as a test, and the net credit of all such accounts. *)
Definition trading (g : gls) (o : option string) : bool :=
  match o with
  | None => false
  | Some s => match get_account g s with
              | Ok (Some a) =>
                  let under i := match deref g i with Some top => existsb (fun d => Nat.eqb (a_id a) (a_id d)) (account_descendants top) | None => false end in
                  under id_sales || under id_cos
              | _ => false
              end
  end.
Definition gross_net_credit (g : gls) (l : list tx) : Qc :=
  (Qcsum (map tx_amount (filter (fun t => trading g (tx_cr t)) l)) -
   Qcsum (map tx_amount (filter (fun t => trading g (tx_dt t)) l)))%Qc.

(** v if the strings are equal, else 0 *)
Definition at_account (x s : string) (v : Qc) : Qc := if (x =? s)%string then v else 0%Qc.
