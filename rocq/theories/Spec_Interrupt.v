(** Independent vocabulary for C91: what a user does with a model between two
    runs, and which of it a run sees. *)
From Verif Require Import Prelude M_Dates M_Accounts M_Ledger M_Business M_Model M_Interrupt Spec_Business Spec_Model.
Local Open Scope string_scope.
Local Open Scope list_scope.

(** Changes to one activity: its name, a basic activity's accounts and amount,
    a loan's amount, rate and duration (an assignment that raises is not
    considered). *)
Inductive act_edit := ARename (n : string) | ABasic (dt cr : string) (v : Qc) | ATerms (ts : list term).
Definition edit_act (x : act_edit) (a : activity) : activity :=
  match x with
  | ARename n => act_set_name n a
  | ABasic dt cr v => match ac_kind a with KBasic _ _ _ => with_kind a (KBasic dt cr v) | KLoan _ => a end
  | ATerms ts => match set_terms ts a with Ok a' => a' | Err _ => a end
  end.

Definition edit_comp (j : nat) (x : act_edit) (k : comp) : comp :=
  let 'Comp nm pp p ss aa := k in Comp nm pp p ss (upd_nth j (edit_act x) aa).
Definition edit_ent (f : entity -> entity) (i : nat) (m : tbm) : tbm :=
  mktbm (md_name m) (md_clock m) (md_count m) (upd_nth i f (md_ents m)).
Definition ent_gl (f : ledger -> ledger) (e : entity) : entity :=
  mkent (en_name e) (en_ppath e) (en_path e) (f (en_gl e)) (en_comps e) (en_count e) (en_prev e) (en_curr e) (en_exec e).

(** What a user does with a model: build it (model_op: names, entities,
    components, activities), change activities, change the account structure of
    an entity to [g], post a transaction by hand, tick or reset the clock,
    prepare the model, run it.  Runs and preparations may fail; the user goes on
    with the model as the exception left it. *)
Inductive act :=
| HBuild (o : model_op)
| HActivity (i j : nat) (addr : list nat) (n : nat) (x : act_edit)
| HStructure (i : nat) (g : gls)
| HPost (i : nat) (t : tx)
| HTick | HReset | HPrepare | HRun.

Definition do_act (m : tbm) (h : act) : tbm :=
  match h with
  | HBuild o => model_step m o
  | HActivity i j addr n x =>
      edit_ent (fun e => with_comps e (upd_nth j (comp_at addr (edit_comp n x)) (en_comps e))) i m
  | HStructure i g => edit_ent (ent_gl (fun l => mkledger g (l_txs l))) i m
  | HPost i t => edit_ent (ent_gl (fun l => mkledger (l_structure l) (l_txs l ++ [t]))) i m
  | HTick => mktbm (md_name m) (tick (md_clock m)) (md_count m) (md_ents m)
  | HReset => mktbm (md_name m) (reset (md_clock m)) (md_count m) (md_ents m)
  | HPrepare => fst (prepare_model_out m)
  | HRun => fst (run_out m)
  end.
Definition after (m : tbm) (hs : list act) : tbm := fold_left do_act hs m.

(** The part of a history that sets the model up. *)
Definition setting (h : act) : bool :=
  match h with HBuild _ | HActivity _ _ _ _ _ | HStructure _ _ => true | _ => false end.

(** The transactions of every entity. *)
Definition books (m : tbm) : list (list tx) := map (fun e => l_txs (en_gl e)) (md_ents m).

(** The horizon of a model cannot be dated: the end of its last period, or the
    end of its first year, is after year 9999. *)
Definition no_horizon (m : tbm) (e : exn) : Prop :=
  datetime_at (md_clock m) (md_count m) = Err e \/
  (is_ok (datetime_at (md_clock m) (md_count m)) = true /\ add_years (ck_start (md_clock m)) 1 = Err e).

(** [m'] is the state after a run of [m] that raised [e] in period [k] while the
    year of an entity was being closed.  [k] periods had been completed, giving
    [mk]; in period [k] the entities [before] had been run, the activities of
    [x] had all been run, and the year that ends before [y] could not be closed. *)
Definition failed_closing (m m' : tbm) (e : exn) : Prop :=
  exists k p mk before x after before' x' now ye,
    (0 <= Z.of_nat k < md_count m)%Z /\
    prepare_model m = Ok p /\ run_periods k p = Ok mk /\
    md_ents mk = before ++ x :: after /\ md_ents m' = before' ++ x' :: after /\
    ck_ix (md_clock m') = Z.of_nat k /\ md_clock m' = md_clock mk /\
    Forall2 (fun a b => run_entity (md_clock mk) a = Ok b) before before' /\
    traverse (run_comp (md_clock mk)) (en_comps x) (en_gl x) = Ok (en_gl x', en_comps x') /\
    datetime_at (md_clock m) (Z.of_nat k) = Ok now /\ dt_leb (en_curr x) now = true /\
    add_us (en_curr x) (-1000000) = Ok ye /\
    (add_years (en_curr x) 1 = Err e \/
     (is_ok (add_years (en_curr x) 1) = true /\
      close_year (l_structure (en_gl x')) (en_path x') (l_txs (en_gl x')) (en_prev x) ye = Err e)).
