(** Property C96: activity and ledger structure objects that several owners
    hold, auxi/modelling/business. *)
From Verif Require Import Prelude M_Dates M_Accounts M_Ledger M_Business M_Shared Spec_Dates Spec_Business Spec_Shared
  P_Business P_Shared P_Shared2 Properties_Ledger Properties_Business.
Local Open Scope string_scope.
Local Open Scope list_scope.

(** C96: running a model whose components share activities, and whose entities
    share structures, does what running the model with separate copies does,
    as long as no loan is in two places. *)
Theorem C96_run : forall name start p n ops, let s := shared_built name start p n ops in
  loans_once s -> run_model (own s) = do s' <- run_shared s; Ok (own s').
Proof. exact (fun name start p n ops => run_own _ (built_sound name start p n ops)). Qed.
Print Assumptions C96_run.

(** An activity that is added once lies below the component that holds it,
    whatever is renamed, created or removed before and afterwards. *)
Theorem C96_paths : forall name start p n ops e, added_once ops ->
  In e (sh_ents (shared_built name start p n ops)) ->
  se_path e = (se_ppath e ++ "/" ++ se_name e)%string /\
  forall w k, s_under (se_path e) (se_comps e) w k -> sc_path k = (w ++ "/" ++ sc_name k)%string /\
    forall i, In i (sc_acts k) -> let a := hget (sh_acts (shared_built name start p n ops)) i in ac_path a = (sc_path k ++ "/" ++ ac_name a)%string.
Proof. exact built_paths. Qed.
Print Assumptions C96_paths.

(** Everything done to a structure object shows in every entity that holds it,
    and nothing done to another structure does. *)
Theorem C96_structures : forall name start p n ops more e, let s := shared_built name start p n ops in let s' := fold_left shared_step more s in
  In e (sh_ents s) ->
  l_structure (en_gl (own_entity (sh_acts s') (sh_books s') e)) = fold_left gls_step (book_ops (se_book e) more) (l_structure (en_gl (own_entity (sh_acts s) (sh_books s) e))).
Proof. exact structures_shared. Qed.
Print Assumptions C96_structures.

(** The component to which an activity is added last gives it its path: in the
    other components that hold it, its path, hence the source of its
    transactions, is not below them. *)
Theorem C96_shared_source_refuted : forall s e i addr a x k, nth_error (sh_ents s) e = Some x -> comp_of e i addr s = Some k -> (a < length (sh_acts s))%nat ->
  is_ok (validate_account_names (book (sh_books s) (se_book x)) (referenced_accounts (hget (sh_acts s) a))) = true ->
  let b := hget (sh_acts (shared_step s (SAdd e i addr a))) a in ac_path b = (sc_path k ++ "/" ++ ac_name b)%string /\ ac_name b = ac_name (hget (sh_acts s) a) /\
    forall q, q <> sc_path k -> ac_path b <> (q ++ "/" ++ ac_name b)%string.
Proof. exact last_owner'. Qed.
Print Assumptions C96_shared_source_refuted.

(** C96 is false for a loan in two places: both places are served from the same
    loan, so in its first period the second place already pays. *)
Theorem C96_shared_loan_refuted : forall c now l h i n, (i < length h)%nat ->
  ac_kind (hget h i) = KLoan n -> ln_months n = 0%Z -> ac_interval (hget h i) <> 0%Z -> criteria (hget h i) (ck_ix c) = true -> get_datetime c = Ok now ->
  exists l' h' t1 t2 t3, foldM (run_ref c) [i; i] (l, h) = Ok (l', h') /\ l_txs l' = l_txs l ++ [t1; t2; t3] /\
    tx_desc t1 = Some "Make a loan" /\ tx_desc t2 = Some "Consider interest" /\ tx_desc t3 = Some "Pay principle".
Proof. exact shared_loan. Qed.
Print Assumptions C96_shared_loan_refuted.

Definition bond1 : activity := bond (mkdt 2016 1 1 0).
Definition two_shops (a : activity) : list shared_op :=
  [SNewActivity a; SNewActivity buy; SNewBook; SCreateEntity "Co" 0; SCreateEntity "Sub" 0; SCreate 0 "north"; SCreate 1 "south"; SSubCreate 0 0 [] "till"; SAdd 0 0 [0%nat] 0; SAdd 1 0 [] 1; SAdd 1 0 [] 0].
Example C96_case : let s := shared_built "m" day0 Pmonth 3 (two_shops sell ++ [SName "grp"; SBook 0 (OCreateTop "Wages" None Expense); SBook 0 (OCreate 4 "Rent" None)]) in
  loans_once s /\ places s = [0; 1; 0]%nat /\
  (exists s', run_shared s = Ok s' /\ map (fun t => tx_source t) (flat_map se_txs (sh_ents s')) =
     [Some "grp/Sub/south/sell"; Some "grp/Sub/south/sell"; Some "grp/Sub/south/sell"; Some "grp/Sub/south/sell"; Some "grp/Sub/south/sell"; Some "grp/Sub/south/sell"]).
Proof.
  split; [|split; [vm_compute; reflexivity|]].
  - unfold loans_once. replace (filter _ _) with (@nil nat) by (vm_compute; reflexivity). constructor.
  - eexists. split; [vm_compute; reflexivity|vm_compute; reflexivity].
Qed.
Example C96_paths_case : let ops := [SNewActivity sell; SNewActivity buy; SNewBook; SCreateEntity "Co" 0; SCreate 0 "north"; SSubCreate 0 0 [] "till"; SAdd 0 0 [0%nat] 0; SActName 0 "retail"; SCompName 0 0 [] "south"; SAdd 0 0 [] 1; SEntName 0 "Co2"; SName "grp"] in
  added_once ops /\ map ac_path (sh_acts (shared_built "m" day0 Pmonth 3 ops)) = ["grp/Co2/south/till/retail"; "grp/Co2/south/buy"].
Proof. split; [|vm_compute; reflexivity]. change (NoDup [0; 1]%nat). constructor; [intros [E|[]]; discriminate|]. constructor; [intros []|constructor]. Qed.
Example C96_structures_case : let s := shared_built "m" day0 Pmonth 3 (two_shops sell) in
  let more := [SBook 0 (OCreateTop "Wages" None Expense)] in
  map (fun e => is_ok (validate_account_names (l_structure (en_gl e)) ["Wages"])) (md_ents (own s)) = [false; false] /\
  map (fun e => is_ok (validate_account_names (l_structure (en_gl e)) ["Wages"])) (md_ents (own (fold_left shared_step more s))) = [true; true].
Proof. split; vm_compute; reflexivity. Qed.
(** The second entity pays back a loan that it has never received. *)
Example C96_loan_case : exists s', run_shared (shared_built "m" day0 Pmonth 3 (two_shops bond1)) = Ok s' /\
  map (fun e => map tx_desc (se_txs e)) (sh_ents s') =
    [[Some "Make a loan"; Some "Consider interest"; Some "Pay principle"];
     [Some "Consider interest"; Some "Pay principle"; Some "Consider interest"; Some "Pay principle"]].
Proof. eexists. split; [vm_compute; reflexivity|]. vm_compute. reflexivity. Qed.
