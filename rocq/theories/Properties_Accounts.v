(** Properties C05-C10: the chart of accounts, auxi/modelling/financial/des.py. *)
From Verif Require Import Prelude M_Accounts Spec_Accounts P_Accounts.
Open Scope string_scope.

(** C05: after any history of operations from the default structure, top-level
    paths are names, other paths extend the parent's path, types are inherited. *)
Theorem C05_paths_coherent : forall ops, forallb op_names_ok ops = true ->
  (forall t, In t (g_accounts (built ops)) -> a_path t = a_name t) /\
  (forall a k, in_structure (built ops) a -> In k (a_kids a) ->
     a_path k = a_path a ++ "/" ++ a_name k /\ a_type k = a_type a).
Proof. exact path_coherence. Qed.
Print Assumptions C05_paths_coherent.
Definition sample_ops : list gls_op :=
  [OCreate 17 "FNB" (Some "0001"); OCreate 27 "Current" None; ORename 17 "Cash"; ORename 27 "RMB";
   OCreate 1 "Widgets" None; OCreate 2 "Widgets" None; ORemove 17 "Default"].
Example C05_case : forallb op_names_ok sample_ops = true /\
  map a_path (all_accounts (built sample_ops)) <> [] /\
  In "Cash/RMB/Current" (map a_path (all_accounts (built sample_ops))).
Proof. split; [vm_compute; reflexivity|]. split; [vm_compute; discriminate|]. vm_compute; tauto. Qed.

(** The non-empty-name condition cannot be dropped: with an empty top-level name
    a rename below it breaks the path. *)
Theorem C05_empty_names_refuted : exists ops a k,
  in_structure (built ops) a /\ In k (a_kids a) /\ a_path k <> a_path a ++ "/" ++ a_name k.
Proof. exact empty_name_breaks. Qed.
Print Assumptions C05_empty_names_refuted.

(** C06 *)
Theorem C06_found_by_path : forall ops a, forallb op_names_ok ops = true -> names_distinct (built ops) ->
  in_structure (built ops) a -> get_account (built ops) (a_path a) = Ok (Some a).
Proof. exact lookup_found. Qed.
Print Assumptions C06_found_by_path.
Theorem C06_result_has_the_path : forall ops s a, forallb op_names_ok ops = true ->
  get_account (built ops) s = Ok (Some a) -> in_structure (built ops) a /\ a_path a = s.
Proof. exact lookup_sound. Qed.
Print Assumptions C06_result_has_the_path.
Example C06_case : names_distinct (built sample_ops) /\
  exists a, get_account (built sample_ops) "Cash/RMB/Current" = Ok (Some a) /\ a_id a = 28%nat.
Proof. split; [apply names_distinct_b_spec; vm_compute; reflexivity|]. eexists; split; vm_compute; reflexivity. Qed.

(** C07: the documented None is not always returned ... *)
Theorem C07_missing_account_refuted : exists s,
  ~ (exists a, in_structure default_gls a /\ a_path a = s) /\ get_account default_gls s = Err IndexError.
Proof. exact missing_raises. Qed.
Print Assumptions C07_missing_account_refuted.
(** ... what happens exactly: None if the first path component is no top-level
    account, IndexError otherwise. *)
Theorem C07_missing_account_partial : forall ops s, forallb op_names_ok ops = true -> names_distinct (built ops) ->
  ~ (exists a, in_structure (built ops) a /\ a_path a = s) ->
  ((exists t, In t (g_accounts (built ops)) /\ a_name t = fst (split_slash s)) -> get_account (built ops) s = Err IndexError) /\
  (~ (exists t, In t (g_accounts (built ops)) /\ a_name t = fst (split_slash s)) -> get_account (built ops) s = Ok None).
Proof. exact lookup_absent. Qed.
Print Assumptions C07_missing_account_partial.
Example C07_case : get_account (built sample_ops) "Bank/Default" = Ok None /\
  get_account (built sample_ops) "Cash/Default" = Err IndexError /\ get_account (built sample_ops) "" = Ok None.
Proof. repeat split; vm_compute; reflexivity. Qed.

(** C08 *)
Theorem C08_remove_undoes_create : forall g i n num,
  g_accounts (gls_step (gls_step g (OCreate i n num)) (ORemove i n)) = g_accounts g.
Proof. exact gls_create_remove. Qed.
Print Assumptions C08_remove_undoes_create.
Theorem C08_remove_absent_is_noop : forall g i n,
  (forall a, in_structure g a -> a_id a = i -> forall k, In k (a_kids a) -> a_name k <> n) ->
  gls_step g (ORemove i n) = g.
Proof. exact gls_remove_absent. Qed.
Print Assumptions C08_remove_absent_is_noop.
Theorem C08_remove_takes_the_last_match : forall n a l1 x l2,
  a_kids a = (l1 ++ x :: l2)%list -> a_name x = n -> (forall y, In y l2 -> a_name y <> n) ->
  a_kids (remove_account n a) = (l1 ++ l2)%list.
Proof. exact remove_removes_last. Qed.
Print Assumptions C08_remove_takes_the_last_match.
Example C08_case : (* a second "Default" below Bank, then removed: the first one stays *)
  exists a, get_account (gls_step (gls_step default_gls (OCreate 17 "Default" None)) (ORemove 17 "Default")) "Bank/Default"
            = Ok (Some a) /\ a_id a = 18%nat.
Proof. eexists; split; vm_compute; reflexivity. Qed.

(** C09 *)
Theorem C09_descendants_complete : forall a d, In d (account_descendants a) <-> below a d.
Proof. exact in_descendants. Qed.
Print Assumptions C09_descendants_complete.
Theorem C09_each_once : forall ops a, in_structure (built ops) a -> NoDup (map a_id (account_descendants a)).
Proof. exact descendants_nodup. Qed.
Print Assumptions C09_each_once.
Theorem C09_never_itself : forall a, ~ below a a.
Proof. exact below_irrefl. Qed.
Print Assumptions C09_never_itself.
Theorem C09_parents_first : forall a l1 x l2 k,
  account_descendants a = (l1 ++ x :: l2)%list -> In k (a_kids x) -> In k l2.
Proof. exact parent_first. Qed.
Print Assumptions C09_parents_first.
(** object identities are unique over the whole structure *)
Theorem C09_identities_unique : forall ops, NoDup (map a_id (all_accounts (built ops))).
Proof. exact ids_unique. Qed.
Print Assumptions C09_identities_unique.
Example C09_case : exists a, get_account (built sample_ops) "Cash" = Ok (Some a) /\
  map a_path (account_descendants a) = ["Cash/RMB"; "Cash/RMB/Current"].
Proof. eexists; split; vm_compute; reflexivity. Qed.

(** C10, validation part (the add_activity part is in Properties_Business.v) *)
Theorem C10_validation_accepts_existing_names : forall ops names,
  forallb op_names_ok ops = true -> names_distinct (built ops) ->
  (validate_account_names (built ops) names = Ok tt <->
   forall n, In n names -> exists a, in_structure (built ops) a /\ a_path a = n).
Proof. exact validate_built. Qed.
Print Assumptions C10_validation_accepts_existing_names.
Theorem C10_validation_raises_at_first_bad_name : forall g names e,
  validate_account_names g names = Err e ->
  exists l1 n l2, names = (l1 ++ n :: l2)%list /\
    (forall m, In m l1 -> exists a, get_account g m = Ok (Some a)) /\
    (get_account g n = Ok None /\ e = ValueError \/ get_account g n = Err e).
Proof. exact validate_err. Qed.
Print Assumptions C10_validation_raises_at_first_bad_name.
Example C10_case : validate_account_names (built sample_ops) ["Sales/Widgets"; "Cash/RMB"] = Ok tt /\
  validate_account_names default_gls ["Sales"; "Nope"; "Bank/No"] = Err ValueError.
Proof. split; vm_compute; reflexivity. Qed.
