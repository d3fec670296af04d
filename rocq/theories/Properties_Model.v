(** C76: paths in a model; C77: looking up and removing by name; C78: changed loan
    terms. *)
From Verif Require Import Prelude M_Dates M_Accounts M_Ledger M_Business M_Model Spec_Dates Spec_Accounts Spec_Ledger Spec_Business Spec_Loan Spec_Model
  P_Business P_Loan P_Run P_Model Properties_Ledger Properties_Business.
Local Open Scope string_scope.
Local Open Scope list_scope.

(** * C76 *)
(** Whatever was created, renamed, moved or removed, at whatever depth: a
    component's path is its owner's path and its name, an activity's path its
    component's path and its name, an entity's path its parent path and its name. *)
Theorem C76_component_paths : forall name start p n ops e, In e (md_ents (model_built name start p n ops)) ->
  en_path e = (en_ppath e ++ "/" ++ en_name e)%string /\
  forall w k, under (en_path e) (en_comps e) w k -> c_path k = (w ++ "/" ++ c_name k)%string /\ forall a, In a (c_acts k) -> ac_path a = (c_path k ++ "/" ++ ac_name a)%string.
Proof.
  intros name start p n ops e E. split.
  - pose proof (model_coh name start p n ops) as C. rewrite Forall_forall in C. now destruct (C e E).
  - intros w k U. split; [eapply (model_paths name start p n ops e w k (new_basic "" "" "" 0%Qc dt_min dt_min 0 None)); eauto|]. intros a A. eapply (model_paths name start p n ops e w k a); eauto.
Qed.
Print Assumptions C76_component_paths.
(** An entity's path starts with the model's name once the model has been renamed ... *)
Theorem C76_after_renaming : forall name start p n ops v e, In e (md_ents (model_built name start p n (ops ++ [MName v]))) -> en_path e = (v ++ "/" ++ en_name e)%string.
Proof.
  intros name start p n ops v e E. unfold model_built in E. rewrite fold_left_app in E. cbn [fold_left model_step md_set_name md_ents] in E. apply in_map_iff in E. destruct E as (x & <- & _). reflexivity.
Qed.
Print Assumptions C76_after_renaming.
(** ... and otherwise has no trace of it: the entities of a model that keeps its
    first name are all at the root. *)
Theorem C76_entity_paths_refuted : forall name start p n ops e, no_moves ops -> (forall v, ~ In (MName v) ops) -> In e (md_ents (model_built name start p n ops)) -> en_path e = ("/" ++ en_name e)%string.
Proof.
  intros name start p n ops e N M E. pose proof (never_named ops (new_model name start p n) N) as H. rewrite Forall_forall in H at 1.
  assert (F : Forall (fun e => en_ppath e = "") (md_ents (model_built name start p n ops))). { apply H; [|constructor]. intros o O. destruct o; auto. eapply M; eauto. }
  rewrite Forall_forall in F. destruct (C76_component_paths _ _ _ _ _ _ E) as [-> _]. rewrite (F e E). reflexivity.
Qed.
Print Assumptions C76_entity_paths_refuted.
(** In between: either of the two. *)
Theorem C76_entity_paths_partial : forall name start p n ops e, no_moves ops -> let m := model_built name start p n ops in In e (md_ents m) ->
  en_path e = ("/" ++ en_name e)%string \/ en_path e = (md_name m ++ "/" ++ en_name e)%string.
Proof.
  intros name start p n ops e N m E. pose proof (parents_rule ops (new_model name start p n) N (Forall_nil _)) as F. rewrite Forall_forall in F. destruct (C76_component_paths _ _ _ _ _ _ E) as [-> _]. destruct (F e E) as [-> | ->]; auto.
Qed.
Print Assumptions C76_entity_paths_partial.
Definition group_ops : list model_op :=
  [MCreate "Co" default_gls; MAt 0 (ECreate "shop"); MAt 0 (EAt 0 [] (CCreate "till")); MAt 0 (EAt 0 [0%nat] (CAdd sell)); MName "Group"; MCreate "New" default_gls; MAt 0 (EAt 0 [] (CName "store"))].
Example C76_case : let m := model_built "model" day0 Pmonth 12 group_ops in map en_path (md_ents m) = ["Group/Co"; "/New"] /\ no_moves group_ops /\
  flat_map (fun e => map ac_path (entity_acts e)) (md_ents m) = ["Group/Co/store/till/sell"].
Proof. split; [vm_compute; reflexivity|]. split; [repeat constructor|vm_compute; reflexivity]. Qed.

(** * C77 *)
(** Looking up gives the first child of that name, and IndexError if there is
    none. *)
Theorem C77_lookup : (forall n k x, get_component n k = Ok x <-> first_named c_name n (c_subs k) x) /\ (forall n k x, get_activity n k = Ok x <-> first_named ac_name n (c_acts k) x) /\
  (forall n e x, ent_get_component n e = Ok x <-> first_named c_name n (en_comps e) x) /\ (forall n m x, md_get_entity n m = Ok x <-> first_named en_name n (md_ents m) x).
Proof. repeat split; (intros H; apply (pick_ok _) in H; exact H) || (intros H; apply (pick_ok _); exact H). Qed.
Print Assumptions C77_lookup.
Theorem C77_lookup_fails : (forall n k er, get_component n k = Err er <-> er = IndexError /\ ~ In n (map c_name (c_subs k))) /\ (forall n k er, get_activity n k = Err er <-> er = IndexError /\ ~ In n (map ac_name (c_acts k))) /\
  (forall n e er, ent_get_component n e = Err er <-> er = IndexError /\ ~ In n (map c_name (en_comps e))) /\ (forall n m er, md_get_entity n m = Err er <-> er = IndexError /\ ~ In n (map en_name (md_ents m))).
Proof. split; [|split; [|split]]; intros n k er; apply pick_err. Qed.
Print Assumptions C77_lookup_fails.
(** Removing takes away the last child of that name, nothing else, and nothing at
    all if there is none. *)
Theorem C77_remove : (forall n k, without_last c_name n (c_subs k) (c_subs (remove_component n k)) /\ c_name (remove_component n k) = c_name k /\ c_path (remove_component n k) = c_path k /\ c_acts (remove_component n k) = c_acts k) /\
  (forall n e, without_last c_name n (en_comps e) (en_comps (ent_remove_component n e)) /\ ent_remove_component n e = with_comps e (en_comps (ent_remove_component n e))) /\
  (forall n m, without_last en_name n (md_ents m) (md_ents (md_remove_entity n m)) /\ md_name (md_remove_entity n m) = md_name m /\ md_clock (md_remove_entity n m) = md_clock m /\ md_count (md_remove_entity n m) = md_count m).
Proof. split; [|split]; intros n k; [destruct k; cbn; split; [apply remove_last_spec|auto]|split; [apply remove_last_spec|reflexivity]|cbn; split; [apply remove_last_spec|auto]]. Qed.
Print Assumptions C77_remove.
(** A created child is found, as it was created, if its name is new. *)
Theorem C77_created : (forall n k, ~ In n (map c_name (c_subs k)) -> exists x, get_component n (create_component n k) = Ok x /\ c_name x = n /\ c_path x = (c_path k ++ "/" ++ n)%string /\ c_subs x = [] /\ c_acts x = []) /\
  (forall n e, ~ In n (map c_name (en_comps e)) -> exists x, ent_get_component n (ent_create_component n e) = Ok x /\ c_name x = n /\ c_path x = (en_path e ++ "/" ++ n)%string /\ c_subs x = [] /\ c_acts x = []) /\
  (forall n g m, ~ In n (map en_name (md_ents m)) -> md_get_entity n (md_create_entity n g m) = Ok (new_entity n g)).
Proof.
  split; [|split].
  - intros n k N. exists (comp_set_parent (c_path k) (new_component n)). split; [|cbn; auto]. apply (proj1 C77_lookup). destruct k as [nm pp p ss aa]. cbn in *. exists ss, []. split; auto. split; auto. intros y Y E. apply N. subst n. now apply in_map.
  - intros n e N. exists (comp_set_parent (en_path e) (new_component n)). split; [|cbn; auto]. apply C77_lookup. cbn. exists (en_comps e), []. split; auto. split; auto. intros y Y E. apply N. subst n. now apply in_map.
  - intros n g m N. apply C77_lookup. cbn. exists (md_ents m), []. split; auto. split; auto. intros y Y E. apply N. subst n. now apply in_map.
Qed.
Print Assumptions C77_created.
(** With distinct names, what was removed is no longer found, and everything else
    is found as before. *)
Theorem C77_removed_partial : (forall n k, NoDup (map c_name (c_subs k)) -> get_component n (remove_component n k) = Err IndexError /\ forall m, m <> n -> get_component m (remove_component n k) = get_component m k) /\
  (forall n e, NoDup (map c_name (en_comps e)) -> ent_get_component n (ent_remove_component n e) = Err IndexError /\ forall m, m <> n -> ent_get_component m (ent_remove_component n e) = ent_get_component m e) /\
  (forall n md, NoDup (map en_name (md_ents md)) -> md_get_entity n (md_remove_entity n md) = Err IndexError /\ forall m, m <> n -> md_get_entity m (md_remove_entity n md) = md_get_entity m md).
Proof.
  assert (G : forall A (name : A -> string) n l l', NoDup (map name l) -> without_last name n l l' -> pick name n l' = Err IndexError /\ forall m, m <> n -> pick name m l' = pick name m l).
  { intros A name n l l' D W. destruct (removed_gone name n l l' D W) as [N F]. split; [now apply pick_err|]. intros m M. destruct (pick name m l) as [x|er] eqn:E.
    - apply pick_ok. apply F; auto. now apply pick_ok.
    - destruct (pick name m l') as [y|er'] eqn:E'.
      + apply pick_ok in E'. apply F in E'; auto. apply pick_ok in E'. congruence.
      + apply pick_err in E, E'. destruct E as [-> _], E' as [-> _]. reflexivity. }
  split; [|split]; intros n x D.
  - apply (G _ c_name n _ _ D). apply C77_remove.
  - apply (G _ c_name n _ _ D). apply C77_remove.
  - apply (G _ en_name n _ _ D). apply C77_remove.
Qed.
Print Assumptions C77_removed_partial.
(** Names need not be distinct: of two equal names the first is found and the
    second removed, so that a removed name can still be found. *)
Theorem C77_removed_refuted : exists k x, get_component "till" (remove_component "till" k) = Ok x /\ k = create_component "till" (create_component "till" (new_component "shop")).
Proof. eexists _, _. split; [|reflexivity]. vm_compute. reflexivity. Qed.
Print Assumptions C77_removed_refuted.
Example C77_case : let e := ent_create_component "b" (ent_create_component "a" (new_entity "Co" default_gls)) in NoDup (map c_name (en_comps e)) /\
  ent_get_component "a" (ent_remove_component "a" e) = Err IndexError /\ is_ok (ent_get_component "b" (ent_remove_component "a" e)) = true.
Proof. split; [|vm_compute; auto]. cbn. constructor; [intros [H|[]]; discriminate|]. constructor; [easy|constructor]. Qed.

(** * C78 *)
Lemma prepare_kind_iff c N x k k' : prepare_kind k = prepare_kind k' -> prepare_activity c N (with_kind x k) = prepare_activity c N (with_kind x k').
Proof.
  intros E. unfold prepare_activity, prepare_base in *. cbn [with_kind ac_start_ix ac_start ac_count ac_end] in *.
  match goal with |- context [if ?b then first_after c (ac_start x) ?i ?n else Ok None] => destruct (if b then first_after c (ac_start x) i n else Ok None) as [f|] end; cbn [bind] in *; [|reflexivity].
  match goal with |- context [if ?b then first_after c (ac_end x) ?i ?n else Ok None] => destruct (if b then first_after c (ac_end x) i n else Ok None) as [g|] end; cbn [bind] in *; [|reflexivity].
  cbn. rewrite E. reflexivity.
Qed.
(** A loan whose amount and rate were changed runs exactly as one created with the
    changed terms. *)
Theorem C78_as_created : forall name bank lacc iacc amount rate s n interval desc a ts a', new_loan name bank lacc iacc amount rate s n interval desc = Ok a ->
  keeps_duration ts -> set_terms ts a = Ok a' ->
  exists a2, new_loan name bank lacc iacc (final_amount ts amount) (final_rate ts rate) s n interval desc = Ok a2 /\
    forall c N p, prepare_activity c N (act_set_parent p a') = prepare_activity c N (act_set_parent p a2).
Proof.
  intros name bank lacc iacc amount rate s n interval desc a ts a' H K S. unfold new_loan in *. destruct (add_months s (n + 1)) as [fin|]; cbn [bind] in *; [|discriminate].
  destruct (monthly_payment amount (rate / twelve)%Qc n) as [pay|] eqn:P; cbn [bind] in H; [|discriminate]. injection H as <-. unfold set_terms in S. cbn [ac_kind new_activity] in S.
  match type of S with context[foldM set_term ts ?l] => set (l0 := l) in * end. destruct (foldM set_term ts l0) as [l'|] eqn:F; cbn [bind] in S; [|discriminate]. injection S as <-.
  destruct (terms_final ts l0 l' F) as (B1 & B2 & B3 & B4 & B5 & B6 & B7 & B8). pose proof (terms_payment ts l0 l' K F P) as PAY. cbn [l0 ln_bank ln_loan ln_interest ln_amount ln_rate ln_mrate ln_duration ln_months] in *.
  specialize (B7 eq_refl). assert (D : final_duration ts n = n). { clear - K. unfold final_duration. revert n. induction K as [|t ts T K IH]; intros n; cbn [fold_left]; auto. destruct t; [auto|auto|tauto]. }
  rewrite <- B4, <- B5, <- B7. rewrite D in B6. rewrite B6 in PAY. rewrite PAY. cbn [bind]. eexists. split; [reflexivity|]. intros c N p.
  match goal with |- _ = prepare_activity c N (act_set_parent p (new_activity _ _ _ _ _ ?k')) => apply (prepare_kind_iff c N (act_set_parent p (new_activity name s fin interval desc (KLoan l0))) (KLoan l') k') end. cbn [prepare_kind ln_bank ln_loan ln_interest ln_amount ln_rate ln_mrate ln_payment ln_duration]. rewrite B1, B2, B3, B6. reflexivity.
Qed.
Print Assumptions C78_as_created.

(** Only loans have terms. *)
Theorem C78_basic_activity : forall a ts dt cr amount, ac_kind a = KBasic dt cr amount -> set_terms ts a = Err AttributeError.
Proof. intros a ts dt cr amount E. unfold set_terms. now rewrite E. Qed.
Print Assumptions C78_basic_activity.
(** Hence it is repaid by its last instalment, as in C25. *)
Theorem C78_repaid_partial : forall name bank lacc iacc amount rate s n interval desc a ts a' p c N b cs gl gl' b', (1 <= n)%Z -> (1 <= interval)%Z ->
  new_loan name bank lacc iacc amount rate s n interval desc = Ok a -> keeps_duration ts -> set_terms ts a = Ok a' ->
  prepare_activity c N (act_set_parent p a') = Ok b -> run_at cs gl b = Ok (gl', b') ->
  exists l, ac_kind b' = KLoan l /\ ln_amount l = final_amount ts amount /\ (forall k, executions b cs = S k -> Z.of_nat k = n -> ln_left l = 0%Qc).
Proof.
  intros name bank lacc iacc amount rate s n interval desc a ts a' p c N b cs gl gl' b' Hn Hi H K S P R. destruct (C78_as_created _ _ _ _ _ _ _ _ _ _ _ _ _ H K S) as (a2 & H2 & E). rewrite E in P.
  destruct (C25_loan_repaid _ _ _ _ _ _ _ _ _ _ _ _ _ _ _ _ _ _ _ Hn Hi H2 P R) as (l & L1 & L2). exists l. split; auto. split.
  - destruct (ready_loan _ _ _ _ _ _ _ _ _ _ _ _ _ _ _ H2 P) as (pay & _ & I & KB). pose proof (due_0 b _ KB eq_refl eq_refl) as D.
    rewrite <- D in R. apply run_at_state in R; auto; [|lia]. rewrite R in L1. unfold due_state in L1. cbn in L1. injection L1 as <-. reflexivity.
  - intros k EX KN. now apply (proj1 (L2 k EX)).
Qed.
Print Assumptions C78_repaid_partial.
(** A changed duration has no effect on the payment or on the activity's end,
    neither of a loan ... *)
Theorem C78_duration_ignored_refuted : forall a n a', set_terms [SetDuration n] a = Ok a' -> exists l, ac_kind a = KLoan l /\ ac_kind a' = KLoan (loan_set_duration n l) /\ ln_payment (loan_set_duration n l) = ln_payment l /\ ac_end a' = ac_end a.
Proof. intros a n a' H. unfold set_terms in H. destruct (ac_kind a) as [|l] eqn:E; [discriminate|]. cbn in H. injection H as <-. exists l. auto. Qed.
Print Assumptions C78_duration_ignored_refuted.
(** ... nor in a run: a loan over three months changed to five is still paid back
    in three. *)
Definition changed (ts : list term) : activity := match set_terms ts (bond (mkdt 2016 2 10 0)) with Ok a => a | Err _ => sell end.
Theorem C78_duration_refuted : exists a5, new_loan "bond" "Bank/Default" "Long Term Borrowing" "Expense" (q 1000) (Q2Qc (12#100)) (mkdt 2016 2 10 0) 5 1 None = Ok a5 /\
  length (operating (txs_of (run_model (shop day0 Pmonth 12 [] [a5])))) = 11%nat /\ length (operating (txs_of (run_model (shop day0 Pmonth 12 [] [changed [SetDuration 5]])))) = 7%nat.
Proof. eexists. split; [vm_compute; reflexivity|]. split; vm_compute; reflexivity. Qed.
Print Assumptions C78_duration_refuted.
Example C78_case : loan_sum (shop day0 Pmonth 8 [] [changed [SetAmount (q 500); SetRate (Q2Qc (6#100)); SetAmount (q 700)]]) = q 0 /\
  is_ok (set_terms [SetAmount (q 500); SetRate (Q2Qc (6#100)); SetAmount (q 700)] (bond (mkdt 2016 2 10 0))) = true.
Proof. split; [apply Qc_is_canon|]; vm_compute; reflexivity. Qed.
