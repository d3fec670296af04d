(** What does hold of C18, C27, C54 and C55, whose full statements are refuted in Properties_Business. *)
From Verif Require Import Prelude M_Dates M_Accounts M_Ledger M_Business Spec_Dates Spec_Accounts Spec_Ledger Spec_Business Spec_Loan Spec_Business2
  P_Dates P_Accounts P_Ledger P_Business P_Business2 Properties_Ledger Properties_Business.
From Coq Require Import Permutation.
Open Scope string_scope.

(** C18: an activity whose start lies after the last period runs in exactly the
    periods in which it would run if it had no start at all. *)
Theorem C18_late_activity_exact_partial : forall c n a b b0,
  fresh a -> ~ some_period_after c (ac_start a) n ->
  prepare_activity c n a = Ok b -> prepare_activity c n (act_set_start dt_min a) = Ok b0 ->
  forall ix, criteria b ix = criteria b0 ix.
Proof. exact late_like_always. Qed.
Print Assumptions C18_late_activity_exact_partial.
Example C18_case_exact : exists b b0, fresh later /\ ~ some_period_after (new_clock day0 Pmonth) (ac_start later) 6 /\
  prepare_activity (new_clock day0 Pmonth) 6 later = Ok b /\ prepare_activity (new_clock day0 Pmonth) 6 (act_set_start dt_min later) = Ok b0.
Proof.
  eexists _, _. split; [vm_compute; auto|]. split; [apply first_after_spec_none; vm_compute; reflexivity|].
  split; [vm_compute; reflexivity|vm_compute; reflexivity].
Qed.

(** C27: with a positive rate the constructor succeeds, the payments repay the
    loan, and each payment is more than an equal share of the amount. *)
Theorem C27_positive_rate_partial : forall name bank lacc iacc amount rate s n interval desc fin,
  (1 <= n)%Z -> (0 < rate)%Qc -> add_months s (n + 1) = Ok fin ->
  exists pay, new_loan name bank lacc iacc amount rate s n interval desc =
      Ok (new_activity name s fin interval desc (KLoan (mkloan bank lacc iacc amount rate (rate / twelve)%Qc pay n 0 amount))) /\
    outstanding amount (rate / twelve) pay (Z.to_nat n) = 0%Qc /\
    ((0 < amount)%Qc -> (amount / Q2Qc (inject_Z n) < pay)%Qc).
Proof. exact positive_rate. Qed.
Print Assumptions C27_positive_rate_partial.
Example C27_case_positive : add_months day0 (60 + 1) = Ok (mkdt 2021 2 1 0) /\
  exists a, new_loan "x" "b" "l" "i" (q 1000) (Q2Qc (1#100)) day0 60 1 None = Ok a.
Proof. split; [vm_compute; reflexivity|]. eexists. vm_compute. reflexivity. Qed.

(** C54: the filter selects exactly the transactions below the component with
    path [p] when no source extends [p] in another way ... *)
Theorem C54_component_partial : forall l start fin p rows tot f,
  (forall t, f t = true <-> posted_below p t /\ dated start fin t) ->
  (forall t x, In t (l_txs l) -> tx_source t = Some (p ++ x) -> posted_below p t) ->
  transaction_list l start fin p = Ok (rows, tot) ->
  exists ts, rows = map tl_row_of ts /\ Permutation ts (filter f (l_txs l)) /\ tot = Qcsum (map tx_amount (filter f (l_txs l))).
Proof. exact report_of_component. Qed.
Print Assumptions C54_component_partial.
(** ... and in every ledger when the filter is given with a slash at its end. *)
Theorem C54_trailing_slash_partial : forall l start fin p rows tot f,
  (forall t, f t = true <-> posted_below p t /\ dated start fin t) ->
  transaction_list l start fin (p ++ "/") = Ok (rows, tot) ->
  exists ts, rows = map tl_row_of ts /\ Permutation ts (filter f (l_txs l)) /\ tot = Qcsum (map tx_amount (filter f (l_txs l))).
Proof. exact report_with_slash. Qed.
Print Assumptions C54_trailing_slash_partial.
Definition below_shop (t : tx) : bool :=
  (starts_with (str_of (tx_source t)) "/Co/shop/" && py_leb (at_ 2016 1 1) (tx_date t) && py_leb (tx_date t) (at_ 2017 1 1))%bool.
Definition two_shops : list tx := txs_of (run_model (mktbm "m" (new_clock day0 Pmonth) 5
  [ent_built "Co" default_gls [ECreate "shop"; ECreate "shop2"; EAt 0 [] (CAdd buy); EAt 1 [] (CAdd sell)]])).
Example C54_case_slash : (forall t, below_shop t = true <-> posted_below "/Co/shop" t /\ dated (at_ 2016 1 1) (at_ 2017 1 1) t) /\
  length two_shops = 6%nat /\ length (filter below_shop two_shops) = 1%nat /\
  exists rows tot, transaction_list (mkledger default_gls two_shops) (at_ 2016 1 1) (at_ 2017 1 1) ("/Co/shop" ++ "/") = Ok (rows, tot) /\ length rows = 1%nat.
Proof.
  split.
  { intros t. unfold below_shop, dated, posted_below. rewrite !andb_true_iff. split.
    - intros ((A & B) & C). split; auto. destruct (tx_source t) as [s|]; [|discriminate]. apply prefix_app_eq in A. destruct A as [x A]. exists x. cbn [str_of] in A. rewrite A. reflexivity.
    - intros ([y Y] & B & C). repeat split; auto. rewrite Y. apply (starts_with_app "/Co/shop/"). }
  split; [vm_compute; reflexivity|]. split; [vm_compute; reflexivity|]. eexists _, _. split; [vm_compute; reflexivity|vm_compute; reflexivity].
Qed.

(** C55: an activity whose start and end are changed after a run keeps its first
    start period; the end period is found again only if the first run found none. *)
Theorem C55_second_window_partial : forall c n a b s f c' n' b', fresh a -> prepare_activity c n a = Ok b ->
  prepare_activity c' n' (act_set_end f (act_set_start s b)) = Ok b' ->
  ac_start_ix b' = ac_start_ix b /\
  (ac_count b <> (-1)%Z -> ac_end_ix b' = ac_end_ix b) /\
  (ac_count b = (-1)%Z -> (f <> dt_max /\ exists i, first_period_after c' f n' i /\ ac_end_ix b' = (if (i - ac_start_ix b =? -1)%Z then ac_start_ix b + n' else i)%Z) \/
                          ((f = dt_max \/ ~ some_period_after c' f n') /\ ac_end_ix b' = (ac_start_ix b + n')%Z)).
Proof. exact second_window. Qed.
Print Assumptions C55_second_window_partial.
Example C55_case_second : exists b b', prepare_activity (new_clock day0 Pmonth) 12 sell = Ok b /\ ac_count b = (-1)%Z /\
  prepare_activity (new_clock day0 Pmonth) 12 (act_set_end (mkdt 2016 4 15 0) (act_set_start (mkdt 2016 2 15 0) b)) = Ok b' /\
  filter (fun i => criteria b' (Z.of_nat i)) (seq 0 12) = [0; 1; 2; 3]%nat.
Proof. eexists _, _. split; [vm_compute; reflexivity|]. split; [vm_compute; reflexivity|]. split; [vm_compute; reflexivity|vm_compute; reflexivity]. Qed.
