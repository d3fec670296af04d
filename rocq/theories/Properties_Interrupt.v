(** Property C91: runs that fail.  [run_out m] is the model as a call of
    TimeBasedModel.run leaves it, and the exception that escapes, if any. *)
From Verif Require Import Prelude M_Dates M_Accounts M_Ledger M_Business M_Model M_Interrupt Spec_Dates Spec_Accounts Spec_Ledger Spec_Business Spec_Model Spec_Failures Spec_Interrupt
  P_Dates P_Accounts P_Ledger P_Failures P_Failures2 P_Interrupt P_Interrupt2 P_Interrupt3 Properties_Ledger Properties_Business.
Local Open Scope string_scope.
Local Open Scope list_scope.

(** The outcome is the one of the model used for C17 to C27. *)
Theorem C91_outcome : forall m, (forall m', run_model m = Ok m' <-> run_out m = (m', None)) /\ (forall e, run_model m = Err e <-> snd (run_out m) = Some e).
Proof. exact outcome. Qed.
Print Assumptions C91_outcome.

(** Running again, after a failure or a success, gives the same state and the
    same exception. *)
Theorem C91_retry : forall m, run_out (fst (run_out m)) = run_out m.
Proof. exact retry. Qed.
Print Assumptions C91_retry.

(** Whatever was run, prepared, posted or ticked before, with or without
    exceptions: a run gives what it would give on the model that was only set
    up. *)
Theorem C91_history : forall m hs, run_model (after m hs) = run_model (after m (filter setting hs)).
Proof. exact run_history. Qed.
Print Assumptions C91_history.

(** A run whose horizon cannot be dated fails before anything is changed. *)
Theorem C91_horizon : forall m e, no_horizon m e -> md_ents m <> [] ->
  snd (run_out m) = Some e /\ books (fst (run_out m)) = books m /\
  map en_comps (md_ents (fst (run_out m))) = map en_comps (md_ents m) /\ ck_ix (md_clock (fst (run_out m))) = 0%Z.
Proof. exact horizon_fails. Qed.
Print Assumptions C91_horizon.

(** Otherwise a run fails only while it closes a year, after all activities of
    the period have posted. *)
Theorem C91_where : forall m m' e, valid_dt (ck_start (md_clock m)) -> run_out m = (m', Some e) ->
  no_horizon m e \/ failed_closing m m' e.
Proof.
  intros m m' e V R. destruct (snd (prepare_model_out m)) as [e'|] eqn:P; [|right; apply closing_fails; auto].
  left. replace e with e'; [apply preparation_fails; auto|]. unfold run_out in R. destruct (prepare_model_out m) as [p o]. cbn [snd] in P. subst o. congruence.
Qed.
Print Assumptions C91_where.

(** Then no closing entry of the year that failed has been posted; the books of
    the entity hold those of the completed periods [mk] and the complete
    postings of the period that failed. *)
Theorem C91_books : forall m m' e, failed_closing m m' e -> exists k p mk before x after before' x' now ye,
  prepare_model m = Ok p /\ run_periods k p = Ok mk /\ md_ents mk = before ++ x :: after /\ md_ents m' = before' ++ x' :: after /\
  P_Year.dated (fun _ => True) (l_txs (en_gl x')) /\
  filter tx_closing_cr (l_txs (en_gl x')) = filter tx_closing_cr (l_txs (en_gl x)) /\
  (exists more, l_txs (en_gl x') = l_txs (en_gl x) ++ more /\ forall t, In t more -> tx_date t = PDateTime now) /\
  l_structure (en_gl x') = l_structure (en_gl x) /\
  add_us (en_curr x) (-1000000) = Ok ye /\
  (add_years (en_curr x) 1 = Err e \/ close_year (l_structure (en_gl x')) (en_path x') (l_txs (en_gl x')) (en_prev x) ye = Err e).
Proof. exact failed_dated. Qed.
Print Assumptions C91_books.

(** The causes, for models whose account structures were made through the API
    and still have the accounts the closing uses. *)
Definition usable (g : gls) : Prop := exists ops, g = built ops /\ forallb op_names_ok ops = true /\ names_distinct (built ops) /\ closing_accounts (built ops).
Theorem C91_causes : forall m m' e, valid_dt (ck_start (md_clock m)) -> (forall x, In x (md_ents m') -> usable (l_structure (en_gl x))) -> run_out m = (m', Some e) ->
  no_horizon m e \/ e = ValueError \/ e = KeyError \/
  exists x t, In x (md_ents m') /\ In t (l_txs (en_gl x)) /\ closing_fault (l_structure (en_gl x)) t e.
Proof.
  intros m m' e V U R. destruct (C91_where m m' e V R) as [N|F]; [auto|]. right.
  destruct (failed_dated m m' e F) as (k & p & mk & before & x & aft & before' & x' & now & ye & _ & _ & _ & B2 & D & _ & _ & _ & _ & [C|C]).
  - left. apply add_years_err in C. tauto.
  - assert (I : In x' (md_ents m')) by (rewrite B2; apply in_elt). destruct (U x' I) as (ops & G & O1 & O2 & O3). rewrite G in C.
    destruct (year_end_only ops (en_path x') (l_txs (en_gl x')) (en_prev x) ye e O1 O2 O3 C) as [(_ & t & It & Nc)|[->|(t & It & Ft)]].
    + destruct (D t It) as (d & Hd & _). rewrite Hd in Nc. exfalso. apply Nc. reflexivity.
    + auto.
    + right. right. exists x', t. split; [exact I|]. split; [unfold of_year in It; apply filter_In in It; tauto|]. rewrite G. exact Ft.
Qed.
Print Assumptions C91_causes.

(** ** Cases *)
(** A shop that pays a refund before its first sale fails at the first year end
    (C22); twelve months of postings of both activities and the thirteenth are in
    the books, and no closing entry. *)
Definition bad_shop := shop day0 Pmonth 14 [] [refund; sell].
Example C91_where_case : snd (run_out bad_shop) = Some KeyError /\ valid_dt (ck_start (md_clock bad_shop)) /\
  map (@length tx) (books (fst (run_out bad_shop))) = [26%nat] /\ ck_ix (md_clock (fst (run_out bad_shop))) = 12%Z /\
  is_ok (datetime_at (md_clock bad_shop) 14) = true.
Proof. split; [vm_compute; reflexivity|]. split; [vm_compute; intuition discriminate|]. split; [vm_compute; reflexivity|]. split; vm_compute; reflexivity. Qed.
(** After the failure the user turns the refund into a sale and runs again: the
    result is that of the repaired shop, run for the first time. *)
Definition repair := HActivity 0 0 [] 0 (ABasic "Bank/Default" "Sales" (q 10)).
Example C91_history_case : run_model (after bad_shop [HRun; HPrepare; HTick; repair; HRun; HBuild (MName "again")]) = run_model (after bad_shop [repair; HBuild (MName "again")]) /\
  is_ok (run_model (after bad_shop [repair; HBuild (MName "again")])) = true.
Proof. split; [exact (C91_history bad_shop [HRun; HPrepare; HTick; repair; HRun; HBuild (MName "again")])|vm_compute; reflexivity]. Qed.
(** A model that would run past year 9999. *)
Definition far := shop (mkdt 9998 1 1 0) Pyear 3 [] [sell].
Example C91_horizon_case : no_horizon far ValueError /\ md_ents far <> [].
Proof. split; [left; vm_compute; reflexivity|discriminate]. Qed.
(** The first year of [edge] ends in 9999, its second would end in 10000. *)
Definition edge := shop (mkdt 9998 3 1 0) Pmonth 20 [] [sell].
Example C91_edge_case : snd (run_out edge) = Some ValueError /\ is_ok (datetime_at (md_clock edge) 20) = true /\ map (@length tx) (books (fst (run_out edge))) = [13%nat].
Proof. split; [vm_compute; reflexivity|]. split; vm_compute; reflexivity. Qed.

(** The books of an earlier run are not restored when a later run fails. *)
Theorem C91_restored_refuted : exists m m' h e, run_model m = Ok m' /\ setting h = true /\ snd (run_out (do_act m' h)) = Some e /\
  books m' <> [] /\ books (fst (run_out (do_act m' h))) <> books m'.
Proof.
  exists (shop day0 Pmonth 13 [] [sell]). eexists. exists (HActivity 0 0 [] 0 (ABasic "Sales" "Bank/Default" (q 10))), KeyError.
  split; [vm_compute; reflexivity|]. split; [reflexivity|]. split; [vm_compute; reflexivity|]. split; [discriminate|].
  intros H. apply (f_equal (map (@length tx))) in H. vm_compute in H. discriminate H.
Qed.
Print Assumptions C91_restored_refuted.
