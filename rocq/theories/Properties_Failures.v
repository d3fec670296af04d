(** Property C86: reports and the year-end closing fail visibly, and exactly when
    the ledger is malformed. *)
From Verif Require Import Prelude M_Dates M_Accounts M_Ledger M_Business Spec_Accounts Spec_Ledger Spec_Business Spec_Failures P_Accounts P_Ledger P_Failures P_Failures2 Properties_Ledger.
From Coq Require Import Permutation Sorted.
Open Scope string_scope.

Theorem C86_balance_sheet : forall ops txs fin e, forallb op_names_ok ops = true -> names_distinct (built ops) ->
  (balance_sheet_report (mkledger (built ops) txs) fin = Err e <-> first_fault (sheet_fault (built ops) fin) txs e) /\
  (is_ok (balance_sheet_report (mkledger (built ops) txs) fin) = true <-> no_fault (sheet_fault (built ops) fin) txs).
Proof. exact sheet_failure. Qed.
Print Assumptions C86_balance_sheet.
Theorem C86_income_statement : forall ops txs start fin path e, forallb op_names_ok ops = true -> names_distinct (built ops) ->
  (income_statement_report (mkledger (built ops) txs) start fin path = Err e <-> first_fault (statement_fault (built ops) start fin path) txs e) /\
  (is_ok (income_statement_report (mkledger (built ops) txs) start fin path) = true <-> no_fault (statement_fault (built ops) start fin path) txs).
Proof. exact statement_failure. Qed.
Print Assumptions C86_income_statement.
(** The transaction list looks at the transactions in date order, ties in
    posting order. *)
Theorem C86_transaction_list : forall l start fin path, one_kind (l_txs l) -> exists ts, Permutation ts (l_txs l) /\ StronglySorted date_le ts /\
  (forall d, filter (fun t => dt_eqb (py_raw (tx_date t)) d) ts = filter (fun t => dt_eqb (py_raw (tx_date t)) d) (l_txs l)) /\
  (forall e, transaction_list l start fin path = Err e <-> first_fault (row_fault start fin path) ts e) /\
  (is_ok (transaction_list l start fin path) = true <-> no_fault (row_fault start fin path) (l_txs l)).
Proof. exact list_failure. Qed.
Print Assumptions C86_transaction_list.
Theorem C86_transaction_list_mixed : forall l start fin path, ~ one_kind (l_txs l) -> transaction_list l start fin path = Err TypeError.
Proof. exact mixed_list. Qed.
Print Assumptions C86_transaction_list_mixed.
Theorem C86_year_end : forall ops path before t after ys ye e, forallb op_names_ok ops = true -> names_distinct (built ops) ->
  (forall u, In u (before ++ t :: after)%list -> comparable (PDateTime ys) (tx_date u)) ->
  is_ok (close_year (built ops) path before ys ye) = true -> In t (of_year ys ye [t]) -> closing_fault (built ops) t e ->
  close_year (built ops) path (before ++ t :: after) ys ye = Err e.
Proof. exact year_end_fails. Qed.
Print Assumptions C86_year_end.
(** Nothing else makes the closing fail, but for the KeyError of a year that
    debits a revenue account before crediting it (C22). *)
Theorem C86_year_end_causes : forall ops path txs ys ye e, forallb op_names_ok ops = true -> names_distinct (built ops) -> closing_accounts (built ops) ->
  close_year (built ops) path txs ys ye = Err e ->
  (e = TypeError /\ exists t, In t txs /\ ~ comparable (PDateTime ys) (tx_date t)) \/ e = KeyError \/ exists t, In t (of_year ys ye txs) /\ closing_fault (built ops) t e.
Proof. exact year_end_only. Qed.
Print Assumptions C86_year_end_causes.

Definition entry (d : pytime) (dt cr src : option string) : tx := mktx "t" None d dt cr src (q 10) false false.
Definition good_entry := entry (at_ 2016 3 1) (Some "Bank/Default") (Some "Sales") (Some "Co/shop/a").
Definition odd_entry (dt cr : option string) := entry (at_ 2016 4 1) dt cr (Some "Co/shop/b").
Definition odd_ledger (ts : list tx) := mkledger default_gls ts.

(** A posting to an account that does not exist is taken up by the year-end
    closing without complaint if its other side is below Sales; the balance sheet
    of the same ledger fails. *)
Theorem C86_unknown_account_closed_refuted : exists ops t ys ye, forallb op_names_ok ops = true /\ names_distinct (built ops) /\
  (exists e, account_fault (built ops) (tx_cr t) e) /\ In t (of_year ys ye [t]) /\
  is_ok (close_year (built ops) "Co" [t] ys ye) = true /\ balance_sheet_report (mkledger (built ops) [t]) (PDateTime ye) = Err AttributeError.
Proof.
  exists [OCreate 1 "Widgets" None], (odd_entry (Some "Sales/Widgets") (Some "Nowhere")), (mkdt 2016 1 1 0), (mkdt 2016 12 31 0).
  split; [reflexivity|]. assert (D : names_distinct (built [OCreate 1 "Widgets" None])) by (apply names_distinct_b_spec; vm_compute; reflexivity). split; [exact D|]. split.
  - exists AttributeError. apply (type_fault [OCreate 1 "Widgets" None] eq_refl D). vm_compute. reflexivity.
  - split; [vm_compute; auto|]. split; vm_compute; reflexivity.
Qed.
Print Assumptions C86_unknown_account_closed_refuted.

Lemma default_distinct : names_distinct (built []).
Proof. apply names_distinct_b_spec. vm_compute. reflexivity. Qed.
Example C86_case :
  balance_sheet_report (odd_ledger [good_entry; odd_entry (Some "Nowhere") (Some "Sales")]) (at_ 2016 12 31) = Err AttributeError /\
  balance_sheet_report (odd_ledger [good_entry; odd_entry (Some "Bank/Nowhere") (Some "Sales")]) (at_ 2016 12 31) = Err IndexError /\
  balance_sheet_report (odd_ledger [good_entry; odd_entry None (Some "Sales")]) (at_ 2016 12 31) = Err TypeError /\
  is_ok (balance_sheet_report (odd_ledger [good_entry; odd_entry None (Some "Sales")]) (at_ 2016 3 31)) = true /\
  transaction_list (odd_ledger [good_entry; entry (at_ 2016 4 1) None None None]) (at_ 2016 1 1) (at_ 2016 12 31) "" = Err AttributeError /\
  close_year (built []) "Co" [good_entry; odd_entry (Some "Bank/Default") (Some "Nowhere")] (mkdt 2016 1 1 0) (mkdt 2016 12 31 0) = Err AttributeError /\
  closing_fault (built []) (odd_entry (Some "Bank/Default") (Some "Nowhere")) AttributeError /\ closing_accounts (built []).
Proof.
  repeat (split; [vm_compute; reflexivity|]). split.
  - apply credit_unknown; [apply (type_fault [] eq_refl default_distinct); vm_compute; reflexivity|]. right. split.
    + exists "Bank/Default". split; [reflexivity|]. destruct (lookup_cases [] eq_refl default_distinct "Bank/Default") as [(a & _ & _ & _ & K) | [(G & _) | (G & _)]]; [exact K| |]; vm_compute in G; discriminate.
    + intros n Q (a & top & G & T & B). injection Q as <-. destruct (lookup_sound [] _ _ eq_refl G) as [I _].
      assert (E : exists i, deref (built []) i = Some top /\ (i = id_sales \/ i = id_cos)) by (destruct T; eauto). destruct E as (i & E & Hi).
      apply (P_Close.in_accs_below [] top i a E I) in B. assert (K : a_kids top = []) by (destruct Hi as [-> | ->]; vm_compute in E; injection E as <-; reflexivity).
      unfold account_descendants in B. rewrite K in B. discriminate.
  - intros i [<-|[<-|[<-|[<-|[<-|[]]]]]]; eexists; vm_compute; reflexivity.
Qed.
