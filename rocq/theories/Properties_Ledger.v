(** Properties C11-C16 and C53: the general ledger and its reports,
    auxi/modelling/financial/des.py and reporting.py. *)
From Verif Require Import Prelude M_Dates M_Accounts M_Ledger Spec_Accounts Spec_Ledger P_Accounts P_Ledger P_Reports.
From Coq Require Import Permutation Sorted.
Open Scope string_scope.

(** C11 *)
Theorem C11_ledger_append_only : forall ps l,
  l_txs (fold_left post ps l) = (l_txs l ++ map plain ps)%list /\
  l_structure (fold_left post ps l) = l_structure l.
Proof. exact posts_append. Qed.
Print Assumptions C11_ledger_append_only.
Theorem C11_create_returns_the_transaction : forall l n d dte dt cr src amt,
  let '(l', t) := create_transaction l n d dte dt cr src amt in
  l_txs l' = (l_txs l ++ [t])%list /\ l_structure l' = l_structure l /\
  t = mktx n d dte dt cr src amt false false.
Proof. exact create_returns. Qed.
Print Assumptions C11_create_returns_the_transaction.

Definition at_ (y m d : Z) : pytime := PDateTime (mkdt y m d 0).
Definition q (n : Z) : Qc := Q2Qc (inject_Z n).
Definition sample_posts : list posting :=
  [mkposting "sale" None (at_ 2016 3 1) (Some "Bank/Default") (Some "Sales") (Some "Co/shop/a") (q 100);
   mkposting "buy" (Some "x") (at_ 2016 1 5) (Some "Cost of Sales") (Some "Bank/Default") (Some "Co/shop/b") (q 40);
   mkposting "rent" None (at_ 2016 3 1) (Some "Expense") (Some "Bank/Default") (Some "Co/hq/c") (q 25);
   mkposting "capital" None (at_ 2017 1 1) (Some "Bank/Default") (Some "Retained Income/Retained Earnings") (Some "Co/hq/d") (q 500)].
Definition sample_ledger : ledger := fold_left post sample_posts (mkledger default_gls []).
Example C11_case : map tx_name (l_txs sample_ledger) = ["sale"; "buy"; "rent"; "capital"].
Proof. reflexivity. Qed.

(** C12: exactly the selected transactions, in date order, ties in posting
    order; the total is the sum of their amounts. *)
Theorem C12_transaction_list_exact : forall l start fin path rows tot,
  transaction_list l start fin path = Ok (rows, tot) ->
  exists ts, rows = map tl_row_of ts /\
    Permutation ts (selected start fin path (l_txs l)) /\
    StronglySorted date_le ts /\
    (forall d, filter (fun t => dt_eqb (py_raw (tx_date t)) d) ts =
               filter (fun t => dt_eqb (py_raw (tx_date t)) d) (selected start fin path (l_txs l))) /\
    tot = Qcsum (map tx_amount (selected start fin path (l_txs l))).
Proof. exact transaction_list_correct. Qed.
Print Assumptions C12_transaction_list_exact.
(** A row shows the transaction; its name is left out where the source already ends with it. *)
Lemma str_append_length a b : String.length (a ++ b) = (String.length a + String.length b)%nat.
Proof. induction a as [|c a IH]; cbn; [reflexivity|now rewrite IH]. Qed.
Lemma substring_all s : String.substring 0 (String.length s) s = s.
Proof. induction s as [|c s IH]; cbn; [reflexivity|now rewrite IH]. Qed.
Lemma substring_app p s : String.substring (String.length p) (String.length s) (p ++ s) = s.
Proof. induction p as [|c p IH]; cbn [String.append String.length]; [apply substring_all|exact IH]. Qed.
Lemma substring_rest s : forall k, (k <= String.length s)%nat -> exists p, s = (p ++ String.substring k (String.length s - k) s)%string.
Proof.
  induction s as [|c s IH]; intros k L; cbn [String.length] in L.
  - exists "". replace k with 0%nat by lia. reflexivity.
  - destruct k as [|k].
    + exists "". rewrite Nat.sub_0_r, substring_all. reflexivity.
    + destruct (IH k ltac:(lia)) as [p H]. exists (String c p). cbn [String.length String.substring Nat.sub String.append]. f_equal. exact H.
Qed.
Lemma ends_with_spec s suf : ends_with s suf = true <-> exists p, s = (p ++ suf)%string.
Proof.
  unfold ends_with. rewrite andb_true_iff, Nat.leb_le, String.eqb_eq. split.
  - intros [L E]. destruct (substring_rest s (String.length s - String.length suf) ltac:(lia)) as [p H]. exists p. replace (String.length s - (String.length s - String.length suf))%nat with (String.length suf) in H by lia. now rewrite E in H.
  - intros [p ->]. rewrite str_append_length. split; [lia|]. replace (String.length p + String.length suf - String.length suf)%nat with (String.length p) by lia. apply substring_app.
Qed.
Theorem C12_row : forall t, let r := tl_row_of t in
  r_date r = tx_date t /\ r_source r = match tx_source t with Some s => s | None => "" end /\ r_dt r = tx_dt t /\ r_cr r = tx_cr t /\ r_amount r = tx_amount t /\
  r_desc r = match tx_desc t with Some s => s | None => "" end /\
  ((exists p, r_source r = (p ++ tx_name t)%string) -> r_name r = "") /\ (~ (exists p, r_source r = (p ++ tx_name t)%string) -> r_name r = tx_name t).
Proof.
  intros t r. unfold r, tl_row_of. cbn [r_date r_source r_name r_dt r_cr r_amount r_desc]. repeat (split; [reflexivity|]). split.
  - intros H. apply ends_with_spec in H. change (match tx_source t with Some s => s | None => "" end) with (str_of (tx_source t)) in H. now rewrite H.
  - intros H. rewrite <- ends_with_spec in H. destruct (ends_with (str_of (tx_source t)) (tx_name t)); [exfalso; auto|reflexivity].
Qed.
Print Assumptions C12_row.
Theorem C12_transaction_list_succeeds : forall l start fin path,
  comparable start fin ->
  (forall t, In t (l_txs l) -> (exists s, tx_source t = Some s) /\ comparable start (tx_date t)) ->
  exists r, transaction_list l start fin path = Ok r.
Proof. exact transaction_list_total. Qed.
Print Assumptions C12_transaction_list_succeeds.
(** A string bound (which becomes a date) on a ledger of datetimes raises. *)
Theorem C12_mixed_dates_raise : forall l start fin t0,
  In t0 (l_txs l) -> (exists s, tx_source t0 = Some s) -> same_kind (l_txs l) = true ->
  (forall t, In t (l_txs l) -> exists s, tx_source t = Some s) ->
  ~ comparable start (tx_date t0) -> transaction_list l start fin "" = Err TypeError.
Proof. exact transaction_list_mixed. Qed.
Print Assumptions C12_mixed_dates_raise.
Example C12_case : exists rows tot, transaction_list sample_ledger (at_ 2016 1 1) (at_ 2016 12 31) "Co/" = Ok (rows, tot) /\
  map r_name rows = ["buy"; "sale"; "rent"] /\ tot = q 165.
Proof. eexists _, _; split; [vm_compute; reflexivity|]. split; [reflexivity|]. apply Qc_is_canon; reflexivity. Qed.
Example C12_case_mixed : transaction_list sample_ledger (get_date_of_string (mkdt 2016 1 1 0)) (at_ 2016 12 31) "" = Err TypeError.
Proof. vm_compute; reflexivity. Qed.

(** C13 *)
Theorem C13_balance_sheet_equation : forall l fin sh, balance_sheet_report l fin = Ok sh ->
  (sheet_total_assets sh - sheet_total_le sh)%Qc = income_net_credit (l_structure l) (upto fin (l_txs l)).
Proof. exact balance_sheet_equation. Qed.
Print Assumptions C13_balance_sheet_equation.
Corollary C13_balances_iff : forall l fin sh, balance_sheet_report l fin = Ok sh ->
  (sheet_total_assets sh = sheet_total_le sh <-> income_net_credit (l_structure l) (upto fin (l_txs l)) = 0%Qc).
Proof.
  intros l fin sh H. rewrite <- (C13_balance_sheet_equation _ _ _ H). split; intros E.
  - rewrite E. ring.
  - replace (sheet_total_assets sh) with (sheet_total_assets sh - sheet_total_le sh + sheet_total_le sh)%Qc by ring.
    rewrite E. ring.
Qed.
Print Assumptions C13_balances_iff.
Example C13_case : exists sh, balance_sheet_report sample_ledger (at_ 2016 12 31) = Ok sh /\
  sheet_total_assets sh = q 35 /\ sheet_total_le sh = 0%Qc /\
  income_net_credit default_gls (upto (at_ 2016 12 31) (l_txs sample_ledger)) = q 35.
Proof. eexists; split; [vm_compute; reflexivity|]. repeat split; apply Qc_is_canon; vm_compute; reflexivity. Qed.

(** C14 *)
Theorem C14_balance_sheet_lines : forall l fin sh, balance_sheet_report l fin = Ok sh ->
  let g := l_structure l in let ts := upto fin (l_txs l) in
  (forall s v, In (s, v) (sheet_assets sh) <-> has_type g s Asset /\ touched ts s /\ v = (debits ts s - credits ts s)%Qc) /\
  (forall s v, In (s, v) (sheet_liab sh) <-> has_type g s Liability /\ touched ts s /\ v = (credits ts s - debits ts s)%Qc) /\
  (forall s v, In (s, v) (sheet_equity sh) <-> has_type g s Equity /\ touched ts s /\ v = (credits ts s - debits ts s)%Qc) /\
  NoDup (keys (sheet_assets sh)) /\ NoDup (keys (sheet_liab sh)) /\ NoDup (keys (sheet_equity sh)) /\
  sheet_total_assets sh = Qcsum (map snd (sheet_assets sh)) /\
  sheet_total_liab sh = Qcsum (map snd (sheet_liab sh)) /\
  sheet_total_equity sh = Qcsum (map snd (sheet_equity sh)) /\
  sheet_total_le sh = (sheet_total_liab sh + sheet_total_equity sh)%Qc.
Proof. exact balance_sheet_lines. Qed.
Print Assumptions C14_balance_sheet_lines.
Theorem C14_balance_sheet_succeeds : forall l fin,
  (exists sh, balance_sheet_report l fin = Ok sh) <->
  (forall t, In t (l_txs l) -> comparable (tx_date t) fin) /\
  (forall t, In t (upto fin (l_txs l)) -> exists_account (l_structure l) (tx_dt t) /\ exists_account (l_structure l) (tx_cr t)).
Proof. exact balance_sheet_succeeds. Qed.
Print Assumptions C14_balance_sheet_succeeds.
Example C14_case : exists sh, balance_sheet_report sample_ledger (at_ 2017 12 31) = Ok sh /\
  keys (sheet_assets sh) = ["Bank/Default"] /\ keys (sheet_equity sh) = ["Retained Income/Retained Earnings"] /\
  sheet_total_assets sh = q 535 /\ sheet_total_equity sh = q 500.
Proof. eexists; split; [vm_compute; reflexivity|]. repeat split; try reflexivity; apply Qc_is_canon; vm_compute; reflexivity. Qed.

(** C15: the plain statement is false ... *)
Theorem C15_income_statement_refuted : exists l start fin r s v,
  income_statement_report l start fin "" = Ok r /\ In (s, v) (inc_expense r) /\
  let ts := operating (selected start fin "" (l_txs l)) in v <> (debits ts s - credits ts s)%Qc.
Proof.
  exists (fold_left post [mkposting "refund" None (at_ 2016 3 1) (Some "Bank/Default") (Some "Expense") (Some "Co") (q 10)]
           (mkledger default_gls [])), (at_ 2016 1 1), (at_ 2016 12 31).
  eexists _, "Expense", (q 10). split; [vm_compute; reflexivity|].
  split; [left; reflexivity|]. cbn zeta. intros H. vm_compute in H. discriminate H.
Qed.
Print Assumptions C15_income_statement_refuted.
(** ... what every line is exactly, for every structure: a first posting on the
    abnormal side is counted with the wrong sign. *)
Theorem C15_income_statement_lines_exact : forall ops l start fin path r, forallb op_names_ok ops = true ->
  l_structure l = built ops -> income_statement_report l start fin path = Ok r ->
  let g := l_structure l in let ts := operating (selected start fin path (l_txs l)) in
  (forall s v, In (s, v) (inc_revenue r) <-> has_type g s Revenue /\ touched ts s /\
     v = (credits ts s - debits ts s + match first_posting s ts with Some (false, w) => w + w | _ => 0 end)%Qc) /\
  (forall s v, In (s, v) (inc_cos r ++ inc_expense r)%list <-> has_type g s Expense /\ touched ts s /\
     v = (debits ts s - credits ts s + match first_posting s ts with Some (true, w) => w + w | _ => 0 end)%Qc) /\
  (forall s v, In (s, v) (inc_cos r) -> starts_with s "Cost of Sales" = true) /\
  (forall s v, In (s, v) (inc_expense r) -> starts_with s "Cost of Sales" = false) /\
  NoDup (keys (inc_revenue r)) /\ NoDup (keys (inc_cos r ++ inc_expense r)%list) /\
  inc_gross r = (Qcsum (map snd (inc_revenue r)) - Qcsum (map snd (inc_cos r)))%Qc /\
  inc_total_expenses r = Qcsum (map snd (inc_expense r)) /\
  inc_net r = (inc_gross r - inc_total_expenses r)%Qc.
Proof.
  intros ops l start fin path r Ho Hs. apply income_statement_exact_lines.
  rewrite Hs. apply built_unnamed_free, Ho.
Qed.
Print Assumptions C15_income_statement_lines_exact.
(** ... and the property when each account is first posted on its normal side.
    Missing: accounts first posted on the other side (false, see above). *)
Theorem C15_income_statement_partial : forall ops l start fin path r, forallb op_names_ok ops = true ->
  l_structure l = built ops -> income_statement_report l start fin path = Ok r ->
  let g := l_structure l in let ts := operating (selected start fin path (l_txs l)) in
  normal_first g ts ->
  (forall s v, In (s, v) (inc_revenue r) <-> has_type g s Revenue /\ touched ts s /\ v = (credits ts s - debits ts s)%Qc) /\
  (forall s v, In (s, v) (inc_cos r ++ inc_expense r)%list <-> has_type g s Expense /\ touched ts s /\ v = (debits ts s - credits ts s)%Qc) /\
  inc_net r = income_net_credit g ts.
Proof.
  intros ops l start fin path r Ho Hs. apply income_statement_normal.
  rewrite Hs. apply built_unnamed_free, Ho.
Qed.
Print Assumptions C15_income_statement_partial.
Example C15_case : exists r, income_statement_report sample_ledger (at_ 2016 1 1) (at_ 2016 12 31) "Co" = Ok r /\
  keys (inc_revenue r) = ["Sales"] /\ keys (inc_cos r) = ["Cost of Sales"] /\
  keys (inc_expense r) = ["Expense"] /\ inc_net r = q 35.
Proof. eexists; split; [vm_compute; reflexivity|]. repeat split; try reflexivity; apply Qc_is_canon; vm_compute; reflexivity. Qed.

(** C16 *)
Theorem C16_trial_balance : forall ops txs, forallb op_names_ok ops = true -> names_distinct (built ops) ->
  (forall t, In t txs -> exists_account (built ops) (tx_dt t) /\ exists_account (built ops) (tx_cr t)) ->
  Qcsum (map (fun a => (debits txs (a_path a) - credits txs (a_path a))%Qc) (all_accounts (built ops))) = 0%Qc.
Proof. exact trial_balance. Qed.
Print Assumptions C16_trial_balance.
Example C16_case : names_distinct (built []) /\
  forall t, In t (l_txs sample_ledger) -> exists_account (built []) (tx_dt t) /\ exists_account (built []) (tx_cr t).
Proof.
  split; [apply names_distinct_b_spec; vm_compute; reflexivity|].
  intros t [<-|[<-|[<-|[<-|[]]]]]; cbn; split; eexists _, _; split; try reflexivity; vm_compute; reflexivity.
Qed.

(** C53: the structure report lists every I and B account once, and needs
    every one of them to have a number. *)
Theorem C53_structure_report_lists : forall g rows, gls_report g = Ok rows ->
  Permutation (map row_key rows)
    (map acct_key (flat_map acct_and_descendants (filter (number_starts "I") (g_accounts g) ++
                                                  filter (number_starts "B") (g_accounts g)))).
Proof. exact gls_report_lists. Qed.
Print Assumptions C53_structure_report_lists.
Theorem C53_structure_report_needs_numbers : forall g a rows, gls_report g = Ok rows ->
  In a (flat_map acct_and_descendants (filter (number_starts "I") (g_accounts g) ++
                                       filter (number_starts "B") (g_accounts g))) -> numbered a.
Proof. exact gls_report_needs_numbers. Qed.
Print Assumptions C53_structure_report_needs_numbers.
(** An account created with the default number (None) makes the report fail. *)
Theorem C53_default_number_refuted : exists ops, gls_report (built ops) = Err TypeError /\ ops = [OCreate 17 "FNB" None].
Proof. eexists; split; [|reflexivity]. vm_compute. reflexivity. Qed.
Print Assumptions C53_default_number_refuted.
Example C53_case : exists rows, gls_report (built [OCreate 17 "FNB" (Some "0001")]) = Ok rows /\
  In (mkglsrow Asset "B60/0001" "FNB") rows /\ length rows = 28%nat.
Proof. eexists. split; [vm_compute; reflexivity|]. split; [|reflexivity]. repeat ((left; reflexivity) || right). Qed.
