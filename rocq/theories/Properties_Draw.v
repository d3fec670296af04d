(** C94: what the drawn reports show.  [tabulate int_of float_of] is the drawing, with
    Python's int() and float() of a text as arguments that read numbers as Python does
    (reads_numbers). *)
From Verif Require Import Prelude M_Stoichiometry M_Text M_Dates M_Accounts M_Ledger M_Csv M_Tables M_Print M_Json M_Tabulate M_Render Spec_Accounts Spec_Ledger Spec_Text Spec_Tables Spec_Print Spec_Tabulate P_Text P_File P_Tables P_Print P_Print3 P_General P_Tabulate P_Draw P_Draw2 P_Draw3 Properties_Ledger Properties_Tables Properties_Render.
From Coq Require Import Qabs Reals Lra Lia.
Local Open Scope string_scope.
Local Open Scope list_scope.

(** A drawn table can be read in one way only. *)
Theorem C94_one_reading : forall t h cs h' cs', shows_table t h cs -> shows_table t h' cs' -> h = h' /\ cs = cs'.
Proof. exact shows_unique. Qed.
Print Assumptions C94_one_reading.

(** Every table with rows as long as its header shows all its headers and rows in
    order, and every cell of a column that has a cell that is not a number, without
    the white space around it. *)
Theorem C94_columns : forall int_of float_of headers rows, headers <> [] -> Forall tidy headers -> Forall (fun r => length r = length headers /\ Forall tidy r) rows ->
  (forall t, int_of t = true -> float_of t <> None) ->
  exists cells, shows_table (tabulate int_of float_of (headers :: rows)) (map strip headers) cells /\
    Forall2 (fun r c => length c = length r /\ forall j r', (j < length r)%nat -> In r' rows -> float_of (nth j r' []) = None -> nth j c [] = strip (nth j r [])) rows cells.
Proof.
  intros int_of float_of headers rows N TH TR RI. exists (map (shown_row int_of float_of rows) rows). split; [now apply tabulate_shows|]. apply forall2_map. intros r IR. unfold shown_row. split; [rewrite map_length, combine_length, seq_length; unfold row, text; lia|].
  intros j r' J I' F. assert (T : column_type int_of float_of (column rows j) = 4%Z).
  { destruct (column_from int_of float_of (column rows j) 1) as [A B]; [lia|]. unfold column_type. specialize (B (nth j r' [])). assert (C : cell_type int_of float_of (nth j r' []) = 4%Z) by (unfold cell_type; destruct (int_of (nth j r' [])) eqn:E; [exfalso; now apply (RI _ E)|now rewrite F]). rewrite C in B. assert (In (nth j r' []) (column rows j)) by (unfold column; apply in_map_iff; eauto). specialize (B H). lia. }
  destruct (nth_error r j) as [x|] eqn:E; [|apply nth_error_None in E; unfold row, text in *; lia]. rewrite (nth_error_nth r j [] E). apply nth_error_nth. rewrite nth_error_map, (numbered_nth r 0 j x E). cbn [option_map fst snd Nat.add]. now rewrite T.
Qed.
Print Assumptions C94_columns.

(** The balance sheet and the income statement show all the cells of C75. *)
Theorem C94_balance_sheet : forall int_of float_of latex l fin sh table o, reads_numbers int_of float_of -> balance_sheet_report l fin = Ok sh -> balance_table sh = Ok table ->
  (forall s, In s (keys (sheet_assets sh) ++ keys (sheet_liab sh) ++ keys (sheet_equity sh)) -> tidy (text_of s)) ->
  exists t, ledger_balance_sheet (tabulate int_of float_of) latex l fin Str o = Ok (mkeff (Some t) [] None) /\ shows_table t (map strip (hd [] table)) (map (map strip) (tl table)).
Proof. intros int_of float_of latex l fin sh table o RN H HT P. exists (tabulate int_of float_of table). split; [unfold ledger_balance_sheet; rewrite H; cbn [bind]; now rewrite HT|eapply balance_shows; eauto]. Qed.
Print Assumptions C94_balance_sheet.
Theorem C94_income_statement : forall int_of float_of latex l start fin path st o, reads_numbers int_of float_of -> income_statement_report l start fin path = Ok st ->
  (forall s, In s (keys (inc_revenue st) ++ keys (inc_cos st) ++ keys (inc_expense st)) -> tidy (text_of s)) ->
  exists t, ledger_income_statement (tabulate int_of float_of) latex l start fin Str path o = Ok (mkeff (Some t) [] None) /\ shows_table t (map strip (hd [] (income_table st))) (map (map strip) (tl (income_table st))).
Proof. intros int_of float_of latex l start fin path st o RN H P. exists (tabulate int_of float_of (income_table st)). split; [unfold ledger_income_statement; now rewrite H|now apply income_shows]. Qed.
Print Assumptions C94_income_statement.

(** The transaction list shows all but the amounts; of an amount in hundredths, it
    shows six digits, which is the amount itself if it is below ten thousand. *)
Definition drawn_line (r c : list text) : Prop := exists d s n dt cr t a e, r = [d; s; n; dt; cr; t; e] /\ c = [strip d; strip s; strip n; strip dt; strip cr; a; strip e] /\
  forall neg k, (0 <= k)%Z -> amount_text neg k t -> amount_shown neg k a.
Definition tidy_tx (t : tx) : Prop := tidy (text_of (tx_name t)) /\ tidy (text_of (str_of (tx_source t))) /\ tidy (text_of (str_of (tx_dt t))) /\ tidy (text_of (str_of (tx_cr t))) /\ tidy (text_of (str_of (tx_desc t))).
Definition within (x : Qc) : Prop := (Qabs x <= inject_Z (10 ^ 297))%Q.
Theorem C94_transaction_list_partial : forall int_of float_of latex l start fin path rows tot o, reads_numbers int_of float_of -> transaction_list l start fin path = Ok (rows, tot) ->
  (forall t, In t (l_txs l) -> tidy_tx t /\ within (tx_amount t)) -> within tot ->
  exists t table cells, ledger_transaction_list (tabulate int_of float_of) latex l start fin Str path o = Ok (mkeff (Some t) [] None) /\ transaction_table l start fin path = Ok table /\
    shows_table t (map strip (hd [] table)) cells /\ Forall2 drawn_line (tl table) cells.
Proof.
  intros int_of float_of latex l start fin path rows tot o RN H P BT. destruct (transaction_shows int_of float_of RN l start fin path rows tot H) as (table & cells & T & S & F); auto.
  - intros r I. destruct (C12_transaction_list_exact _ _ _ _ _ _ H) as (ts & -> & PM & _). apply in_map_iff in I. destruct I as (t & <- & I). apply (Permutation.Permutation_in _ PM) in I. unfold selected in I. apply filter_In in I. destruct (P t (proj1 I)) as [(A & B & C & D & E) W].
    unfold tl_row_of. cbn [r_date r_source r_name r_dt r_cr r_amount r_desc]. split; auto. split; [destruct (ends_with _ _); auto; intros c []|]. split; [destruct (tx_dt t); auto|]. split; [destruct (tx_cr t); auto|]. split; auto.
  - exists (tabulate int_of float_of table), table, cells. split; [unfold ledger_transaction_list; rewrite T; reflexivity|]. auto.
Qed.
Print Assumptions C94_transaction_list_partial.
(** Two transaction lists that are drawn alike have the same lines, but for amounts of ten
    thousand and more. *)
Definition alike (r r' : list text) : Prop := exists d s n dt cr t e d' s' n' dt' cr' t' e', r = [d; s; n; dt; cr; t; e] /\ r' = [d'; s'; n'; dt'; cr'; t'; e'] /\
  strip d = strip d' /\ strip s = strip s' /\ strip n = strip n' /\ strip dt = strip dt' /\ strip cr = strip cr' /\ strip e = strip e' /\
  forall neg k neg' k', (0 <= k < 10 ^ 6)%Z -> (0 <= k' < 10 ^ 6)%Z -> amount_text neg k t -> amount_text neg' k' t' -> neg = neg' /\ k = k'.
Theorem C94_transactions_tell_partial : forall int_of float_of latex l start fin path rows tot o l' start' fin' path' rows' tot' o' x, reads_numbers int_of float_of ->
  transaction_list l start fin path = Ok (rows, tot) -> (forall t, In t (l_txs l) -> tidy_tx t /\ within (tx_amount t)) -> within tot ->
  transaction_list l' start' fin' path' = Ok (rows', tot') -> (forall t, In t (l_txs l') -> tidy_tx t /\ within (tx_amount t)) -> within tot' ->
  ledger_transaction_list (tabulate int_of float_of) latex l start fin Str path o = Ok x -> ledger_transaction_list (tabulate int_of float_of) latex l' start' fin' Str path' o' = Ok x ->
  exists table table', transaction_table l start fin path = Ok table /\ transaction_table l' start' fin' path' = Ok table' /\ Forall2 alike (tl table) (tl table').
Proof.
  intros int_of float_of latex l start fin path rows tot o l' start' fin' path' rows' tot' o' x RN H P B H' P' B' X X'.
  destruct (C94_transaction_list_partial int_of float_of latex l start fin path rows tot o RN H P B) as (t & table & cells & E & T & S & F). destruct (C94_transaction_list_partial int_of float_of latex l' start' fin' path' rows' tot' o' RN H' P' B') as (t' & table' & cells' & E' & T' & S' & F').
  exists table, table'. split; auto. split; auto. rewrite E in X. rewrite E' in X'. assert (t = t') by congruence. subst t'. destruct (shows_unique _ _ _ _ _ S S') as [_ <-]. clear - F F'. revert F'. generalize (tl table'). induction F as [|r c rs cs (d & s & n & dt & cr & t & a & e & -> & -> & A) F IH]; intros rs' F'; inversion F' as [|r' ? rs'' ? (d' & s' & n' & dt' & cr' & t' & a' & e' & -> & EC & A') F2]; subst; constructor; auto.
  injection EC as E1 E2 E3 E4 E5 <- E7. exists d, s, n, dt, cr, t, e, d', s', n', dt', cr', t', e'. repeat (split; [now auto|]).
  intros neg k neg' k' K K' T T'. destruct (A neg k (proj1 K) T) as [_ D]. destruct (A' neg' k' (proj1 K') T') as [_ D']. destruct (denotes_unique _ _ _ _ _ (D (proj2 K)) (D' (proj2 K'))) as [-> V]. split; auto. apply eq_IZR. lra.
Qed.
Print Assumptions C94_transactions_tell_partial.
(** Large amounts in hundredths are not shown to the hundredth: sales of 1234567 and of
    1234568 are drawn alike. *)
Theorem C94_large_amounts_refuted : forall int_of float_of latex, reads_numbers int_of float_of -> exists l l' x,
  map tx_amount (l_txs l) <> map tx_amount (l_txs l') /\
  ledger_transaction_list (tabulate int_of float_of) latex l (fst whole) (snd whole) Str "" None = Ok x /\
  ledger_transaction_list (tabulate int_of float_of) latex l' (fst whole) (snd whole) Str "" None = Ok x.
Proof.
  intros int_of float_of latex RN. pose (head := map text_of ["Date"; "Source"; "Tx Name"; "Debit Account"; "Credit Account"; "Amount"; "Description"]).
  pose (body := fun a : text => [[text_of "2016-01-31 00:00:00"; text_of "shop"; text_of "sale"; text_of "Bank/Default"; text_of "Sales"; a; []]; [[]; []; text_of "Total"; []; []; a; []]]).
  assert (T1 : transaction_table (one_sale 1234567) (fst whole) (snd whole) "" = Ok (head :: body (text_of "1234567.00"))) by (vm_compute; reflexivity).
  assert (T2 : transaction_table (one_sale 1234568) (fst whole) (snd whole) "" = Ok (head :: body (text_of "1234568.00"))) by (vm_compute; reflexivity).
  exists (one_sale 1234567), (one_sale 1234568). eexists. split; [vm_compute; discriminate|]. unfold ledger_transaction_list. rewrite T1, T2. cbn [bind render]. split; [reflexivity|].
  do 3 f_equal. symmetry.
  assert (A : forall n whole_, numeral (n / 100) whole_ -> (n mod 100 = 0)%Z -> amount_text false n (whole_ ++ ["."; "0"; "0"]%char)) by (intros n w W M; exists w, "0"%char, "0"%char; rewrite M; repeat split; auto; apply W).
  assert (A1 : amount_text false 123456700 (text_of "1234567.00")). { apply (A 123456700%Z (text_of "1234567")); [|reflexivity]. split; [discriminate|]. split; [repeat constructor|]. split; [reflexivity|]. intros u X. discriminate. }
  assert (A2 : amount_text false 123456800 (text_of "1234568.00")). { apply (A 123456800%Z (text_of "1234568")); [|reflexivity]. split; [discriminate|]. split; [repeat constructor|]. split; [reflexivity|]. intros u X. discriminate. }
  assert (B : forall n, (0 <= n < 10 ^ 9)%Z -> (0 <= n < 10 ^ 300)%Z) by (intros n [X Y]; split; auto; apply Z.lt_trans with (1 := Y); apply Z.pow_lt_mono_r; lia).
  assert (F1 : format_cell float_of 2 (text_of "1234567.00") = general (123457, 6)%Z) by (eapply (large_amount int_of float_of RN); [apply B|exact A1|..]; lia).
  assert (F2 : format_cell float_of 2 (text_of "1234568.00") = general (123457, 6)%Z) by (eapply (large_amount int_of float_of RN); [apply B|exact A2|..]; lia).
  assert (C1 : cell_type int_of float_of (text_of "1234567.00") = 2%Z) by (eapply (amount_cell int_of float_of RN); [apply B|exact A1]; lia).
  assert (C2 : cell_type int_of float_of (text_of "1234568.00") = 2%Z) by (eapply (amount_cell int_of float_of RN); [apply B|exact A2]; lia).
  apply tabulate_alike; [reflexivity|]. intros j x J. do 5 (destruct j as [|j]; [reflexivity|]). destruct j as [|j]; [|destruct j as [|j]; [reflexivity|cbn in J; lia]].
  assert (K : forall a, column (body a) 5 = [a; a]) by reflexivity. rewrite !K. apply printed_alike; [reflexivity| |].
  - unfold column_type. cbn [fold_left]. rewrite C1, C2. reflexivity.
  - replace (column_type int_of float_of [text_of "1234567.00"; text_of "1234567.00"]) with 2%Z by (unfold column_type; cbn [fold_left]; rewrite C1; reflexivity). cbn [map]. rewrite F1, F2. reflexivity.
Qed.
Print Assumptions C94_large_amounts_refuted.

(** There is a reader of numbers as assumed. *)
Example C94_reader : exists int_of float_of, reads_numbers int_of float_of.
Proof. exists no_int, read_amount. exact reader_ok. Qed.
(** A ledger with a sale of 20. *)
Example C94_case : (exists t, ledger_transaction_list (tabulate no_int read_amount) (fun _ => []) (one_sale 20) (fst whole) (snd whole) Str "" None = Ok (mkeff (Some t) [] None) /\
  exists cells, shows_table t (map text_of ["Date"; "Source"; "Tx Name"; "Debit Account"; "Credit Account"; "Amount"; "Description"]) cells) /\
  exists t, ledger_balance_sheet (tabulate no_int read_amount) (fun _ => []) (one_sale 20) (snd whole) Str None = Ok (mkeff (Some t) [] None).
Proof.
  split.
  - assert (E : exists rows tot, transaction_list (one_sale 20) (fst whole) (snd whole) "" = Ok (rows, tot) /\ tot = q 20) by (eexists _, _; split; [vm_compute; reflexivity|apply Qc_is_canon; vm_compute; reflexivity]).
    destruct E as (rows & tot & E & ->). destruct (C94_transaction_list_partial no_int read_amount (fun _ => []) (one_sale 20) (fst whole) (snd whole) "" rows (q 20) None reader_ok E) as (t & table & cells & A & T & S & _).
    + intros t [<-|[]]. split; [repeat split; apply tidy_check; vm_compute; reflexivity|]. unfold within. cbn [tx_amount sale]. vm_compute. discriminate.
    + unfold within. vm_compute. discriminate.
    + exists t. split; auto. exists cells. unfold transaction_table in T. rewrite E in T. cbn [bind] in T. injection T as <-. exact S.
  - eexists. unfold ledger_balance_sheet. reflexivity.
Qed.
