(** C99: what the LaTeX reports show.  [tabulate_latex int_of float_of] is the drawing, with
    Python's int() and float() of a text as arguments. *)
From Verif Require Import Prelude M_Stoichiometry M_Text M_Dates M_Accounts M_Ledger M_Csv M_Tables M_Print M_Json M_Tabulate M_Latex M_Render Spec_Accounts Spec_Ledger Spec_Text Spec_Tables Spec_Print Spec_Tabulate Spec_Latex P_Text P_File P_Tables P_Print P_Print3 P_Tabulate P_Draw P_Draw2 P_Draw3 P_Latex P_Latex2 Properties_Ledger Properties_Tables Properties_Render Properties_Draw.
From Coq Require Import Lia.
Local Open Scope string_scope.
Local Open Scope list_scope.

(** A LaTeX source is set in one way only: no cell can be taken for the end of a cell or of
    a line, and the columns, the headers and the cells are those that were meant. *)
Theorem C99_one_reading : forall al h cs al' h' cs' t, tex_table al h cs t -> tex_table al' h' cs' t -> al = al' /\ h = h' /\ cs = cs'.
Proof. exact table_unique. Qed.
Print Assumptions C99_one_reading.

(** Every table with a row and with rows as long as its header is set as a tabular with
    a column for every header, flush right if all its cells are numbers and flush left
    if not, and with the headers and cells that the plain drawing of C94 shows. *)
Theorem C99_table : forall int_of float_of headers rows, headers <> [] -> rows <> [] -> Forall tidy headers -> Forall (fun r => length r = length headers /\ Forall tidy r) rows ->
  (forall t, int_of t = true -> float_of t <> None) ->
  exists letters cells, tex_table letters (map strip headers) cells (tabulate_latex int_of float_of (headers :: rows)) /\
    shows_table (tabulate int_of float_of (headers :: rows)) (map strip headers) cells /\
    forall j, (j < length headers)%nat -> nth j letters "l"%char = "r"%char <-> (forall r, In r rows -> float_of (nth j r []) <> None).
Proof.
  intros int_of float_of headers rows N NR TH TR RI. exists (letters_of int_of float_of headers rows), (map (shown_row int_of float_of rows) rows). split; [now apply latex_shows|]. split; [now apply tabulate_shows|]. intros j L. now apply letters_nth.
Qed.
Print Assumptions C99_table.

(** What a call for a LaTeX report does with the source [t]: it prints it, or writes it
    to the file with the ending .tex. *)
Definition latex_out (o : option text) (t : text) : effects :=
  match o with None => mkeff None (t ++ ["010"%char]) None | Some p => mkeff None [] (Some (p ++ text_of ".tex", t)) end.
Theorem C99_balance_sheet : forall int_of float_of draw l fin sh table o, reads_numbers int_of float_of -> balance_sheet_report l fin = Ok sh -> balance_table sh = Ok table ->
  (forall s, In s (keys (sheet_assets sh) ++ keys (sheet_liab sh) ++ keys (sheet_equity sh)) -> tidy (text_of s)) ->
  exists t letters, ledger_balance_sheet draw (tabulate_latex int_of float_of) l fin Latex o = Ok (latex_out o t) /\ tex_table letters (map strip (hd [] table)) (map (map strip) (tl table)) t.
Proof.
  intros int_of float_of draw l fin sh table o RN H HT P. exists (tabulate_latex int_of float_of table). destruct (same_cells int_of float_of table _ _ (balance_tidy sh table HT P) (balance_shows int_of float_of RN sh table HT P)) as [letters T]. exists letters. split; [|exact T].
  unfold ledger_balance_sheet. rewrite H. cbn [bind]. rewrite HT. destruct o; reflexivity.
Qed.
Print Assumptions C99_balance_sheet.
Theorem C99_income_statement : forall int_of float_of draw l start fin path st o, reads_numbers int_of float_of -> income_statement_report l start fin path = Ok st ->
  (forall s, In s (keys (inc_revenue st) ++ keys (inc_cos st) ++ keys (inc_expense st)) -> tidy (text_of s)) ->
  exists t letters, ledger_income_statement draw (tabulate_latex int_of float_of) l start fin Latex path o = Ok (latex_out o t) /\ tex_table letters (map strip (hd [] (income_table st))) (map (map strip) (tl (income_table st))) t.
Proof.
  intros int_of float_of draw l start fin path st o RN H P. exists (tabulate_latex int_of float_of (income_table st)). destruct (same_cells int_of float_of _ _ _ (income_tidy st P) (income_shows int_of float_of RN st P)) as [letters T]. exists letters. split; [|exact T].
  unfold ledger_income_statement. rewrite H. destruct o; reflexivity.
Qed.
Print Assumptions C99_income_statement.
(** The transaction list, where amounts are shown to six digits (C94). *)
Theorem C99_transaction_list_partial : forall int_of float_of draw l start fin path rows tot o, reads_numbers int_of float_of -> transaction_list l start fin path = Ok (rows, tot) ->
  (forall t, In t (l_txs l) -> tidy_tx t /\ within (tx_amount t)) -> within tot ->
  exists t letters table cells, ledger_transaction_list draw (tabulate_latex int_of float_of) l start fin Latex path o = Ok (latex_out o t) /\ transaction_table l start fin path = Ok table /\
    tex_table letters (map strip (hd [] table)) cells t /\ Forall2 drawn_line (tl table) cells.
Proof.
  intros int_of float_of draw l start fin path rows tot o RN H P BT. destruct (C94_transaction_list_partial int_of float_of draw l start fin path rows tot None RN H P BT) as (t0 & table & cells & E & T & S & F).
  assert (E0 : t0 = tabulate int_of float_of table) by (unfold ledger_transaction_list in E; rewrite T in E; cbn [bind render] in E; congruence). subst t0.
  assert (TT : tidy_table table).
  { eapply transaction_tidy; eauto. intros r I. destruct (C12_transaction_list_exact _ _ _ _ _ _ H) as (ts & -> & PM & _). apply in_map_iff in I. destruct I as (t & <- & I). apply (Permutation.Permutation_in _ PM) in I. unfold selected in I. apply filter_In in I. destruct (P t (proj1 I)) as [(A & B & C & D & G) W].
    unfold tl_row_of. cbn [r_date r_source r_name r_dt r_cr r_amount r_desc]. split; auto. split; [destruct (ends_with _ _); auto; intros c []|]. split; [destruct (tx_dt t); auto|]. split; [destruct (tx_cr t); auto|]. auto. }
  destruct (same_cells int_of float_of table _ _ TT S) as [letters X]. exists (tabulate_latex int_of float_of table), letters, table, cells. split; [|auto]. unfold ledger_transaction_list. rewrite T. destruct o; reflexivity.
Qed.
Print Assumptions C99_transaction_list_partial.
(** What can be read off: a LaTeX report and the plain report with the same cells are
    drawn from tables that show the same, in both directions. *)
Theorem C99_same_as_plain : forall int_of float_of table table', tidy_table table -> tidy_table table' ->
  tabulate_latex int_of float_of table = tabulate_latex int_of float_of table' -> exists h cs, shows_table (tabulate int_of float_of table) h cs /\ shows_table (tabulate int_of float_of table') h cs.
Proof.
  intros int_of float_of table table' (h & rows & -> & N & NR & TH & TR) (h' & rows' & -> & N' & NR' & TH' & TR') E.
  pose proof (latex_shows int_of float_of h rows N NR TH TR) as X. pose proof (latex_shows int_of float_of h' rows' N' NR' TH' TR') as X'. rewrite E in X. destruct (table_unique _ _ _ _ _ _ _ X X') as (_ & EH & EC).
  exists (map strip h), (map (shown_row int_of float_of rows) rows). split; [now apply tabulate_shows|]. rewrite EH, EC. now apply tabulate_shows.
Qed.
Print Assumptions C99_same_as_plain.

(** A table with the characters that LaTeX minds. *)
Example C99_case : tabulate_latex no_int (fun _ => None) [[text_of "R&D"; text_of "50%"]; [text_of "a_b"; text_of "{x^2}"]] =
  text_of "\begin{tabular}{ll}" ++ nl ++ text_of "\hline" ++ nl ++ text_of " R\&D   & 50\%   \\" ++ nl ++ text_of "\hline" ++ nl ++ text_of " a\_b   & \{x\^{}2\} \\" ++ nl ++ text_of "\hline" ++ nl ++ text_of "\end{tabular}".
Proof. vm_compute. reflexivity. Qed.
Example C99_case_meets : tidy_table [[text_of "R&D"; text_of "50%"]; [text_of "a_b"; text_of "{x^2}"]].
Proof. eexists _, _. split; [reflexivity|]. split; [discriminate|]. split; [discriminate|]. split; repeat (constructor; try (apply tidy_check; reflexivity)). Qed.
(** A balance sheet with a sale of 20. *)
Example C99_balance_case : exists sh table, balance_sheet_report (one_sale 20) (snd whole) = Ok sh /\ balance_table sh = Ok table /\
  forallb (fun s => tidyb (text_of s)) (keys (sheet_assets sh) ++ keys (sheet_liab sh) ++ keys (sheet_equity sh)) = true.
Proof. eexists _, _. split; [vm_compute; reflexivity|]. split; [vm_compute; reflexivity|]. vm_compute. reflexivity. Qed.
