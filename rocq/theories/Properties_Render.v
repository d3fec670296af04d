(** C93: what the report methods of the ledger return, print and write. *)
From Verif Require Import Prelude M_Stoichiometry M_Text M_Dates M_Accounts M_Ledger M_Csv M_Tables M_Render Spec_Accounts Spec_Ledger Spec_Tables P_Tables Properties_Csv Properties_Tables Properties_Ledger.
Local Open Scope string_scope.
Local Open Scope list_scope.

(** The three reports, each as a function of the format and the output path. *)
Inductive report (draw latex : list row -> text) : (report_format -> option text -> res effects) -> Prop :=
| rp_transactions l start fin path : report draw latex (fun f o => ledger_transaction_list draw latex l start fin f path o)
| rp_balance l fin : report draw latex (fun f o => ledger_balance_sheet draw latex l fin f o)
| rp_income l start fin path : report draw latex (fun f o => ledger_income_statement draw latex l start fin f path o).
Lemma report_table draw latex rp : report draw latex rp -> exists t, forall f o, rp f o = do table <- t; Ok (render draw latex f o table).
Proof.
  intros [l start fin path|l fin|l start fin path]; [exists (transaction_table l start fin path)|exists (do sh <- balance_sheet_report l fin; balance_table sh)|exists (do st <- income_statement_report l start fin path; Ok (income_table st))]; intros f o; [reflexivity| |].
  - unfold ledger_balance_sheet. destruct (balance_sheet_report l fin); reflexivity. - unfold ledger_income_statement. destruct (income_statement_report l start fin path); reflexivity.
Qed.

(** A report that fails, fails in every format, with the same exception, and then
    nothing is printed or written. *)
Theorem C93_fails_alike : forall draw latex rp e f o f' o', report draw latex rp -> rp f o = Err e -> rp f' o' = Err e.
Proof. intros draw latex rp e f o f' o' R H. destruct (report_table _ _ _ R) as [t T]. rewrite T in H |- *. destruct t; [discriminate|exact H]. Qed.
Print Assumptions C93_fails_alike.

(** Only the format string returns a text; the others return None.  The format string
    prints and writes nothing. *)
Theorem C93_returned : forall draw latex rp f o x, report draw latex rp -> rp f o = Ok x ->
  (returned x <> None <-> f = Str) /\ (f = Str -> console x = [] /\ written x = None).
Proof.
  intros draw latex rp f o x R H. destruct (report_table _ _ _ R) as [t T]. rewrite T in H. destruct t as [table|]; [|discriminate]. injection H as <-.
  split; [|intros ->; split; reflexivity]. destruct f, o; cbn; (split; [try congruence; try reflexivity|try discriminate]); congruence.
Qed.
Print Assumptions C93_returned.

(** The text that the format string returns is what is printed, with a line end after
    it, by printout whatever the output path is and by txt without an output path,
    and it is what txt writes into the file with an output path. *)
Theorem C93_same_text : forall draw latex rp o x, report draw latex rp -> rp Str o = Ok x ->
  exists t, returned x = Some t /\
    (forall o', rp Printout o' = Ok (mkeff None (t ++ ["010"%char]) None)) /\
    rp Txt None = Ok (mkeff None (t ++ ["010"%char]) None) /\
    forall p, rp Txt (Some p) = Ok (mkeff None [] (Some (p ++ text_of ".txt", t))).
Proof.
  intros draw latex rp o x R H. destruct (report_table _ _ _ R) as [t T]. rewrite T in H. destruct t as [table|]; [|discriminate]. injection H as <-. exists (draw table). split; [reflexivity|]. repeat split; intros; rewrite T; reflexivity.
Qed.
Print Assumptions C93_same_text.

(** A file is written exactly if there is an output path and the format is latex, txt
    or csv; its name is the output path and the extension of the format.  Something is
    printed exactly by printout and, without an output path, by latex, txt and csv: a
    call never both prints and writes. *)
Definition extension (f : report_format) : option string := match f with Latex => Some ".tex" | Txt => Some ".txt" | Csv => Some ".csv" | _ => None end.
Theorem C93_files : forall draw latex rp f o x, report draw latex rp -> rp f o = Ok x ->
  (forall name, (exists t, written x = Some (name, t)) <-> exists p e, o = Some p /\ extension f = Some e /\ name = p ++ text_of e) /\
  (console x <> [] <-> f = Printout \/ o = None /\ extension f <> None).
Proof.
  intros draw latex rp f o x R H. destruct (report_table _ _ _ R) as [t T]. rewrite T in H. destruct t as [table|]; [|discriminate]. injection H as <-.
  assert (NE : forall t : text, t ++ [lf] <> []) by (intros t X; apply app_eq_nil in X; destruct X; discriminate).
  split.
  - intros name. destruct f, o as [p|]; cbn; split; intros X; try (destruct X as (? & X); discriminate); try (destruct X as (? & ? & X1 & X2 & X3); try discriminate; injection X1 as <-; injection X2 as <-; subst; eauto);
    destruct X as (? & X); injection X as <- _; eauto.
  - destruct f, o as [p|]; cbn; split; intros X; auto; try congruence; try apply NE; try (right; split; congruence); destruct X as [X|[X Y]]; congruence.
Qed.
Print Assumptions C93_files.

(** matplotlib and png do nothing: there is no such report. *)
Theorem C93_no_pictures : forall draw latex rp f o x, report draw latex rp -> rp f o = Ok x -> f = Matplotlib \/ f = Png -> x = mkeff None [] None.
Proof. intros draw latex rp f o x R H F. destruct (report_table _ _ _ R) as [t T]. rewrite T in H. destruct t as [table|]; [|discriminate]. injection H as <-. destruct F as [-> | ->]; [reflexivity|destruct o; reflexivity]. Qed.
Print Assumptions C93_no_pictures.

(** As csv, the file and the printed text are those of C71 and C75: read back, they give
    the table of the report. *)
Theorem C93_csv : forall draw latex l start fin path table, transaction_table l start fin path = Ok table ->
  (forall t, In t (l_txs l) -> plain (tx_name t) /\ plain (str_of (tx_source t)) /\ plain (str_of (tx_dt t)) /\ plain (str_of (tx_cr t)) /\ plain (str_of (tx_desc t))) ->
  exists t, csv_read t = (table, None) /\
    (forall p, ledger_transaction_list draw latex l start fin Csv path (Some p) = Ok (mkeff None [] (Some (p ++ text_of ".csv", t)))) /\
    ledger_transaction_list draw latex l start fin Csv path None = Ok (mkeff None (t ++ ["010"%char]) None).
Proof. intros draw latex l start fin path table H P. exists (render_csv table). split; [eapply C75_transaction_csv; eauto|]. unfold ledger_transaction_list. rewrite H. split; reflexivity. Qed.
Print Assumptions C93_csv.
Theorem C93_balance_csv : forall draw latex l fin sh table, balance_sheet_report l fin = Ok sh -> balance_table sh = Ok table ->
  (forall s, In s (keys (sheet_assets sh) ++ keys (sheet_liab sh) ++ keys (sheet_equity sh)) -> plain s) ->
  exists t, csv_read t = (table, None) /\
    (forall p, ledger_balance_sheet draw latex l fin Csv (Some p) = Ok (mkeff None [] (Some (p ++ text_of ".csv", t)))) /\
    ledger_balance_sheet draw latex l fin Csv None = Ok (mkeff None (t ++ ["010"%char]) None).
Proof. intros draw latex l fin sh table H H2 P. exists (render_csv table). split; [eapply C75_balance_csv; eauto|]. unfold ledger_balance_sheet. rewrite H. cbn [bind]. rewrite H2. split; reflexivity. Qed.
Print Assumptions C93_balance_csv.
Theorem C93_income_csv : forall draw latex l start fin path st, income_statement_report l start fin path = Ok st ->
  (forall s, In s (keys (inc_revenue st) ++ keys (inc_cos st) ++ keys (inc_expense st)) -> plain s) ->
  exists t, csv_read t = (income_table st, None) /\
    (forall p, ledger_income_statement draw latex l start fin Csv path (Some p) = Ok (mkeff None [] (Some (p ++ text_of ".csv", t)))) /\
    ledger_income_statement draw latex l start fin Csv path None = Ok (mkeff None (t ++ ["010"%char]) None).
Proof. intros draw latex l start fin path st H P. exists (render_csv (income_table st)). split; [now apply C75_income_csv|]. unfold ledger_income_statement. rewrite H. split; reflexivity. Qed.
Print Assumptions C93_income_csv.

(** A ledger with one sale. *)
Definition sale (a : Z) : tx := mktx "sale" None (PDateTime (mkdt 2016 1 31 0)) (Some "Bank/Default") (Some "Sales") (Some "shop") (q a) false false.
Definition one_sale (a : Z) : ledger := mkledger (built []) [sale a].
Definition whole : pytime * pytime := (PDateTime dt_min, PDateTime dt_max).
Example C93_case :
  ledger_transaction_list (fun _ => text_of "drawing") (fun _ => []) (one_sale 20) (fst whole) (snd whole) Csv "" None = Ok (mkeff None (text_of "Date,Source,Tx Name,Debit Account,Credit Account,Amount,Description
2016-01-31 00:00:00,shop,sale,Bank/Default,Sales,20.00,
,,Total,,,20.00,

") None) /\
  ledger_balance_sheet (fun _ => text_of "drawing") (fun _ => []) (one_sale 20) (snd whole) Txt (Some (text_of "out")) = Ok (mkeff None [] (Some (text_of "out.txt", text_of "drawing"))) /\
  ledger_income_statement (fun _ => text_of "drawing") (fun _ => []) (one_sale 20) (fst whole) (snd whole) Str "" None = Ok (mkeff (Some (text_of "drawing")) [] None).
Proof. vm_compute. repeat split. Qed.
