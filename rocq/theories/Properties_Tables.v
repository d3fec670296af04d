(** C75: what the printed report tables show. *)
From Verif Require Import Prelude M_Stoichiometry M_Lists M_Dates M_Accounts M_Ledger M_Csv M_Strptime M_Tables Spec_Csv Spec_Dates2 Spec_Tables P_Ledger P_Csv P_Strptime P_Tables Properties_Ledger Properties_Csv Properties_Dates2 Spec_Ledger.
From Coq Require Import Qabs.
Local Open Scope Z_scope.
Local Open Scope list_scope.

(** Every amount is printed to the nearest hundredth, halves to the even side,
    with all its digits and a minus sign exactly if it is negative ... *)
Theorem C75_amounts : forall x, shows x (fmt2 x).
Proof. exact fmt2_shows. Qed.
Print Assumptions C75_amounts.
(** ... so that amounts printed alike differ by a hundredth at most. *)
Theorem C75_printed_alike : forall x y, fmt2 x = fmt2 y -> (Qabs (x - y) <= 1 # 100)%Q /\ ((x < 0)%Q <-> (y < 0)%Q).
Proof. intros x y E. apply (shows_close x y (fmt2 x)); [apply fmt2_shows|rewrite E; apply fmt2_shows]. Qed.
Print Assumptions C75_printed_alike.
Theorem C75_whole_hundredths : forall x y n m, this x == n # 100 -> this y == m # 100 -> fmt2 x = fmt2 y -> x = y.
Proof. exact cents_inj. Qed.
Print Assumptions C75_whole_hundredths.

(** The transaction list: a header, a line for every selected transaction in the
    order of C12, and the total. *)
Definition tx_line (t : tx) (r : row) : Prop := exists a n, shows (tx_amount t) a /\
  ((exists p, str_of (tx_source t) = (p ++ tx_name t)%string) -> n = []) /\ (~ (exists p, str_of (tx_source t) = (p ++ tx_name t)%string) -> n = text_of (tx_name t)) /\
  r = [pytime_str (tx_date t); text_of (str_of (tx_source t)); n;
       text_of (str_of (tx_dt t)); text_of (str_of (tx_cr t)); a; text_of (str_of (tx_desc t))].
Theorem C75_transaction_table : forall l start fin path rows tot, transaction_list l start fin path = Ok (rows, tot) ->
  exists ts body a, rows = map tl_row_of ts /\ Forall2 tx_line ts body /\ shows tot a /\
    transaction_table l start fin path = Ok (map text_of ["Date"; "Source"; "Tx Name"; "Debit Account"; "Credit Account"; "Amount"; "Description"]%string :: body ++ [[[]; []; text_of "Total"; []; []; a; []]]).
Proof.
  intros l start fin path rows tot H. destruct (C12_transaction_list_exact _ _ _ _ _ _ H) as (ts & -> & _). exists ts, (map tl_cells (map tl_row_of ts)), (fmt2 tot).
  split; auto. split; [|split; [apply fmt2_shows|]].
  - clear H. induction ts as [|t ts IH]; cbn [map]; constructor; auto. exists (fmt2 (tx_amount t)), (text_of (r_name (tl_row_of t))). split; [apply fmt2_shows|]. destruct (C12_row t) as (_ & _ & _ & _ & _ & _ & N1 & N2).
    split; [intros X; now rewrite (N1 X)|]. split; [intros X; now rewrite (N2 X)|]. unfold tl_cells, tl_row_of. cbn [r_date r_source r_name r_dt r_cr r_amount r_desc].
    destruct (ends_with _ _), (tx_dt t), (tx_cr t); reflexivity.
  - unfold transaction_table. rewrite H. reflexivity.
Qed.
Print Assumptions C75_transaction_table.
(** The date cells of a list tell the dates (and times) apart, and those of
    dates can be given back as text. *)
Theorem C75_date_cells : forall p q, valid_dt (py_raw p) -> valid_dt (py_raw q) -> (py_is_dt p = false -> dt_us (py_raw p) = 0) -> (py_is_dt q = false -> dt_us (py_raw q) = 0) ->
  pytime_str p = pytime_str q -> p = q.
Proof. exact pytime_str_inj. Qed.
Print Assumptions C75_date_cells.
Theorem C75_date_cells_read_back : forall y m d, valid_dt (mkdt y m d 0) -> get_date (DText (pytime_str (PDate (mkdt y m d 0)))) = Ok (PDate (mkdt y m d 0)).
Proof.
  intros y m d V. replace (pytime_str (PDate (mkdt y m d 0))) with (iso y m d); [apply C73_iso_round_trip; auto|]. unfold valid_dt in V. cbn [dt_year dt_month dt_day dt_us] in V. pose proof (P_Dates.dim_bounds y m).
  symmetry. apply date_str_iso; lia.
Qed.
Print Assumptions C75_date_cells_read_back.
(** A date with a time is the date, a blank and hours, minutes and seconds in two digits
    each with colons between them, and six more digits for microseconds if there are any. *)
Definition digits_of (k : nat) (n : Z) (t : text) : Prop := length t = k /\ Forall (fun c => is_digit c = true) t /\ value t = n.
Theorem C75_time_cells : forall y mo d h mi s us, valid_dt (mkdt y mo d 0) -> 0 <= h < 24 -> 0 <= mi < 60 -> 0 <= s < 60 -> 0 <= us < 1000000 ->
  exists a b c f, pytime_str (PDateTime (mkdt y mo d (((h * 60 + mi) * 60 + s) * 1000000 + us))) = iso y mo d ++ " "%char :: a ++ ":"%char :: b ++ ":"%char :: c ++ f /\
    digits_of 2 h a /\ digits_of 2 mi b /\ digits_of 2 s c /\ (us = 0 -> f = []) /\ (us <> 0 -> exists g, f = "."%char :: g /\ digits_of 6 us g).
Proof.
  intros y mo d h mi s us V Hh Hm Hs Hu. set (t := ((h * 60 + mi) * 60 + s) * 1000000 + us).
  assert (T1 : t / 3600000000 = h) by (unfold t; symmetry; apply (Z.div_unique_pos _ _ _ ((mi * 60 + s) * 1000000 + us)); lia).
  assert (T2 : t / 60000000 mod 60 = mi). { replace (t / 60000000) with (h * 60 + mi) by (unfold t; apply (Z.div_unique_pos _ _ _ (s * 1000000 + us)); lia). symmetry. apply (Z.mod_unique_pos _ _ h); lia. }
  assert (T3 : t / 1000000 mod 60 = s). { replace (t / 1000000) with ((h * 60 + mi) * 60 + s) by (unfold t; apply (Z.div_unique_pos _ _ _ us); lia). symmetry. apply (Z.mod_unique_pos _ _ (h * 60 + mi)); lia. }
  assert (T4 : t mod 1000000 = us) by (unfold t; symmetry; apply (Z.mod_unique_pos _ _ ((h * 60 + mi) * 60 + s)); lia).
  assert (DG : forall k n, 0 <= n < 10 ^ Z.of_nat k -> digits_of k n (padded k n)) by (intros k n N; split; [apply padded_length|]; split; [apply padded_digits|]; rewrite padded_value by lia; apply Z.mod_small; lia).
  exists (padded 2 h), (padded 2 mi), (padded 2 s), (if us =? 0 then [] else "."%char :: padded 6 us). split.
  - cbn [pytime_str dt_us]. unfold valid_dt in V. cbn [dt_year dt_month dt_day dt_us] in V. pose proof (P_Dates.dim_bounds y mo). rewrite (date_str_iso y mo d t) by lia. unfold time_str. rewrite T1, T2, T3, T4. reflexivity.
  - repeat (split; [apply DG; cbn; lia|]). split; intros U; [now rewrite U|]. destruct (Z.eqb_spec us 0); [contradiction|]. eexists. split; [reflexivity|]. apply DG. cbn. lia.
Qed.
Print Assumptions C75_time_cells.

(** The balance sheet: assets on the left, liabilities and equity on the right,
    whichever side is longer; never an exception once the sums are computed. *)
Definition total_line (label : string) (x : Qc) (r : row) : Prop := exists a, shows x a /\ r = [text_of label; []; a].
Theorem C75_balance_table : forall sh, exists left liab equity tl te ta tle,
  lines (fun name amount => [name; amount]) (sheet_assets sh) left /\
  lines (fun name amount => [name; amount; []]) (sheet_liab sh) liab /\
  lines (fun name amount => [name; amount; []]) (sheet_equity sh) equity /\
  total_line "Total liabilities" (sheet_total_liab sh) tl /\ total_line "Total owners' equities" (sheet_total_equity sh) te /\
  shows (sheet_total_assets sh) ta /\ shows (sheet_total_le sh) tle /\
  balance_table sh = Ok (map text_of ["Assets"; " "; "Liabilities and Equity"; ""; "  "]%string ::
    beside [[]; []] [[]; []; []] left
      ([[text_of "Liabilities"; []; []]; [text_of "-----------"; []; []]] ++ liab ++
       [tl; [text_of "-----------------"; []; []]; [text_of "Owners' Equity"; []; []]; [text_of "--------------"; []; []]] ++ equity ++ [te]) ++
    [map text_of ["-----"; "--------"; "----------------------"; ""; "--------"]%string; [text_of "Total"; ta; text_of "Total"; []; tle]]).
Proof.
  intros sh. exists (pair_cells (sheet_assets sh)), (triple_cells (sheet_liab sh)), (triple_cells (sheet_equity sh)), [text_of "Total liabilities"; []; fmt2 (sheet_total_liab sh)], [text_of "Total owners' equities"; []; fmt2 (sheet_total_equity sh)], (fmt2 (sheet_total_assets sh)), (fmt2 (sheet_total_le sh)).
  split; [apply (lines_map (fun name amount => [name; amount]))|]. split; [apply (lines_map (fun name amount => [name; amount; []]))|]. split; [apply (lines_map (fun name amount => [name; amount; []]))|].
  split; [eexists; split; [apply fmt2_shows|reflexivity]|]. split; [eexists; split; [apply fmt2_shows|reflexivity]|]. split; [apply fmt2_shows|]. split; [apply fmt2_shows|].
  unfold balance_table. rewrite balance_body_layout. reflexivity.
Qed.
Print Assumptions C75_balance_table.
(** In terms of the ledger: each account that was posted to has its line, with its
    balance as the amount. *)
Theorem C75_balance_lines : forall l fin sh table s, balance_sheet_report l fin = Ok sh -> balance_table sh = Ok table -> touched (upto fin (l_txs l)) s ->
  let g := l_structure l in let ts := upto fin (l_txs l) in
  (has_type g s Asset -> exists a rest, shows (debits ts s - credits ts s)%Qc a /\ In (text_of s :: a :: rest) table) /\
  (has_type g s Liability \/ has_type g s Equity -> exists a c d, shows (credits ts s - debits ts s)%Qc a /\ In [c; d; text_of s; a; []] table).
Proof.
  intros l fin sh table s H T TS g ts. destruct (C14_balance_sheet_lines _ _ _ H) as (A & L & E & _). destruct (C75_balance_table sh) as (left & liab & equity & tl & te & ta & tle & H1 & H2 & H3 & _ & _ & _ & _ & HT).
  rewrite HT in T. injection T as <-.
  assert (RIGHT : forall d rows kv side, lines (fun name amount => [name; amount; []]) d rows -> In kv d -> incl rows side -> exists a c e, shows (snd kv) a /\ In [c; e; text_of (fst kv); a; []] (beside [[]; []] [[]; []; []] left side)).
  { intros d rows kv side LN I INC. destruct (lines_in _ _ _ _ LN I) as (r & R & a & SA & ->). destruct (beside_r [[]; []] [[]; []; []] left side _ (INC _ R)) as (x & X & IN). exists a.
    assert (P : exists c e, x = [c; e]). { destruct X as [->|X]; [eauto|]. clear - H1 X. unfold lines in H1. induction H1 as [|kv' y d' rows' (b & _ & ->) F IH]; [easy|]. destruct X as [<-|X]; eauto. }
    destruct P as (c & e & ->). exists c, e. split; auto. }
  split.
  - intros TY. assert (I : In (s, (debits ts s - credits ts s)%Qc) (sheet_assets sh)) by (apply A; auto). destruct (lines_in _ _ _ _ H1 I) as (r & R & a & SA & ->). cbn [fst snd] in *.
    match goal with |- context[beside ?bl ?br left ?side] => destruct (beside_l bl br left side _ R) as (y & Y) end. exists a, y. split; auto. right. apply in_or_app. now left.
  - intros TY. assert (I : In (s, (credits ts s - debits ts s)%Qc) (sheet_liab sh) \/ In (s, (credits ts s - debits ts s)%Qc) (sheet_equity sh)) by (destruct TY; [left; apply L|right; apply E]; auto).
    destruct I as [I|I].
    + destruct (RIGHT _ _ _ ([[text_of "Liabilities"; []; []]; [text_of "-----------"; []; []]] ++ liab ++ [tl; [text_of "-----------------"; []; []]; [text_of "Owners' Equity"; []; []]; [text_of "--------------"; []; []]] ++ equity ++ [te]) H2 I) as (a & c & e & SA & IN).
      { intros r R. apply in_or_app. right. apply in_or_app. now left. }
      exists a, c, e. split; auto. right. apply in_or_app. left. exact IN.
    + destruct (RIGHT _ _ _ ([[text_of "Liabilities"; []; []]; [text_of "-----------"; []; []]] ++ liab ++ [tl; [text_of "-----------------"; []; []]; [text_of "Owners' Equity"; []; []]; [text_of "--------------"; []; []]] ++ equity ++ [te]) H3 I) as (a & c & e & SA & IN).
      { intros r R. apply in_or_app. right. apply in_or_app. right. apply in_or_app. right. apply in_or_app. now left. }
      exists a, c, e. split; auto. right. apply in_or_app. left. exact IN.
Qed.
Print Assumptions C75_balance_lines.

(** The income statement: revenues as credits, cost of sales and expenses as
    debits, and the net income, in brackets if it is negative. *)
Theorem C75_income_table : forall st, exists rev cos exp g te net,
  lines (fun name amount => [name; []; amount]) (inc_revenue st) rev /\
  lines (fun name amount => [name; amount; []]) (inc_cos st) cos /\
  lines (fun name amount => [name; amount; []]) (inc_expense st) exp /\
  shows (inc_gross st) g /\ shows (inc_total_expenses st) te /\
  (exists a, ((0 <= inc_net st)%Q -> shows (inc_net st) a /\ net = a) /\ ((inc_net st < 0)%Q -> shows (- inc_net st)%Qc a /\ net = "("%char :: a ++ [")"%char])) /\
  income_table st =
    map (map text_of) [[""; "Debit"; "Credit"]; ["Revenues"; ""; ""]; ["--------"; ""; ""]]%string ++ rev ++
    map (map text_of) [[""; ""; ""]; ["Cost of Sales"; ""; ""]; ["-------------"; ""; ""]]%string ++ cos ++
    [map text_of [""; ""; "--------"]%string; [text_of "Gross Revenues (including interest income)"; []; g]; map text_of [""; ""; "--------"]%string] ++
    map (map text_of) [["Expenses"; ""; ""]; ["--------"; ""; ""]]%string ++ exp ++
    [map text_of [""; "--------"; ""]%string; [text_of "Total Expenses"; te; []]; map text_of [""; "--------"; "--------"]%string; [text_of "Net Income"; []; net]].
Proof.
  intros st. exists (map (fun kv : string * Qc => [text_of (fst kv); []; fmt2 (snd kv)]) (inc_revenue st)), (map (fun kv : string * Qc => [text_of (fst kv); fmt2 (snd kv); []]) (inc_cos st)), (map (fun kv : string * Qc => [text_of (fst kv); fmt2 (snd kv); []]) (inc_expense st)),
    (fmt2 (inc_gross st)), (fmt2 (inc_total_expenses st)), (if Qnum (this (inc_net st)) <? 0 then "("%char :: fmt2 (- inc_net st)%Qc ++ [")"%char] else fmt2 (inc_net st)).
  split; [apply (lines_map (fun name amount => [name; []; amount]))|]. split; [apply (lines_map (fun name amount => [name; amount; []]))|]. split; [apply (lines_map (fun name amount => [name; amount; []]))|].
  split; [apply fmt2_shows|]. split; [apply fmt2_shows|]. split; [|reflexivity].
  destruct (Qnum (this (inc_net st)) <? 0) eqn:E.
  - apply Z.ltb_lt in E. exists (fmt2 (- inc_net st)%Qc). split; intros X; [exfalso; unfold Qle in X; cbn [Qnum Qden] in X; lia|]. split; [apply fmt2_shows|reflexivity].
  - apply Z.ltb_ge in E. exists (fmt2 (inc_net st)). split; intros X; [split; [apply fmt2_shows|reflexivity]|]. exfalso. unfold Qlt in X. cbn [Qnum Qden] in X. lia.
Qed.
Print Assumptions C75_income_table.

(** Written as csv, the tables read back, if no name or description has a carriage
    return. *)
Definition plain (s : string) : Prop := ~ In cr (text_of s).
Theorem C75_transaction_csv : forall l start fin path table, transaction_table l start fin path = Ok table ->
  (forall t, In t (l_txs l) -> plain (tx_name t) /\ plain (str_of (tx_source t)) /\ plain (str_of (tx_dt t)) /\ plain (str_of (tx_cr t)) /\ plain (str_of (tx_desc t))) ->
  csv_read (render_csv table) = (table, None).
Proof.
  intros l start fin path table H P. unfold transaction_table in H. destruct (transaction_list l start fin path) as [[rows tot]|] eqn:E; [|discriminate].
  destruct (C12_transaction_list_exact _ _ _ _ _ _ E) as (ts & -> & PM & _). cbn [bind fst snd] in H. injection H as <-. apply C71_round_trip. intros r f R F.
  destruct R as [<-|R]; [repeat (destruct F as [<-|F]; [vm_compute; intuition discriminate|]); easy|]. apply in_app_or in R. destruct R as [R|[<-|[]]].
  - apply in_map_iff in R. destruct R as (x & <- & R). apply in_map_iff in R. destruct R as (t & <- & R). apply (Permutation.Permutation_in _ PM) in R. unfold selected in R. apply filter_In in R. destruct R as [R _]. destruct (P t R) as (P1 & P2 & P3 & P4 & P5).
    unfold tl_cells, tl_row_of in F. cbn [r_date r_source r_name r_dt r_cr r_amount r_desc] in F. destruct F as [<-|[<-|[<-|[<-|[<-|[<-|[<-|[]]]]]]]]; auto.
    + apply pytime_no_cr.
    + destruct (ends_with _ _); auto.
    + destruct (tx_dt t); auto.
    + destruct (tx_cr t); auto.
    + eapply shows_no_cr, fmt2_shows.
  - destruct F as [<-|[<-|[<-|[<-|[<-|[<-|[<-|[]]]]]]]]; auto; [vm_compute; intuition discriminate|eapply shows_no_cr, fmt2_shows].
Qed.
Print Assumptions C75_transaction_csv.
Theorem C75_balance_csv : forall sh table, balance_table sh = Ok table -> (forall s, In s (keys (sheet_assets sh) ++ keys (sheet_liab sh) ++ keys (sheet_equity sh)) -> plain s) ->
  csv_read (render_csv table) = (table, None).
Proof.
  intros sh table H P. destruct (C75_balance_table sh) as (left & liab & equity & tl & te & ta & tle & H1 & H2 & H3 & (a1 & A1 & ->) & (a2 & A2 & ->) & A3 & A4 & HT). rewrite HT in H. apply (f_equal (fun r => match r with Ok x => x | Err _ => [] end)) in H. cbn beta iota in H. subst table. apply C71_round_trip. intros r f R F.
  assert (K : forall d (kv : string * Qc), In kv d -> In (fst kv) (keys d)) by (intros d kv I; unfold keys; now apply in_map).
  destruct R as [<-|R]; [repeat (destruct F as [<-|F]; [vm_compute; intuition discriminate|]); easy|]. apply in_app_or in R. destruct R as [R|[<-|[<-|[]]]].
  - destruct (beside_cells _ _ _ _ _ _ R F) as [B|[B|[(x & X & B)|(x & X & B)]]].
    + repeat (destruct B as [<-|B]; [easy|]). easy.
    + repeat (destruct B as [<-|B]; [easy|]). easy.
    + eapply lines_no_cr; [exact H1| | |exact X|exact B]; [intros kv I; apply P; apply in_or_app; left; auto|]. intros a b c C. cbn in C. intuition.
    + assert (LB : forall d rows, lines (fun name amount => [name; amount; []]) d rows -> (forall s, In s (keys d) -> plain s) -> In x rows -> ~ In cr f).
      { intros d rows LN PL XR. eapply lines_no_cr; [exact LN| | |exact XR|exact B]; [intros kv I; apply PL; auto|]. intros a b c C. cbn in C. intuition. }
      apply in_app_or in X. destruct X as [X|X]; [destruct X as [<-|[<-|[]]]; repeat (destruct B as [<-|B]; [vm_compute; intuition discriminate|]); easy|].
      apply in_app_or in X. destruct X as [X|X]; [eapply LB; [exact H2| |exact X]; intros s I; apply P; apply in_or_app; right; apply in_or_app; now left|].
      apply in_app_or in X. destruct X as [X|X].
      * destruct X as [<-|[<-|[<-|[<-|[]]]]]; [destruct B as [<-|[<-|[<-|[]]]]; [vm_compute; intuition discriminate|easy|eapply shows_no_cr; eauto]|..]; repeat (destruct B as [<-|B]; [vm_compute; intuition discriminate|]); easy.
      * apply in_app_or in X. destruct X as [X|[<-|[]]]; [eapply LB; [exact H3| |exact X]; intros s I; apply P; apply in_or_app; right; apply in_or_app; now right|].
        destruct B as [<-|[<-|[<-|[]]]]; [vm_compute; intuition discriminate|easy|eapply shows_no_cr; eauto].
  - repeat (destruct F as [<-|F]; [vm_compute; intuition discriminate|]); easy.
  - destruct F as [<-|[<-|[<-|[<-|[<-|[]]]]]]; try easy; try (vm_compute; intuition discriminate); eapply shows_no_cr; eauto.
Qed.
Print Assumptions C75_balance_csv.
Theorem C75_income_csv : forall st, (forall s, In s (keys (inc_revenue st) ++ keys (inc_cos st) ++ keys (inc_expense st)) -> plain s) ->
  csv_read (render_csv (income_table st)) = (income_table st, None).
Proof.
  intros st P. destruct (C75_income_table st) as (rev & cos & exp & g & te & net & H1 & H2 & H3 & A1 & A2 & (a & N1 & N2) & HT). rewrite HT. apply C71_round_trip. intros r f R F.
  assert (K : forall d (kv : string * Qc), In kv d -> In (fst kv) (keys d)) by (intros d kv I; unfold keys; now apply in_map).
  assert (NET : ~ In cr net).
  { destruct (Qlt_le_dec (inc_net st) 0) as [L|L]; [destruct (N2 L) as [S ->]|destruct (N1 L) as [S ->]; eapply shows_no_cr; eauto].
    intros [I|I]; [discriminate|]. apply in_app_or in I. destruct I as [I|[I|[]]]; [|discriminate]. eapply shows_no_cr; eauto. }
  apply in_app_or in R. destruct R as [R|R]; [repeat (destruct R as [<-|R]; [repeat (destruct F as [<-|F]; [vm_compute; intuition discriminate|]); easy|]); easy|].
  apply in_app_or in R. destruct R as [R|R]; [eapply lines_no_cr; [exact H1| | |exact R|exact F]; [intros kv I; apply P; apply in_or_app; left; auto|]; intros x b c C; cbn in C; intuition|].
  apply in_app_or in R. destruct R as [R|R]; [repeat (destruct R as [<-|R]; [repeat (destruct F as [<-|F]; [vm_compute; intuition discriminate|]); easy|]); easy|].
  apply in_app_or in R. destruct R as [R|R]; [eapply lines_no_cr; [exact H2| | |exact R|exact F]; [intros kv I; apply P; apply in_or_app; right; apply in_or_app; left; auto|]; intros x b c C; cbn in C; intuition|].
  apply in_app_or in R. destruct R as [R|R].
  { destruct R as [<-|[<-|[<-|[]]]]; [|destruct F as [<-|[<-|[<-|[]]]]; [vm_compute; intuition discriminate|easy|eapply shows_no_cr; eauto]|]; repeat (destruct F as [<-|F]; [vm_compute; intuition discriminate|]); easy. }
  apply in_app_or in R. destruct R as [R|R]; [repeat (destruct R as [<-|R]; [repeat (destruct F as [<-|F]; [vm_compute; intuition discriminate|]); easy|]); easy|].
  apply in_app_or in R. destruct R as [R|R]; [eapply lines_no_cr; [exact H3| | |exact R|exact F]; [intros kv I; apply P; apply in_or_app; right; apply in_or_app; right; auto|]; intros x b c C; cbn in C; intuition|].
  destruct R as [<-|[<-|[<-|[<-|[]]]]]; [|destruct F as [<-|[<-|[<-|[]]]]; [vm_compute; intuition discriminate|eapply shows_no_cr; eauto|easy]| |destruct F as [<-|[<-|[<-|[]]]]; [vm_compute; intuition discriminate|easy|exact NET]]; repeat (destruct F as [<-|F]; [vm_compute; intuition discriminate|]); easy.
Qed.
Print Assumptions C75_income_csv.

(** * Cases *)
Definition qq (n : Z) (d : positive) : Qc := Q2Qc (n # d).
Example C75_case_amounts : map (fun x => string_of_list_ascii (fmt2 x)) [qq 5 1; qq (-1234567) 1000; qq 1 8; qq 3 8; qq (-1) 1000; qq 0 1] =
  ["5.00"; "-1234.57"; "0.12"; "0.38"; "-0.00"; "0.00"]%string.
Proof. vm_compute. reflexivity. Qed.
Example C75_case_transactions : exists table, transaction_table sample_ledger (at_ 2016 1 1) (at_ 2016 12 31) "Co/" = Ok table /\
  length table = 5%nat /\ nth 4 table [] = map text_of [""; ""; "Total"; ""; ""; "165.00"; ""]%string /\ csv_read (render_csv table) = (table, None).
Proof. eexists. split; [vm_compute; reflexivity|]. vm_compute. auto. Qed.
Example C75_case_balance : exists sh table, balance_sheet_report sample_ledger (at_ 2017 12 31) = Ok sh /\ balance_table sh = Ok table /\ map (map string_of_list_ascii) table =
  [["Assets"; " "; "Liabilities and Equity"; ""; "  "]; ["Bank/Default"; "535.00"; "Liabilities"; ""; ""]; [""; ""; "-----------"; ""; ""]; [""; ""; "Total liabilities"; ""; "0.00"]; [""; ""; "-----------------"; ""; ""];
   [""; ""; "Owners' Equity"; ""; ""]; [""; ""; "--------------"; ""; ""]; [""; ""; "Retained Income/Retained Earnings"; "500.00"; ""]; [""; ""; "Total owners' equities"; ""; "500.00"];
   ["-----"; "--------"; "----------------------"; ""; "--------"]; ["Total"; "535.00"; "Total"; ""; "500.00"]]%string.
Proof. eexists _, _. split; [vm_compute; reflexivity|]. split; vm_compute; reflexivity. Qed.
Example C75_case_income : exists st, income_statement_report sample_ledger (at_ 2016 1 1) (at_ 2016 12 31) "Co" = Ok st /\
  skipn 15 (map (map string_of_list_ascii) (income_table st)) = [["Total Expenses"; "25.00"; ""]; [""; "--------"; "--------"]; ["Net Income"; ""; "35.00"]]%string.
Proof. eexists. split; [vm_compute; reflexivity|]. vm_compute. reflexivity. Qed.
