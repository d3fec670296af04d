(** Properties C17-C27, C54, C55 and the add_activity part of C10: activities,
    components, entities, year-end and loans, auxi/modelling/business. *)
From Verif Require Import Prelude M_Dates M_Accounts M_Ledger M_Business Spec_Dates Spec_Accounts Spec_Ledger Spec_Business Spec_Loan
  P_Dates P_Accounts P_Ledger P_Business P_Year P_Close P_Loan P_Run P_Reports Properties_Ledger.
Open Scope string_scope.

(** The models used as examples: one entity "Co" with a component "shop". *)
Definition day0 : datetime := mkdt 2016 1 1 0.
Definition shop_entity (ops : list gls_op) (acts : list activity) : entity :=
  ent_built "Co" (built ops) (ECreate "shop" :: map (fun a => EAt 0 [] (CAdd a)) acts).
Definition shop (start : datetime) (p : period) (n : Z) (ops : list gls_op) (acts : list activity) : tbm :=
  mktbm "model" (new_clock start p) n [shop_entity ops acts].
Definition sell := new_basic "sell" "Bank/Default" "Sales" (q 100) dt_min dt_max 1 None.
Definition buy := new_basic "buy" "Expense" "Bank/Default" (q 40) dt_min dt_max 3 (Some "stock").
Definition txs_of (r : res tbm) : list tx :=
  match r with Ok m => flat_map (fun e => l_txs (en_gl e)) (md_ents m) | Err _ => [] end.

(** C10, second half *)
Theorem C10_add_activity : forall g a k k', add_activity g a k = Ok k' ->
  (forall n, In n (referenced_accounts a) -> exists x, get_account g n = Ok (Some x)) /\
  c_path k' = c_path k /\ c_name k' = c_name k /\ c_subs k' = c_subs k /\
  exists a', c_acts k' = (c_acts k ++ [a'])%list /\ ac_name a' = ac_name a /\ ac_path a' = c_path k ++ "/" ++ ac_name a /\
    ac_kind a' = ac_kind a /\ ac_start a' = ac_start a /\ ac_end a' = ac_end a /\ ac_interval a' = ac_interval a.
Proof. exact add_activity_ok. Qed.
Print Assumptions C10_add_activity.
Theorem C10_add_activity_raises : forall g a k e, add_activity g a k = Err e ->
  (exists n, In n (referenced_accounts a) /\ ~ exists x, get_account g n = Ok (Some x)) /\
  comp_step g (CAdd a) k = k.
Proof. exact add_activity_err. Qed.
Print Assumptions C10_add_activity_raises.
Example C10_case_activity :
  is_ok (add_activity default_gls sell (new_component "shop")) = true /\
  add_activity default_gls (new_basic "x" "Bank/Default" "Nope" (q 1) dt_min dt_max 1 None) (new_component "shop") = Err ValueError.
Proof. split; [vm_compute; reflexivity|vm_compute; reflexivity]. Qed.

(** C17 *)
Theorem C17_execution_window_partial : forall c n a b ix d,
  valid_dt (ck_start c) -> valid_dt (ac_start a) -> valid_dt (ac_end a) ->
  fresh a -> (1 <= ac_interval a)%Z -> dt_leb (ac_start a) (ac_end a) = true ->
  (ac_start a = dt_min \/ some_period_after c (ac_start a) n) ->
  prepare_activity c n a = Ok b -> (0 <= ix < n)%Z -> datetime_at c ix = Ok d ->
  (criteria b ix = true <->
   active a = true /\ ((ix + 1) mod ac_interval a = 0)%Z /\
   (ac_start a = dt_min \/ dt_ltb (ac_start a) d = true) /\
   (exists s e, start_period c a n s /\ end_period c a n s e /\ (ix + ac_interval a <= e)%Z)) /\
  (criteria b ix = true -> ac_end a = dt_max \/ dt_leb d (ac_end a) = true).
Proof. exact activity_window. Qed.
Print Assumptions C17_execution_window_partial.
Definition spring := new_basic "spring" "Bank/Default" "Sales" (q 7) (mkdt 2016 2 15 0) (mkdt 2016 5 20 0) 1 None.
Example C17_case : exists b, prepare_activity (new_clock day0 Pmonth) 12 spring = Ok b /\
  filter (fun i => criteria b (Z.of_nat i)) (seq 0 12) = [2; 3; 4]%nat /\
  fresh spring /\ dt_leb (ac_start spring) (ac_end spring) = true /\ some_period_after (new_clock day0 Pmonth) (ac_start spring) 12.
Proof.
  eexists. split; [vm_compute; reflexivity|]. split; [vm_compute; reflexivity|]. split; [vm_compute; auto|]. split; [reflexivity|].
  exists 2%Z. apply first_after_spec. vm_compute. reflexivity.
Qed.
(** interval 0 ("every period") also runs in the first period after the end *)
Theorem C17_interval_0_refuted : exists c n a b d,
  fresh a /\ ac_interval a = 0%Z /\ prepare_activity c n a = Ok b /\ criteria b 5 = true /\
  datetime_at c 5 = Ok d /\ dt_ltb (ac_end a) d = true.
Proof.
  eexists (new_clock day0 Pmonth), 12%Z, (new_basic "x" "Bank/Default" "Sales" (q 7) (mkdt 2016 2 15 0) (mkdt 2016 5 20 0) 0 None), _, _.
  split; [vm_compute; auto|]. split; [reflexivity|]. split; [vm_compute; reflexivity|]. split; [vm_compute; reflexivity|]. split; [vm_compute; reflexivity|vm_compute; reflexivity].
Qed.
Print Assumptions C17_interval_0_refuted.
(** an activity that ends one period before it starts is treated as open-ended *)
Theorem C17_end_before_start_refuted : exists c n a b d,
  fresh a /\ ac_interval a = 1%Z /\ prepare_activity c n a = Ok b /\ criteria b 9 = true /\
  datetime_at c 9 = Ok d /\ dt_ltb (ac_end a) d = true.
Proof.
  eexists (new_clock day0 Pmonth), 12%Z, (new_basic "x" "Bank/Default" "Sales" (q 7) (mkdt 2016 3 15 0) (mkdt 2016 2 20 0) 1 None), _, _.
  split; [vm_compute; auto|]. split; [reflexivity|]. split; [vm_compute; reflexivity|]. split; [vm_compute; reflexivity|]. split; [vm_compute; reflexivity|vm_compute; reflexivity].
Qed.
Print Assumptions C17_end_before_start_refuted.

(** C18 is false: an activity that starts after the last period runs from the
    first period on. *)
Theorem C18_late_activity_refuted : forall c n a b ix,
  fresh a -> ac_start a <> dt_min -> ~ some_period_after c (ac_start a) n -> ~ some_period_after c (ac_end a) n ->
  ac_interval a = 1%Z -> active a = true -> prepare_activity c n a = Ok b -> (0 <= ix < n)%Z -> criteria b ix = true.
Proof. exact late_activity_runs. Qed.
Print Assumptions C18_late_activity_refuted.
Definition later := new_basic "later" "Bank/Default" "Sales" (q 7) (mkdt 2018 1 15 0) dt_max 1 None.
Example C18_case : length (txs_of (run_model (shop day0 Pmonth 6 [] [later]))) = 6%nat.
Proof. vm_compute. reflexivity. Qed.

(** C19: everything the activities of an entity post in a complete run; for a
    basic activity exactly one transaction per qualifying period. *)
Theorem C19_run_postings : forall m m', (0 <= md_count m)%Z -> run_model m = Ok m' ->
  Forall2 (fun e e' => all_basic e -> exists acts,
      mapM (prepare_activity (reset (md_clock m)) (md_count m)) (entity_acts e) = Ok acts /\
      operating (l_txs (en_gl e')) =
        flat_map (fun i => flat_map (fun a =>
          match ac_kind a, datetime_at (md_clock m) (Z.of_nat i) with
          | KBasic dt cr v, Ok d => if criteria a (Z.of_nat i) then [basic_tx a d dt cr v] else []
          | _, _ => []
          end) acts) (seq 0 (Z.to_nat (md_count m))))
    (md_ents m) (md_ents m').
Proof. exact run_basic_postings. Qed.
Print Assumptions C19_run_postings.
Theorem C19_nonpositive_never_posts : forall a dt cr v ix, ac_kind a = KBasic dt cr v -> (v <= 0)%Qc -> criteria a ix = false.
Proof. exact nonpositive_never. Qed.
Print Assumptions C19_nonpositive_never_posts.
Example C19_case : map (fun t => (tx_name t, tx_date t)) (operating (txs_of (run_model (shop day0 Pmonth 4 [] [sell; buy])))) =
  [("sell", at_ 2016 1 1); ("sell", at_ 2016 2 1); ("sell", at_ 2016 3 1); ("sell", at_ 2016 4 1)] /\
  map (fun t => (tx_name t, tx_date t)) (operating (txs_of (run_model (shop day0 Pmonth 5 [] [sell; buy])))) =
  [("sell", at_ 2016 1 1); ("sell", at_ 2016 2 1); ("sell", at_ 2016 3 1); ("stock", at_ 2016 3 1); ("sell", at_ 2016 4 1); ("sell", at_ 2016 5 1)].
Proof. split; [vm_compute; reflexivity|vm_compute; reflexivity]. Qed.

(** C20 *)
Theorem C20_rerun_reproduces : forall m m', run_model m = Ok m' -> run_model m' = Ok m'.
Proof. exact rerun. Qed.
Print Assumptions C20_rerun_reproduces.
Example C20_case : exists m', run_model (shop day0 Pmonth 14 [] [sell; buy; spring]) = Ok m' /\ length (txs_of (Ok m')) = 24%nat.
Proof. eexists. split; [vm_compute; reflexivity|]. vm_compute. reflexivity. Qed.

(** C21 *)
Theorem C21_sources_below_component : forall name g ops k c l l' k',
  comp_in (en_comps (ent_built name g ops)) k -> run_comp c l k = Ok (l', k') ->
  exists ps, l_txs l' = (l_txs l ++ ps)%list /\
    forall t, In t ps -> exists s, tx_source t = Some s /\ starts_with s (c_path k ++ "/") = true.
Proof. exact component_sources. Qed.
Print Assumptions C21_sources_below_component.
Definition tree_ops : list ent_op :=
  [ECreate "shop"; EAt 0 [] (CCreate "till"); EAt 0 [0%nat] (CAdd sell); EParent "Group"; EAt 0 [] (CAdd buy); EAt 0 [] (CName "store"); EName "Co2"].
Example C21_case : map ac_path (entity_acts (ent_built "Co" default_gls tree_ops)) = ["Group/Co2/store/till/sell"; "Group/Co2/store/buy"].
Proof. vm_compute. reflexivity. Qed.

(** C22: for a year of transactions that each touch at most one income
    statement account.  The documented effect holds for the accounts that are
    not below Sales or Cost of Sales, and for Gross Profit / Income Summary in
    a year without such trading / without a loss. *)
Theorem C22_income_accounts_emptied_partial : forall m m',
  valid_dt (ck_start (md_clock m)) -> (0 < md_count m)%Z -> run_model m = Ok m' ->
  Forall2 (fun e e' => forall ops k w s, good_structure e ops -> closed_year m k w ->
      let year := of_year (fst w) (snd w) (l_txs (en_gl e')) in
      simple_entries (built ops) (operating year) -> income_account (built ops) (Some s) = true -> ~ trading_account (built ops) s ->
      (forall gp, deref (built ops) id_gross_profit = Some gp -> s <> a_path gp \/ gross_net_credit (built ops) (operating year) = 0%Qc) ->
      (forall is_, deref (built ops) id_inc_sum = Some is_ -> s <> a_path is_ \/ (0 <= income_net_credit (built ops) (operating year))%Qc) ->
      net_credit year s = 0%Qc) (md_ents m) (md_ents m').
Proof. exact run_income_emptied. Qed.
Print Assumptions C22_income_accounts_emptied_partial.
(** Retained earnings change by the absolute value of the year's net income. *)
Theorem C22_retained_earnings_exact : forall m m',
  valid_dt (ck_start (md_clock m)) -> (0 < md_count m)%Z -> run_model m = Ok m' ->
  Forall2 (fun e e' => forall ops k w re, good_structure e ops -> closed_year m k w ->
      let year := of_year (fst w) (snd w) (l_txs (en_gl e')) in
      simple_entries (built ops) (operating year) -> deref (built ops) id_ret_earnings = Some re ->
      net_credit year (a_path re) = (net_credit (operating year) (a_path re) + qabs (income_net_credit (built ops) (operating year)))%Qc)
    (md_ents m) (md_ents m').
Proof. exact run_retained. Qed.
Print Assumptions C22_retained_earnings_exact.
(** Accounts below Sales and Cost of Sales are doubled instead of emptied. *)
Theorem C22_trading_accounts_refuted : forall m m',
  valid_dt (ck_start (md_clock m)) -> (0 < md_count m)%Z -> run_model m = Ok m' ->
  Forall2 (fun e e' => forall ops k w s, good_structure e ops -> closed_year m k w ->
      let year := of_year (fst w) (snd w) (l_txs (en_gl e')) in
      simple_entries (built ops) (operating year) -> trading_account (built ops) s ->
      (forall i a, In i [id_gross_profit; id_inc_sum; id_ret_earnings] -> deref (built ops) i = Some a -> a_path a <> s) ->
      net_credit year s = (net_credit (operating year) s + net_credit (operating year) s)%Qc)
    (md_ents m) (md_ents m').
Proof. exact run_trading. Qed.
Print Assumptions C22_trading_accounts_refuted.
(** Exact effect of one closing on every account. *)
Theorem C22_closing_exact : forall ops path txs ys ye cl s,
  forallb op_names_ok ops = true -> close_year (built ops) path txs ys ye = Ok cl ->
  simple_entries (built ops) (of_year ys ye txs) ->
  exists gp is_ re, deref (built ops) id_gross_profit = Some gp /\ deref (built ops) id_inc_sum = Some is_ /\
    deref (built ops) id_ret_earnings = Some re /\
    let year := of_year ys ye txs in
    let N := income_net_credit (built ops) year in
    let G := gross_net_credit (built ops) year in
    net_credit cl s =
      ((if trading (built ops) (Some s) then net_credit year s
        else if income_account (built ops) (Some s) then - net_credit year s else 0)
       - at_account (a_path gp) s (G + G) + at_account (a_path is_) s (N - qabs N) + at_account (a_path re) s (qabs N))%Qc.
Proof. exact closing_exact. Qed.
Print Assumptions C22_closing_exact.
Definition year_sums (m : tbm) (s : string) : Qc := net_credit (of_year day0 (mkdt 2016 12 31 86399000000) (txs_of (run_model m))) s.
Definition loss := new_basic "rent" "Expense" "Bank/Default" (q 500) dt_min dt_max 1 None.
Definition widgets := new_basic "w" "Bank/Default" "Sales/Widgets" (q 10) dt_min dt_max 1 None.
Definition refund := new_basic "r" "Sales" "Bank/Default" (q 10) dt_min dt_max 1 None.
Example C22_case : closed_year (shop day0 Pmonth 13 [] [sell; buy]) 0 (day0, mkdt 2016 12 31 86399000000) /\
  good_structure (shop_entity [] [sell; buy]) [] /\
  map (fun s => this (year_sums (shop day0 Pmonth 13 [] [sell; buy]) s))
    ["Sales"; "Expense"; "Unallocated Income Statement/Income Summary"; "Retained Income/Retained Earnings"]
    = [0; 0; 0; 1080]%Q.
Proof.
  split.
  { split; [split; [vm_compute; reflexivity|eexists; split; [vm_compute; reflexivity|vm_compute; reflexivity]]|].
    eexists _, _. split; [vm_compute; reflexivity|]. split; [vm_compute; reflexivity|vm_compute; reflexivity]. }
  split; [|vm_compute; reflexivity].
  split; [vm_compute; reflexivity|]. split; [reflexivity|]. apply names_distinct_b_spec; vm_compute; reflexivity.
Qed.
Theorem C22_loss_refuted : year_sums (shop day0 Pmonth 13 [] [sell; loss]) "Retained Income/Retained Earnings" = q 4800 /\
  income_net_credit default_gls (operating (of_year day0 (mkdt 2016 12 31 86399000000) (txs_of (run_model (shop day0 Pmonth 13 [] [sell; loss]))))) = q (-4800) /\
  year_sums (shop day0 Pmonth 13 [] [sell; loss]) "Unallocated Income Statement/Income Summary" = q (-9600).
Proof. repeat split; apply Qc_is_canon; vm_compute; reflexivity. Qed.
Print Assumptions C22_loss_refuted.
Theorem C22_sub_account_refuted :
  year_sums (shop day0 Pmonth 13 [OCreate 1 "Widgets" None] [widgets]) "Sales/Widgets" = q 240 /\
  year_sums (shop day0 Pmonth 13 [OCreate 1 "Widgets" None] [widgets]) "Unallocated Income Statement/Gross Profit" = q (-240).
Proof. split; apply Qc_is_canon; vm_compute; reflexivity. Qed.
Print Assumptions C22_sub_account_refuted.
(** A year whose first revenue entry is a debit cannot be closed at all. *)
Theorem C22_refund_first_refuted : run_model (shop day0 Pmonth 13 [] [refund; sell]) = Err KeyError.
Proof. vm_compute. reflexivity. Qed.
Print Assumptions C22_refund_first_refuted.
(** A transaction between two income statement accounts is closed on one side only. *)
Theorem C22_two_sided_refuted :
  year_sums (shop day0 Pmonth 13 [] [new_basic "t" "Expense" "Sales" (q 10) dt_min dt_max 1 None]) "Expense" = q (-120).
Proof. apply Qc_is_canon; vm_compute; reflexivity. Qed.
Print Assumptions C22_two_sided_refuted.

(** C23: the years that the run reaches the end of are closed, each exactly
    once, in order: the closing entries of the final ledger are the
    concatenation of one closing per year window. *)
Theorem C23_years_closed_once : forall m m', valid_dt (ck_start (md_clock m)) -> (0 <= md_count m)%Z -> run_model m = Ok m' ->
  Forall2 (fun e e' => exists k ws cls,
      Forall2 (year_window (ck_start (md_clock m))) (seq 0 k) ws /\
      (md_count m = 0%Z -> k = 0%nat) /\
      ((0 < md_count m)%Z -> exists last yk yk1,
         datetime_at (md_clock m) (md_count m - 1) = Ok last /\
         year_start (ck_start (md_clock m)) k = Ok yk /\ year_start (ck_start (md_clock m)) (S k) = Ok yk1 /\
         dt_leb yk last = true /\ dt_ltb last yk1 = true) /\
      (forall t, In t (l_txs (en_gl e')) -> tx_closing_dt t = false) /\
      filter tx_closing_cr (l_txs (en_gl e')) = concat cls /\
      Forall2 (fun w cl => close_year (l_structure (en_gl e)) (en_path e) (operating (l_txs (en_gl e'))) (fst w) (snd w) = Ok cl) ws cls)
    (md_ents m) (md_ents m').
Proof. exact run_years. Qed.
Print Assumptions C23_years_closed_once.
Theorem C23_windows_disjoint : forall s i j wi wj d, valid_dt s -> valid_dt d -> year_window s i wi -> year_window s j wj ->
  in_window wi d -> in_window wj d -> i = j.
Proof. exact windows_disjoint. Qed.
Print Assumptions C23_windows_disjoint.
Theorem C23_windows_cover_partial : forall c k yk ix d, valid_dt (ck_start c) -> ck_period c <> Pms ->
  year_start (ck_start c) k = Ok yk -> (0 <= ix)%Z -> datetime_at c ix = Ok d -> dt_ltb d yk = true ->
  exists j w, (j < k)%nat /\ year_window (ck_start c) j w /\ in_window w d.
Proof. exact windows_cover. Qed.
Print Assumptions C23_windows_cover_partial.
(** A run of exactly twelve months closes nothing. *)
Theorem C23_last_year_refuted : exists m', run_model (shop day0 Pmonth 12 [] [sell; buy]) = Ok m' /\
  filter tx_closing_cr (txs_of (Ok m')) = [] /\ length (operating (txs_of (Ok m'))) = 15%nat.
Proof. eexists. split; [vm_compute; reflexivity|]. split; [vm_compute; reflexivity|vm_compute; reflexivity]. Qed.
Print Assumptions C23_last_year_refuted.
Example C23_case : exists m', run_model (shop day0 Pmonth 26 [] [sell; buy]) = Ok m' /\
  map tx_date (filter tx_closing_cr (txs_of (Ok m'))) =
  [PDateTime (mkdt 2016 12 31 86399000000); PDateTime (mkdt 2016 12 31 86399000000); PDateTime (mkdt 2016 12 31 86399000000);
   PDateTime (mkdt 2017 12 31 86399000000); PDateTime (mkdt 2017 12 31 86399000000); PDateTime (mkdt 2017 12 31 86399000000)].
Proof. eexists. split; [vm_compute; reflexivity|]. vm_compute. reflexivity. Qed.

(** C24 *)
Theorem C24_closing_entries_shape : forall m m',
  valid_dt (ck_start (md_clock m)) -> (0 < md_count m)%Z -> run_model m = Ok m' ->
  Forall2 (fun e e' => forall ops k w t, good_structure e ops -> closed_year m k w ->
      In t (filter tx_closing_cr (of_year (fst w) (snd w) (l_txs (en_gl e')))) ->
      tx_closing_dt t = false /\ tx_date t = PDateTime (snd w) /\ tx_source t = Some (en_path e) /\
      exists d c, tx_dt t = Some d /\ tx_cr t = Some c /\
        (forall s, s = d \/ s = c -> has_type (built ops) s Revenue \/ has_type (built ops) s Expense \/
           exists re, deref (built ops) id_ret_earnings = Some re /\ s = a_path re /\ has_type (built ops) s Equity))
    (md_ents m) (md_ents m').
Proof. exact run_closing_shape. Qed.
Print Assumptions C24_closing_entries_shape.
Theorem C24_assets_untouched : forall m m',
  valid_dt (ck_start (md_clock m)) -> (0 < md_count m)%Z -> run_model m = Ok m' ->
  Forall2 (fun e e' => forall ops k w s, good_structure e ops -> closed_year m k w ->
      has_type (built ops) s Asset \/ has_type (built ops) s Liability ->
      ~ touched (filter tx_closing_cr (of_year (fst w) (snd w) (l_txs (en_gl e')))) s)
    (md_ents m) (md_ents m').
Proof. exact run_closing_assets. Qed.
Print Assumptions C24_assets_untouched.
Example C24_case : has_type default_gls "Bank/Default" Asset /\
  length (filter tx_closing_cr (txs_of (run_model (shop day0 Pmonth 13 [] [sell; buy])))) = 3%nat.
Proof. split; [eexists; split; [vm_compute; reflexivity|vm_compute; reflexivity]|vm_compute; reflexivity]. Qed.

(** C25: a loan activity in any structure of components, prepared and then run
    at any sequence of clocks. *)
Theorem C25_loan_repaid : forall name bank lacc iacc amount rate s n interval desc a p c N b cs gl gl' b',
  (1 <= n)%Z -> (1 <= interval)%Z ->
  new_loan name bank lacc iacc amount rate s n interval desc = Ok a ->
  prepare_activity c N (act_set_parent p a) = Ok b ->
  run_at cs gl b = Ok (gl', b') ->
  exists l, ac_kind b' = KLoan l /\
    (forall k, executions b cs = S k -> (Z.of_nat k = n -> ln_left l = 0%Qc) /\
       ((0 < amount)%Qc -> (0 < rate)%Qc -> (Z.of_nat k < n)%Z -> (0 < ln_left l)%Qc)).
Proof. exact loan_repaid. Qed.
Print Assumptions C25_loan_repaid.
Theorem C25_loan_decreases : forall name bank lacc iacc amount rate s n interval desc a p c N b cs gl gl1 b1 cs' gl2 b2 l1 l2,
  (1 <= n)%Z -> (1 <= interval)%Z -> (0 < amount)%Qc -> (0 < rate)%Qc ->
  new_loan name bank lacc iacc amount rate s n interval desc = Ok a ->
  prepare_activity c N (act_set_parent p a) = Ok b ->
  run_at cs gl b = Ok (gl1, b1) -> run_at cs' gl b = Ok (gl2, b2) -> (1 <= executions b cs < executions b cs')%nat ->
  ac_kind b1 = KLoan l1 -> ac_kind b2 = KLoan l2 -> (ln_left l2 < ln_left l1)%Qc.
Proof. exact loan_decreases. Qed.
Print Assumptions C25_loan_decreases.
(** In a monthly model whose clock and loan start on a day up to the 28th, with
    the loan starting inside the model and the horizon long enough, a complete
    run posts the loan and all n payments and leaves the loan account at 0. *)
Theorem C25_complete_run_partial : forall m m' (e : entity) name bank lacc iacc amount rate s n desc path a i,
  valid_dt (ck_start (md_clock m)) -> ck_period (md_clock m) = Pmonth -> (dt_day (ck_start (md_clock m)) <= 28)%Z ->
  valid_dt s -> (dt_day s <= 28)%Z -> (1 <= n)%Z -> (0 < amount)%Qc ->
  new_loan name bank lacc iacc amount rate s n 1 desc = Ok a ->
  lacc <> bank -> lacc <> iacc -> bank <> iacc ->
  md_ents m = [e] -> entity_acts e = [act_set_parent path a] ->
  dt_leb (ck_start (md_clock m)) s = true -> s <> dt_min ->
  first_period_after (md_clock m) s (md_count m) i -> (i + n + 1 <= md_count m)%Z ->
  run_model m = Ok m' ->
  exists e', md_ents m' = [e'] /\ net_credit (operating (l_txs (en_gl e'))) lacc = 0%Qc /\
    length (operating (l_txs (en_gl e'))) = Z.to_nat (2 * n + 1).
Proof. exact loan_run_settles. Qed.
Print Assumptions C25_complete_run_partial.
Definition bond (start : datetime) : activity :=
  match new_loan "bond" "Bank/Default" "Long Term Borrowing" "Expense" (q 1000) (Q2Qc (12#100)) start 3 1 None with Ok a => a | Err _ => sell end.
Definition loan_sum (m : tbm) : Qc := net_credit (operating (txs_of (run_model m))) "Long Term Borrowing".
Example C25_case : exists a, new_loan "bond" "Bank/Default" "Long Term Borrowing" "Expense" (q 1000) (Q2Qc (12#100)) (mkdt 2016 2 10 0) 3 1 None = Ok a /\
  first_period_after (new_clock day0 Pmonth) (mkdt 2016 2 10 0) 8 2 /\
  entity_acts (shop_entity [] [a]) = [act_set_parent "/Co/shop" a] /\
  length (operating (txs_of (run_model (shop day0 Pmonth 8 [] [a])))) = 7%nat /\ loan_sum (shop day0 Pmonth 8 [] [a]) = q 0.
Proof.
  eexists. split; [vm_compute; reflexivity|]. split; [apply first_after_spec; vm_compute; reflexivity|].
  split; [vm_compute; reflexivity|]. split; [vm_compute; reflexivity|]. apply Qc_is_canon; vm_compute; reflexivity.
Qed.
(** Outside these conditions the loan is not repaid: an end of month start, a
    start before the model's start, the default start. *)
Theorem C25_month_end_refuted : length (operating (txs_of (run_model (shop (mkdt 2016 1 31 0) Pmonth 12 [] [bond (mkdt 2016 2 29 0)])))) = 5%nat /\
  loan_sum (shop (mkdt 2016 1 31 0) Pmonth 12 [] [bond (mkdt 2016 2 29 0)]) <> 0%Qc.
Proof. split; [vm_compute; reflexivity|]. intros X. apply (f_equal this) in X. vm_compute in X. discriminate. Qed.
Print Assumptions C25_month_end_refuted.
Theorem C25_early_start_refuted : length (operating (txs_of (run_model (shop day0 Pmonth 12 [] [bond (mkdt 2015 11 15 0)])))) = 5%nat /\
  loan_sum (shop day0 Pmonth 12 [] [bond (mkdt 2015 11 15 0)]) <> 0%Qc.
Proof. split; [vm_compute; reflexivity|]. intros X. apply (f_equal this) in X. vm_compute in X. discriminate. Qed.
Print Assumptions C25_early_start_refuted.
Theorem C25_default_start_refuted : txs_of (run_model (shop day0 Pmonth 12 [] [bond dt_min])) = [] /\ is_ok (run_model (shop day0 Pmonth 12 [] [bond dt_min])) = true.
Proof. split; [vm_compute; reflexivity|vm_compute; reflexivity]. Qed.
Print Assumptions C25_default_start_refuted.

(** C26 *)
Theorem C26_loan_account_is_outstanding : forall cs a l gl gl' a' l',
  ac_kind a = KLoan l -> (1 <= ac_interval a)%Z ->
  ln_months l = 0%Z -> ln_left l = ln_amount l -> ln_loan l <> ln_bank l -> ln_loan l <> ln_interest l -> ln_bank l <> ln_interest l ->
  run_at cs gl a = Ok (gl', a') -> ac_kind a' = KLoan l' -> (1 <= executions a cs)%nat ->
  exists ps, l_txs gl' = (l_txs gl ++ ps)%list /\
    net_credit ps (ln_loan l) = ln_left l' /\
    (net_credit ps (ln_bank l) + net_credit ps (ln_interest l) = - ln_left l')%Qc /\
    (- net_credit ps (ln_interest l) = interest_sum (ln_amount l) (ln_rate l / twelve) (ln_payment l) (pred (executions a cs)))%Qc.
Proof. exact loan_account_exact. Qed.
Print Assumptions C26_loan_account_is_outstanding.
Example C26_case : exists b gl' b' l', prepare_activity (new_clock day0 Pmonth) 12 (bond (mkdt 2016 2 10 0)) = Ok b /\
  run_at (periods (new_clock day0 Pmonth) 5) (mkledger default_gls []) b = Ok (gl', b') /\ ac_kind b' = KLoan l' /\
  executions b (periods (new_clock day0 Pmonth) 5) = 3%nat /\ length (l_txs gl') = 5%nat /\
  net_credit (l_txs gl') "Long Term Borrowing" = ln_left l' /\ (0 < ln_left l')%Qc.
Proof.
  eexists _, _, _, _. split; [vm_compute; reflexivity|]. split; [vm_compute; reflexivity|]. split; [vm_compute; reflexivity|].
  split; [vm_compute; reflexivity|]. split; [vm_compute; reflexivity|]. split; [apply Qc_is_canon; vm_compute; reflexivity|vm_compute; reflexivity].
Qed.

(** C27 is false: with rate 0 the constructor divides by zero. *)
Theorem C27_zero_rate_refuted : forall name bank lacc iacc amount s n interval desc fin,
  (1 <= n)%Z -> add_months s (n + 1) = Ok fin ->
  new_loan name bank lacc iacc amount 0%Qc s n interval desc = Err ZeroDivisionError.
Proof. exact zero_rate_raises. Qed.
Print Assumptions C27_zero_rate_refuted.
Example C27_case : new_loan "x" "b" "l" "i" (q 1000) 0%Qc day0 60 1 None = Err ZeroDivisionError.
Proof. vm_compute. reflexivity. Qed.

(** C54 is false: a report filtered by the path of one component also selects
    the transactions of a sibling whose name extends the first one's name. *)
Theorem C54_sibling_prefix_refuted : forall l start fin p x y t rows tot,
  In t (l_txs l) -> tx_source t = Some (p ++ x ++ "/" ++ y) ->
  py_leb start (tx_date t) = true -> py_leb (tx_date t) fin = true ->
  transaction_list l start fin p = Ok (rows, tot) -> In (tl_row_of t) rows.
Proof. exact sibling_selected. Qed.
Print Assumptions C54_sibling_prefix_refuted.
Example C54_case : exists rows tot,
  transaction_list (mkledger default_gls (txs_of (run_model (mktbm "m" (new_clock day0 Pmonth) 3
     [ent_built "Co" default_gls [ECreate "shop"; ECreate "shop2"; EAt 1 [] (CAdd sell)]])))) (at_ 2016 1 1) (at_ 2017 1 1) "/Co/shop" = Ok (rows, tot) /\ length rows = 3%nat.
Proof. eexists _, _. split; [vm_compute; reflexivity|vm_compute; reflexivity]. Qed.

(** C55 is false: the start period found by the first run is kept, although the
    activity's start has been changed since. *)
Theorem C55_changed_start_refuted : forall c n a b t, fresh a -> ac_start a <> dt_min -> some_period_after c (ac_start a) n ->
  prepare_activity c n a = Ok b ->
  forall b', prepare_activity c n (act_set_start t b) = Ok b' -> ac_start_ix b' = ac_start_ix b.
Proof. exact changed_start_ignored. Qed.
Print Assumptions C55_changed_start_refuted.
Example C55_case : exists b b' b2, prepare_activity (new_clock day0 Pmonth) 12 spring = Ok b /\
  prepare_activity (new_clock day0 Pmonth) 12 (act_set_start (mkdt 2016 4 15 0) b) = Ok b' /\ ac_start_ix b' = 2%Z /\
  prepare_activity (new_clock day0 Pmonth) 12 (act_set_start (mkdt 2016 4 15 0) spring) = Ok b2 /\ ac_start_ix b2 = 4%Z.
Proof. eexists _, _, _. split; [vm_compute; reflexivity|]. split; [vm_compute; reflexivity|]. split; [vm_compute; reflexivity|]. split; [vm_compute; reflexivity|vm_compute; reflexivity]. Qed.
