(** C73: dates given as text; C74: models, activities and reports whose dates are
    given in different ways. *)
From Verif Require Import Prelude M_Stoichiometry M_Dates P_Dates M_Ledger M_Business M_Strptime Spec_Dates Spec_Dates2 P_Strptime Spec_Ledger P_Ledger.
Local Open Scope Z_scope.
Local Open Scope list_scope.

(** * C73 *)
(** A text is accepted exactly if it spells a date that exists. *)
Theorem C73_get_date_exact : forall t x, get_date (DText t) = Ok x <-> exists y m d, date_text y m d t /\ valid_dt (mkdt y m d 0) /\ x = PDate (mkdt y m d 0).
Proof.
  intros t x. cbn [get_date]. split.
  - destruct (strptime t) as [z|] eqn:E; [|discriminate]. cbn [bind]. intros H. injection H as <-. apply strptime_ok in E. destruct E as (y & m & d & -> & D & V). eauto 6.
  - intros (y & m & d & D & V & ->). rewrite (proj2 (strptime_ok t (mkdt y m d 0))); eauto 6.
Qed.
Print Assumptions C73_get_date_exact.
(** Any other text raises ValueError. *)
Theorem C73_other_texts_raise : forall t, (forall y m d, date_text y m d t -> ~ valid_dt (mkdt y m d 0)) -> get_date (DText t) = Err ValueError /\ activity_date (DText t) = Err ValueError.
Proof.
  intros t H. cbn [get_date activity_date]. destruct (strptime t) as [z|e] eqn:E.
  - apply strptime_ok in E. destruct E as (y & m & d & -> & D & V). exfalso. eapply H; eauto.
  - apply strptime_err in E. subst e. auto.
Qed.
Print Assumptions C73_other_texts_raise.
(** A text spells at most one date. *)
Theorem C73_unambiguous : forall t y m d y' m' d', date_text y m d t -> date_text y' m' d' t -> y = y' /\ m = m' /\ d = d'.
Proof. intros t y m d y' m' d' A B. apply match_complete in A, B. rewrite A in B. injection B as -> -> ->. auto. Qed.
Print Assumptions C73_unambiguous.
(** Every date is read back from what isoformat() writes. *)
Theorem C73_iso_round_trip : forall y m d, valid_dt (mkdt y m d 0) -> get_date (DText (iso y m d)) = Ok (PDate (mkdt y m d 0)) /\ activity_date (DText (iso y m d)) = Ok (PDateTime (mkdt y m d 0)).
Proof.
  intros y m d V. assert (E : strptime (iso y m d) = Ok (mkdt y m d 0)).
  { apply strptime_ok. exists y, m, d. split; auto. split; auto. destruct V as (V1 & V2 & V3 & _). cbn [dt_year dt_month dt_day] in *. apply iso_text; try lia. pose proof (dim_bounds y m). lia. }
  cbn [get_date activity_date]. rewrite E. auto.
Qed.
Print Assumptions C73_iso_round_trip.
(** Values that are not text are passed on. *)
Theorem C73_values_kept : forall t, get_date (DTime t) = Ok t /\ activity_date (DTime t) = Ok t.
Proof. auto. Qed.
Print Assumptions C73_values_kept.
Definition w (s : string) : text := text_of s.
Example C73_case_leap : get_date (DText (w "2016-02-29")) = Ok (PDate (mkdt 2016 2 29 0)) /\ get_date (DText (w "2015-02-29")) = Err ValueError.
Proof. vm_compute. auto. Qed.
Example C73_case_forms : get_date (DText (w "2016-2-9")) = Ok (PDate (mkdt 2016 2 9 0)) /\ get_date (DText (w "2016-02- 9")) = Ok (PDate (mkdt 2016 2 9 0)) /\ get_date (DText (w "16-02-09")) = Err ValueError /\
  get_date (DText (w "2016-02-09 ")) = Err ValueError /\ get_date (DText (w "2016-13-01")) = Err ValueError /\ get_date (DText (w "0000-01-01")) = Err ValueError.
Proof. vm_compute. repeat split. Qed.
Example C73_case_text : date_text 2016 2 9 (w "2016-2-09").
Proof. exists (w "2016"), (w "2"), (w "09"). repeat split; try (cbn; lia); try reflexivity; [right; split; [lia|reflexivity]|left; left; reflexivity]. Qed.

(** * C74 *)
(** A clock that starts at a date gives the days on which the clock that starts at
    its midnight is. *)
Theorem C74_date_clock : forall t p ix, dt_us t = 0 ->
  time_at (PDate t) p ix = match time_at (PDateTime t) p ix with Ok x => Ok (PDate (mkdt (dt_year (py_raw x)) (dt_month (py_raw x)) (dt_day (py_raw x)) 0)) | Err e => Err e end.
Proof. intros t p ix M. cbn [time_at]. rewrite date_at_day by exact M. destruct (datetime_at (mkclock t p 0) ix); reflexivity. Qed.
Print Assumptions C74_date_clock.
(** So periods shorter than a day stand still. *)
Theorem C74_short_periods_refuted : exists t, valid_dt t /\ forall i, 0 <= i < 24 -> time_at (PDate t) Phour i = Ok (PDate t).
Proof.
  exists (mkdt 2016 2 1 0). split; [repeat split; vm_compute; congruence|]. intros i I. cbn [time_at date_at]. unfold us_per_day. rewrite Z.div_small by lia. reflexivity.
Qed.
Print Assumptions C74_short_periods_refuted.

Definition calendar (p : period) : Prop := p = Pday \/ p = Pweek \/ p = Pmonth \/ p = Pyear.
Lemma calendar_midnight t p ix x : dt_us t = 0 -> calendar p -> datetime_at (mkclock t p 0) ix = Ok x -> day_of x = x.
Proof.
  intros M C. unfold datetime_at. cbn [ck_start ck_period]. assert (A : forall k y, add_us t (k * us_per_day) = Ok y -> day_of y = y).
  { intros k y. unfold add_us. rewrite M, Z.add_0_r. destruct (_ && _); [|discriminate]. destruct (ord2ymd _) as [[a b] c]. intros H. injection H as <-. unfold day_of. cbn. f_equal. symmetry. rewrite <- Z.mul_add_distr_r. apply Z_mod_mult. }
  destruct C as [-> |[-> |[-> | ->]]]; try apply A.
  - unfold add_months. destruct (if 12 <? _ then _ else _) as [a b]. destruct (_ && _); [|discriminate]. intros H. injection H as <-. unfold day_of. cbn. now rewrite M.
  - unfold add_years. destruct (_ && _); [|discriminate]. intros H. injection H as <-. unfold day_of. cbn. now rewrite M.
Qed.
Lemma first_after_dates t p a : dt_us t = 0 -> calendar p -> forall n i, first_after_p (PDate t) p (PDate a) i n = first_after (mkclock t p 0) a i n.
Proof.
  intros M C. induction n as [|n IH]; intros i; [reflexivity|]. cbn [first_after_p first_after time_at]. rewrite date_at_day by exact M.
  destruct (datetime_at (mkclock t p 0) i) as [x|] eqn:E; [|reflexivity]. cbn [bind py_lt]. rewrite (calendar_midnight t p i x M C E). now rewrite IH.
Qed.
(** If the model and the activity are all given as dates, the activity gets the
    window it gets with the midnights. *)
Theorem C74_all_dates : forall t p n a b, dt_us t = 0 -> calendar p -> dt_us (ac_start a) = 0 -> dt_us (ac_end a) = 0 -> ac_start a <> dt_min -> prepare_base (mkclock t p 0) n a = Ok b ->
  prepare_window (PDate t) p n (PDate (ac_start a)) (PDate (ac_end a)) (ac_start_ix a) (ac_count a) = Ok (ac_start_ix b, ac_end_ix b, ac_count b).
Proof.
  intros t p n a b M C MS ME NS. unfold prepare_base, prepare_window. cbn [py_ne]. rewrite !andb_true_r.
  replace (negb (dt_eqb (ac_start a) dt_min)) with true. 2:{ symmetry. apply negb_true_iff. apply not_true_is_false. intros X. apply NS. apply dt_eqb_eq. exact X. }
  replace (negb (dt_eqb (ac_end a) dt_max)) with true. 2:{ symmetry. apply negb_true_iff. apply not_true_is_false. intros X. apply dt_eqb_eq in X. rewrite X in ME. vm_compute in ME. discriminate. }
  rewrite !andb_true_r, !first_after_dates by auto. destruct (if ac_start_ix a =? -1 then _ else _) as [f|]; [|discriminate]. cbn [bind]. destruct (if ac_count a =? -1 then _ else _) as [g|]; [|discriminate]. cbn [bind]. intros H. injection H as <-. reflexivity.
Qed.
Print Assumptions C74_all_dates.
(** A date and a datetime cannot be compared: an activity whose start is not the
    default cannot be prepared in a model of the other kind. *)
Theorem C74_mixed_raises : forall start p n a_start a_end count x, 1 <= n -> py_is_dt start <> py_is_dt a_start -> py_ne a_start (PDateTime dt_min) = true -> time_at start p 0 = Ok x ->
  prepare_window start p n a_start a_end (-1) count = Err TypeError.
Proof.
  intros start p n s e count x N K D T. unfold prepare_window. rewrite Z.eqb_refl, D. cbn [andb]. destruct (Z.to_nat n) as [|k] eqn:E; [lia|]. cbn [first_after_p]. rewrite T. cbn [bind].
  assert (X : py_is_dt x = py_is_dt start). { destruct start; cbn [time_at] in T; [destruct (date_at _ _ _)|destruct (datetime_at _ _)]; cbn [bind] in T; try discriminate; injection T as <-; reflexivity. }
  assert (L : py_lt s x = Err TypeError). { destruct s, x; cbn [py_is_dt py_lt] in *; auto; rewrite <- X in K; now destruct K. }
  now rewrite L.
Qed.
Print Assumptions C74_mixed_raises.
(** In particular when both are given as text, the way each of them accepts: the
    model's text becomes a date, the activity's a datetime. *)
Theorem C74_text_for_both_refuted : forall tm ta ms as_ p n a_end count, get_date (DText tm) = Ok ms -> activity_date (DText ta) = Ok as_ -> as_ <> PDateTime dt_min -> 1 <= n -> calendar p ->
  prepare_window ms p n as_ a_end (-1) count = Err TypeError.
Proof.
  intros tm ta ms s p n e count A B D N C. cbn [get_date activity_date] in A, B. destruct (strptime tm) as [t|] eqn:A'; [|discriminate]. destruct (strptime ta) as [u|] eqn:B'; [|discriminate]. cbn [bind] in A, B. injection A as <-. injection B as <-.
  apply strptime_ok in A'. destruct A' as (y & m & d & -> & _ & V). set (t := mkdt y m d 0) in *.
  assert (Z : time_at (PDate t) p 0 = Ok (PDate t)).
  { cbn [time_at]. rewrite date_at_day by reflexivity. rewrite (datetime_at_0 (mkclock t p 0)) by exact V. reflexivity. }
  apply (C74_mixed_raises _ _ _ _ _ _ (PDate t)); auto; [discriminate|]. cbn [py_ne]. apply negb_true_iff. apply not_true_is_false. intros X. apply dt_eqb_eq in X. congruence.
Qed.
Print Assumptions C74_text_for_both_refuted.
(** A loan cannot be given its start as text at all. *)
Theorem C74_loan_text_refuted : forall t n, loan_end (DText t) n = Err TypeError.
Proof. reflexivity. Qed.
Print Assumptions C74_loan_text_refuted.
(** A loan given its start as a date or a datetime ends one month after its last
    payment, that is duration + 1 calendar months later, on the same day of the month
    or the last one there is, at the same time of day, and in the same kind of value;
    it is refused only if that month is outside the years 1 to 9999. *)
Definition month_count (y m : Z) : Z := 12 * y + m.
Theorem C74_loan_end : forall x n, valid_dt (py_raw x) ->
  (forall r, loan_end (DTime x) n = Ok r ->
     py_is_dt r = py_is_dt x /\ valid_dt (py_raw r) /\ dt_us (py_raw r) = dt_us (py_raw x) /\
     month_count (dt_year (py_raw r)) (dt_month (py_raw r)) = month_count (dt_year (py_raw x)) (dt_month (py_raw x)) + n + 1 /\
     dt_day (py_raw r) = Z.min (dt_day (py_raw x)) (days_in_month (dt_year (py_raw r)) (dt_month (py_raw r)))) /\
  (forall e, loan_end (DTime x) n = Err e ->
     e = ValueError /\ forall y m, 1 <= y <= 9999 -> 1 <= m <= 12 -> month_count y m <> month_count (dt_year (py_raw x)) (dt_month (py_raw x)) + n + 1).
Proof.
  intros x n V. assert (E : loan_end (DTime x) n = (do d <- add_months (py_raw x) (n + 1); Ok (if py_is_dt x then PDateTime d else PDate d))) by (destruct x; reflexivity).
  rewrite E. destruct (add_months (py_raw x) (n + 1)) as [d|e] eqn:A; cbn [bind]; split; intros r H; try discriminate; injection H as <-.
  - apply add_months_ok in A; [|exact V]. destruct A as (V' & M & D & U). unfold month_index in M. unfold month_count. destruct (py_is_dt x); cbn [py_raw py_is_dt]; repeat split; auto; try apply V'; lia.
  - apply add_months_err in A; [|exact V]. destruct A as (-> & R). split; [reflexivity|]. intros y m Y M H. apply R. unfold month_index, month_count in *. lia.
Qed.
Print Assumptions C74_loan_end.
Example C74_case_loan_end : loan_end (DTime (PDate (mkdt 2016 1 31 0))) 12 = Ok (PDate (mkdt 2017 2 28 0)) /\ loan_end (DTime (PDateTime (mkdt 9999 12 1 0))) 0 = Err ValueError.
Proof. vm_compute. auto. Qed.
(** A report asked for with text dates fails on the first transaction that has a
    datetime (as those of every model started at a datetime have). *)
Theorem C74_report_text_refuted : forall ts te s e l t, get_date (DText ts) = Ok s -> get_date (DText te) = Ok e -> In t (l_txs l) -> py_is_dt (tx_date t) = true -> same_kind (l_txs l) = true ->
  (forall t', In t' (l_txs l) -> exists src, tx_source t' = Some src) -> transaction_list l s e "" = Err TypeError.
Proof.
  intros ts te s e l t A B I D K S. apply (transaction_list_mixed l s e t); auto. unfold comparable. rewrite D. cbn [get_date] in A. destruct (strptime ts); [|discriminate]. cbn [bind] in A. injection A as <-. discriminate.
Qed.
Print Assumptions C74_report_text_refuted.
Example C74_case : prepare_window (PDate (mkdt 2016 2 1 0)) Pmonth 12 (PDateTime (mkdt 2016 3 1 0)) (PDateTime dt_max) (-1) (-1) = Err TypeError /\
  prepare_window (PDate (mkdt 2016 2 1 0)) Pmonth 12 (PDate (mkdt 2016 3 1 0)) (PDateTime dt_max) (-1) (-1) = Ok (2, 14, -1).
Proof. vm_compute. auto. Qed.
