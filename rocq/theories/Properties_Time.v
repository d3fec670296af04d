(** Properties C01-C04: auxi/core/time.py. *)
From Verif Require Import Prelude M_Dates Spec_Dates P_Dates.

(** C01: the period index is the number of ticks since the last reset; the
    current datetime is the one of that index; queries change nothing. *)
Theorem C01_clock_history : forall (ops : list clock_op) (start : datetime) (p : period),
  let c := fold_left clock_step ops (new_clock start p) in
  ck_ix c = ticks_since_reset 0 ops /\ ck_start c = start /\ ck_period c = p /\
  get_datetime c = datetime_at (new_clock start p) (ticks_since_reset 0 ops).
Proof. exact clock_history_new. Qed.
Print Assumptions C01_clock_history.
Example C01_case : ck_ix (fold_left clock_step [OpTick; OpTick; OpReset; OpTick; OpNow; OpTick; OpTick]
                            (new_clock (mkdt 2016 1 31 0) Pmonth)) = 3
  /\ get_datetime (fold_left clock_step [OpTick; OpReset; OpTick] (new_clock (mkdt 2016 1 31 0) Pmonth))
     = Ok (mkdt 2016 2 29 0).
Proof. split; vm_compute; reflexivity. Qed.

(** C02: the ordinal used to state C02 counts calendar days from 1 January 1. *)
Theorem C02_ordinal_counts_days : forall n : nat,
  let '(y, m, d) := Nat.iter n next_day (1, 1, 1) in
  (1 <= m <= 12 /\ 1 <= d <= days_in_month y m) /\ ymd2ord y m d = Z.of_nat n + 1.
Proof. exact ord_counts_days. Qed.
Print Assumptions C02_ordinal_counts_days.

Theorem C02_period_zero_is_start : forall c, valid_dt (ck_start c) -> datetime_at c 0 = Ok (ck_start c).
Proof. exact datetime_at_0. Qed.
Print Assumptions C02_period_zero_is_start.

Theorem C02_fixed_periods_exact : forall c ix len t,
  valid_dt (ck_start c) -> period_us (ck_period c) = Some len ->
  datetime_at c ix = Ok t -> valid_dt t /\ instant t = instant (ck_start c) + ix * len.
Proof. exact fixed_exact. Qed.
Print Assumptions C02_fixed_periods_exact.

Theorem C02_calendar_periods_exact : forall c ix k t,
  valid_dt (ck_start c) -> period_months (ck_period c) = Some k ->
  datetime_at c ix = Ok t ->
  valid_dt t /\ month_index t = month_index (ck_start c) + ix * k /\
  dt_day t = Z.min (dt_day (ck_start c)) (days_in_month (dt_year t) (dt_month t)) /\
  dt_us t = dt_us (ck_start c).
Proof. exact calendar_exact. Qed.
Print Assumptions C02_calendar_periods_exact.
(** 31 January + 1 month clips to 29 February, + 2 months is 31 March again. *)
Example C02_case : valid_dtb (mkdt 2016 1 31 5) = true /\
  datetime_at (new_clock (mkdt 2016 1 31 5) Pmonth) 1 = Ok (mkdt 2016 2 29 5) /\
  datetime_at (new_clock (mkdt 2016 1 31 5) Pmonth) 2 = Ok (mkdt 2016 3 31 5) /\
  datetime_at (new_clock (mkdt 2016 1 31 5) Pmonth) (-14) = Ok (mkdt 2014 11 30 5) /\
  datetime_at (new_clock (mkdt 2016 2 29 5) Pyear) 84 = Ok (mkdt 2100 2 28 5) /\
  datetime_at (new_clock (mkdt 2016 2 29 5) Pweek) 1000 = Ok (mkdt 2035 4 30 5).
Proof. repeat split; vm_compute; reflexivity. Qed.

(** C03 *)
Theorem C03_datetimes_strictly_increase : forall c i j a b,
  valid_dt (ck_start c) -> i < j ->
  datetime_at c i = Ok a -> datetime_at c j = Ok b -> dt_ltb a b = true.
Proof. exact datetime_at_strict. Qed.
Print Assumptions C03_datetimes_strictly_increase.
(** [dt_ltb] (field by field comparison) is the order of instants. *)
Theorem C03_order_is_time_order : forall a b, valid_dt a -> valid_dt b ->
  (dt_ltb a b = true <-> instant a < instant b).
Proof. exact dt_ltb_instant. Qed.
Print Assumptions C03_order_is_time_order.
Example C03_case : exists a b, datetime_at (new_clock (mkdt 2015 12 31 0) Pmonth) 2 = Ok a /\
  datetime_at (new_clock (mkdt 2015 12 31 0) Pmonth) 3 = Ok b /\ dt_ltb a b = true.
Proof. do 2 eexists; repeat split; vm_compute; reflexivity. Qed.

(** C04 *)
Theorem C04_fixed_periods_raise_exactly_out_of_range : forall c ix len,
  valid_dt (ck_start c) -> period_us (ck_period c) = Some len ->
  (datetime_at c ix = Err OverflowError <->
   ~ (instant dt_min <= instant (ck_start c) + ix * len <= instant dt_max)) /\
  (is_ok (datetime_at c ix) = true <->
   instant dt_min <= instant (ck_start c) + ix * len <= instant dt_max).
Proof. exact fixed_raises. Qed.
Print Assumptions C04_fixed_periods_raise_exactly_out_of_range.

Theorem C04_calendar_periods_raise_exactly_out_of_range : forall c ix k,
  valid_dt (ck_start c) -> period_months (ck_period c) = Some k ->
  (datetime_at c ix = Err ValueError <-> ~ (1 * 12 <= month_index (ck_start c) + ix * k < 10000 * 12)) /\
  (is_ok (datetime_at c ix) = true <-> 1 * 12 <= month_index (ck_start c) + ix * k < 10000 * 12).
Proof. exact calendar_raises. Qed.
Print Assumptions C04_calendar_periods_raise_exactly_out_of_range.
Theorem C04_results_are_valid_dates : forall c ix t,
  valid_dt (ck_start c) -> datetime_at c ix = Ok t -> valid_dt t.
Proof. exact datetime_at_valid. Qed.
Print Assumptions C04_results_are_valid_dates.
Example C04_case :
  datetime_at (new_clock (mkdt 9999 12 31 0) Pday) 1 = Err OverflowError /\
  datetime_at (new_clock (mkdt 9999 12 31 0) Phour) 23 = Ok (mkdt 9999 12 31 82800000000) /\
  datetime_at (new_clock (mkdt 1 1 31 0) Pmonth) (-1) = Err ValueError.
Proof. repeat split; vm_compute; reflexivity. Qed.
