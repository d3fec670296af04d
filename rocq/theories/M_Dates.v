(** Model of Python's [datetime] arithmetic as used by auxi, and of
    [auxi/core/time.py].  The datetime library itself is not in /repo; the
    definitions transcribe CPython's [Lib/datetime.py] and dateutil's
    [relativedelta.__add__]/[_fix] for the arguments auxi passes. *)
From Verif Require Import Prelude.

(** CPython datetime.py [_is_leap]. *)
Definition is_leap (y : Z) : bool :=
  (y mod 4 =? 0) && (negb (y mod 100 =? 0) || (y mod 400 =? 0)).

(** CPython [_days_before_year]. *)
Definition days_before_year (y : Z) : Z :=
  let y := y - 1 in y * 365 + y / 4 - y / 100 + y / 400.

(** CPython [_DAYS_IN_MONTH], [_days_in_month]. *)
Definition days_in_month (y m : Z) : Z :=
  if m =? 2 then (if is_leap y then 29 else 28)
  else if (m =? 4) || (m =? 6) || (m =? 9) || (m =? 11) then 30 else 31.

(** CPython [_DAYS_BEFORE_MONTH] table (non-leap). *)
Definition days_before_month_tbl (m : Z) : Z :=
  match m with
  | 1 => 0 | 2 => 31 | 3 => 59 | 4 => 90 | 5 => 120 | 6 => 151 | 7 => 181
  | 8 => 212 | 9 => 243 | 10 => 273 | 11 => 304 | 12 => 334 | _ => 365
  end.

(** CPython [_days_before_month]. *)
Definition days_before_month (y m : Z) : Z :=
  days_before_month_tbl m + (if (2 <? m) && is_leap y then 1 else 0).

(** CPython [_ymd2ord]. *)
Definition ymd2ord (y m d : Z) : Z :=
  days_before_year y + days_before_month y m + d.

(** CPython [_ord2ymd], tail: month and day from a 0-based day in a year. *)
Definition month_day_of (leap : bool) (n : Z) : Z * Z :=
  let month := (n + 50) / 32 in
  let preceding := days_before_month_tbl month + (if (2 <? month) && leap then 1 else 0) in
  if n <? preceding then
    let month := month - 1 in
    let dim := if month =? 2 then (if leap then 29 else 28)
               else if (month =? 4) || (month =? 6) || (month =? 9) || (month =? 11) then 30 else 31 in
    (month, n - (preceding - dim) + 1)
  else (month, n - preceding + 1).

(** CPython [_ord2ymd]. *)
Definition ord2ymd (ord : Z) : Z * Z * Z :=
  let n := ord - 1 in
  let n400 := n / 146097 in let n := n mod 146097 in
  let year := n400 * 400 + 1 in
  let n100 := n / 36524 in let n := n mod 36524 in
  let n4 := n / 1461 in let n := n mod 1461 in
  let n1 := n / 365 in let n := n mod 365 in
  let year := year + n100 * 100 + n4 * 4 + n1 in
  if (n1 =? 4) || (n100 =? 4) then (year - 1, 12, 31)
  else
    let leap := (n1 =? 3) && (negb (n4 =? 24) || (n100 =? 3)) in
    let (m, d) := month_day_of leap n in (year, m, d).

(** A naive Python datetime: year, month, day and microsecond of the day
    (the hour, minute, second and microsecond fields taken together). *)
Record datetime := mkdt { dt_year : Z; dt_month : Z; dt_day : Z; dt_us : Z }.

Definition us_per_day : Z := 86400000000.

(** The instants a [datetime] object can hold. *)
Definition valid_dt (t : datetime) : Prop :=
  1 <= dt_year t <= 9999 /\ 1 <= dt_month t <= 12 /\
  1 <= dt_day t <= days_in_month (dt_year t) (dt_month t) /\
  0 <= dt_us t < us_per_day.

Definition valid_dtb (t : datetime) : bool :=
  (1 <=? dt_year t) && (dt_year t <=? 9999) && (1 <=? dt_month t) && (dt_month t <=? 12) &&
  (1 <=? dt_day t) && (dt_day t <=? days_in_month (dt_year t) (dt_month t)) &&
  (0 <=? dt_us t) && (dt_us t <? us_per_day).

(** [datetime.min] and [datetime.max]. *)
Definition dt_min : datetime := mkdt 1 1 1 0.
Definition dt_max : datetime := mkdt 9999 12 31 (us_per_day - 1).

(** CPython [datetime._cmp] on naive datetimes: field by field. *)
Definition dt_cmp (a b : datetime) : comparison :=
  match dt_year a ?= dt_year b with
  | Eq => match dt_month a ?= dt_month b with
          | Eq => match dt_day a ?= dt_day b with
                  | Eq => dt_us a ?= dt_us b
                  | c => c end
          | c => c end
  | c => c
  end.
Definition dt_ltb (a b : datetime) : bool := match dt_cmp a b with Lt => true | _ => false end.
Definition dt_leb (a b : datetime) : bool := match dt_cmp a b with Gt => false | _ => true end.
Definition dt_eqb (a b : datetime) : bool := match dt_cmp a b with Eq => true | _ => false end.

Definition toordinal (t : datetime) : Z := ymd2ord (dt_year t) (dt_month t) (dt_day t).

(** CPython [_MAXORDINAL] = date.max.toordinal(). *)
Definition max_ordinal : Z := 3652059.

(** CPython [datetime.__add__] with a [timedelta] of [us] microseconds
    (a timedelta is a whole number of microseconds); out of range raises
    OverflowError.  timedelta's own bound (10^9 days) raises the same
    exception and lies outside the range of dates. *)
Definition add_us (t : datetime) (us : Z) : res datetime :=
  let total := toordinal t * us_per_day + dt_us t + us in
  let days := total / us_per_day in
  if (0 <? days) && (days <=? max_ordinal) then
    let '(y, m, d) := ord2ymd days in Ok (mkdt y m d (total mod us_per_day))
  else Err OverflowError.

(** dateutil [relativedelta(months=n)._fix] and [__add__]: carry whole years
    out of the months (truncating towards zero), add, carry once more, clip the
    day, [replace] (ValueError when the year is out of range). *)
Definition add_months (t : datetime) (n : Z) : res datetime :=
  let s := Z.sgn n in
  let years := if 11 <? Z.abs n then s * ((n * s) / 12) else 0 in
  let months := if 11 <? Z.abs n then s * ((n * s) mod 12) else n in
  let y := dt_year t + years in
  let m := dt_month t + months in
  let '(y, m) := if 12 <? m then (y + 1, m - 12)
                 else if m <? 1 then (y - 1, m + 12) else (y, m) in
  let d := Z.min (days_in_month y m) (dt_day t) in
  if (1 <=? y) && (y <=? 9999) then Ok (mkdt y m d (dt_us t)) else Err ValueError.

(** dateutil [relativedelta(years=n)] added to a datetime. *)
Definition add_years (t : datetime) (n : Z) : res datetime :=
  let y := dt_year t + n in
  let d := Z.min (days_in_month y (dt_month t)) (dt_day t) in
  if (1 <=? y) && (y <=? 9999) then Ok (mkdt y (dt_month t) d (dt_us t)) else Err ValueError.

(** auxi/core/time.py:23-35 TimePeriod. *)
Inductive period := Pms | Psecond | Pminute | Phour | Pday | Pweek | Pmonth | Pyear.

(** auxi/core/time.py:38-63 Clock; [name], [description] and the never-read
    [timestep_period_count] are left out. *)
Record clock := mkclock { ck_start : datetime; ck_period : period; ck_ix : Z }.

(** auxi/core/time.py:45-63 Clock.__init__ *)
Definition new_clock (start : datetime) (p : period) : clock := mkclock start p 0.

(** auxi/core/time.py:65-70 tick *)
Definition tick (c : clock) : clock := mkclock (ck_start c) (ck_period c) (ck_ix c + 1).

(** auxi/core/time.py:72-77 reset *)
Definition reset (c : clock) : clock := mkclock (ck_start c) (ck_period c) 0.

(** auxi/core/time.py:79-103 get_datetime_at_period_ix *)
Definition datetime_at (c : clock) (ix : Z) : res datetime :=
  let t := ck_start c in
  match ck_period c with
  | Pms => add_us t (ix * 1000)
  | Psecond => add_us t (ix * 1000000)
  | Pminute => add_us t (ix * 60000000)
  | Phour => add_us t (ix * 3600000000)
  | Pday => add_us t (ix * us_per_day)
  | Pweek => add_us t (ix * 7 * us_per_day)
  | Pmonth => add_months t ix
  | Pyear => add_years t ix
  end.

(** auxi/core/time.py:105-112 get_datetime *)
Definition get_datetime (c : clock) : res datetime := datetime_at c (ck_ix c).
