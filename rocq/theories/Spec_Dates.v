(** Independent calendar specification: the successor of a calendar day, and
    the length of fixed periods. *)
From Verif Require Import Prelude M_Dates.

(** The day after (y, m, d) in the Gregorian calendar. *)
Definition next_day (x : Z * Z * Z) : Z * Z * Z :=
  let '(y, m, d) := x in
  if d <? days_in_month y m then (y, m, d + 1)
  else if m <? 12 then (y, m + 1, 1) else (y + 1, 1, 1).

(** Microseconds from the start of year 1; [toordinal] is shown to count
    applications of [next_day] from 1 January of year 1 (theorem
    [C02_ordinal_counts_days]). *)
Definition instant (t : datetime) : Z := toordinal t * us_per_day + dt_us t.

(** Length of the fixed-length periods in microseconds. *)
Definition period_us (p : period) : option Z :=
  match p with
  | Pms => Some 1000
  | Psecond => Some (1000 * 1000)
  | Pminute => Some (60 * 1000 * 1000)
  | Phour => Some (60 * 60 * 1000 * 1000)
  | Pday => Some (24 * 60 * 60 * 1000 * 1000)
  | Pweek => Some (7 * 24 * 60 * 60 * 1000 * 1000)
  | Pmonth | Pyear => None
  end.

(** Calendar months per period for the calendar periods. *)
Definition period_months (p : period) : option Z :=
  match p with Pmonth => Some 1 | Pyear => Some 12 | _ => None end.

(** Months since month 1 of year 0. *)
Definition month_index (t : datetime) : Z := dt_year t * 12 + (dt_month t - 1).

(** Operations a user may perform on a clock. *)
Inductive clock_op := OpTick | OpReset | OpQuery (ix : Z) | OpNow.

Definition clock_step (c : clock) (o : clock_op) : clock :=
  match o with OpTick => tick c | OpReset => reset c | OpQuery _ | OpNow => c end.

(** Number of ticks after the last reset of a history (oldest first). *)
Fixpoint ticks_since_reset (n : Z) (ops : list clock_op) : Z :=
  match ops with
  | [] => n
  | OpTick :: r => ticks_since_reset (n + 1) r
  | OpReset :: r => ticks_since_reset 0 r
  | _ :: r => ticks_since_reset n r
  end.
