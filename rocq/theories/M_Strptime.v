(** Model of how auxi takes dates: auxi/core/helpers.py get_date,
    auxi/modelling/business/structure.py Activity._get_date_ and prepare_to_run,
    auxi/core/time.py Clock and auxi/modelling/business/basic.py for values that
    may be dates or datetimes.  datetime.strptime is not in /repo; CPython's
    Lib/_strptime.py is transcribed for the format '%Y-%m-%d' and ascii text (its
    \d also matches other Unicode digits). *)
From Verif Require Import Prelude M_Stoichiometry M_Dates M_Ledger.
Local Open Scope Z_scope.
Local Open Scope list_scope.

(** * datetime.strptime(t, '%Y-%m-%d') *)
Definition dash : ascii := "-"%char.
(** [between a b c]: the regular expression [a-b] matches c. *)
Definition between (a b c : ascii) : bool := (code a <=? code c) && (code c <=? code b).
Definition dval (c : ascii) : Z := code c - 48.
(** %m: 1[0-2]|0[1-9]|[1-9]; %d: 3[0-1]|[1-2]\d|0[1-9]|[1-9]| [1-9].  Every
    alternative that matches a prefix, in the order they are tried: the number
    and the rest of the text. *)
Definition alt2 (p q : ascii -> bool) (t : text) : list (Z * text) :=
  match t with a :: b :: r => if p a && q b then [(10 * dval a + dval b, r)] else [] | _ => [] end.
Definition alt1 (t : text) : list (Z * text) := match t with a :: r => if between "1" "9" a then [(dval a, r)] else [] | [] => [] end.
Definition alt_sp (t : text) : list (Z * text) := match t with a :: r => if Ascii.eqb a " " then alt1 r else [] | [] => [] end.
Definition month_alts (t : text) : list (Z * text) := alt2 (Ascii.eqb "1") (between "0" "2") t ++ alt2 (Ascii.eqb "0") (between "1" "9") t ++ alt1 t.
Definition day_alts (t : text) : list (Z * text) :=
  alt2 (Ascii.eqb "3") (between "0" "1") t ++ alt2 (between "1" "2") is_digit t ++ alt2 (Ascii.eqb "0") (between "1" "9") t ++ alt1 t ++ alt_sp t.
(** The first match of \d\d\d\d-%m-%d at the start of the text. *)
Definition match_ymd (t : text) : option (Z * Z * Z * text) :=
  match t with
  | a :: b :: c :: d :: s :: r =>
    if is_digit a && is_digit b && is_digit c && is_digit d && Ascii.eqb s dash then
      hd_error (flat_map (fun mr : Z * text => match snd mr with
                                  | x :: r' => if Ascii.eqb x dash then map (fun dr : Z * text => (1000 * dval a + 100 * dval b + 10 * dval c + dval d, fst mr, fst dr, snd dr)) (day_alts r') else []
                                  | [] => [] end) (month_alts r))
    else None
  | _ => None
  end.
(** No match, text left over and impossible dates all raise ValueError. *)
Definition strptime (t : text) : res datetime :=
  match match_ymd t with
  | Some (y, m, d, []) => if valid_dtb (mkdt y m d 0) then Ok (mkdt y m d 0) else Err ValueError
  | _ => Err ValueError
  end.

(** * Arguments that may be texts *)
Inductive datearg := DText (t : text) | DTime (t : pytime).
(** helpers.py:23-34 get_date: the text becomes a date. *)
Definition get_date (a : datearg) : res pytime :=
  match a with DText t => do d <- strptime t; Ok (PDate d) | DTime t => Ok t end.
(** structure.py:50-54 Activity._get_date_: the text becomes a datetime. *)
Definition activity_date (a : datearg) : res pytime :=
  match a with DText t => do d <- strptime t; Ok (PDateTime d) | DTime t => Ok t end.

(** basic.py:182: start + relativedelta(months=duration+1), evaluated on the
    argument before it is converted: a text raises TypeError. *)
Definition loan_end (a : datearg) (duration : Z) : res pytime :=
  match a with
  | DText _ => Err TypeError
  | DTime (PDate t) => do d <- add_months t (duration + 1); Ok (PDate d)
  | DTime (PDateTime t) => do d <- add_months t (duration + 1); Ok (PDateTime d)
  end.

(** * Clocks that may start at a date *)
(** CPython date.__add__ with a timedelta: only its days count. *)
Definition add_days (t : datetime) (days : Z) : res datetime :=
  let o := toordinal t + days in
  if (0 <? o) && (o <=? max_ordinal) then let '(y, m, d) := ord2ymd o in Ok (mkdt y m d 0) else Err OverflowError.
(** auxi/core/time.py:79-103 for a date: timedelta(...).days is rounded down. *)
Definition date_at (t : datetime) (p : period) (ix : Z) : res datetime :=
  match p with
  | Pms => add_days t (ix * 1000 / us_per_day)
  | Psecond => add_days t (ix * 1000000 / us_per_day)
  | Pminute => add_days t (ix * 60000000 / us_per_day)
  | Phour => add_days t (ix * 3600000000 / us_per_day)
  | Pday => add_days t ix
  | Pweek => add_days t (ix * 7)
  | Pmonth => add_months t ix
  | Pyear => add_years t ix
  end.
Definition time_at (start : pytime) (p : period) (ix : Z) : res pytime :=
  match start with
  | PDate t => do d <- date_at t p ix; Ok (PDate d)
  | PDateTime t => do d <- datetime_at (mkclock t p 0) ix; Ok (PDateTime d)
  end.

(** * Activity.prepare_to_run with such clocks, structure.py:81-108 *)
(** [t < d] in Python. *)
Definition py_lt (t d : pytime) : res bool :=
  match t, d with
  | PDate x, PDate y | PDateTime x, PDateTime y => Ok (dt_ltb x y)
  | _, _ => Err TypeError
  end.
(** [a != b] in Python: a date never equals a datetime. *)
Definition py_ne (a b : pytime) : bool :=
  match a, b with
  | PDate x, PDate y | PDateTime x, PDateTime y => negb (dt_eqb x y)
  | _, _ => true
  end.
Fixpoint first_after_p (start : pytime) (p : period) (t : pytime) (i : Z) (n : nat) : res (option Z) :=
  match n with
  | O => Ok None
  | S n' => do d <- time_at start p i; do b <- py_lt t d; if b then Ok (Some i) else first_after_p start p t (i + 1) n'
  end.
(** The start index, end index and period count it sets, from those it finds. *)
Definition prepare_window (start : pytime) (p : period) (n : Z) (a_start a_end : pytime) (start_ix count : Z) : res (Z * Z * Z) :=
  do f <- (if (start_ix =? -1) && py_ne a_start (PDateTime dt_min) then first_after_p start p a_start 0 (Z.to_nat n) else Ok None);
  let s := match f with Some i => i | None => start_ix end in
  let s := if s =? -1 then 0 else s in
  do g <- (if (count =? -1) && py_ne a_end (PDateTime dt_max) then first_after_p start p a_end 0 (Z.to_nat n) else Ok None);
  let k := match g with Some i => i - s | None => count end in
  let e := if k =? -1 then s + n else s + k in
  Ok (s, e, k).
