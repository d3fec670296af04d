(** Loans in binary64: the arithmetic of auxi/modelling/business/basic.py
    with rounding.  Python's pow(float, int) is the C library's pow, which the
    standard does not require to be correctly rounded; it is the parameter
    [pow64].  Amounts given as int are taken as the floats they are converted
    to by the first multiplication. *)
From Verif Require Import Prelude M_Ieee M_FloatMix.
From Flocq Require Import Core BinarySingleNaN.
Local Open Scope list_scope.
Local Open Scope Z_scope.

(** basic.py:184-192 the attributes of BasicLoanActivity that its arithmetic uses *)
Record floan := mkfloan {
  fn_bank : string; fn_loan : string; fn_interest : string;
  fn_amount : float64; fn_rate : float64; fn_mrate : float64; fn_payment : float64;
  fn_duration : Z; fn_months : Z; fn_left : float64 }.

(** A transaction that the activity creates: debit account, credit account, amount. *)
Record fposting := mkfposting { fp_dt : string; fp_cr : string; fp_amount : float64 }.

(** The literal 12.0 of basic.py:216 and 267. *)
Definition twelve64 : float64 := binary_normalize 53 1024 _ _ mode_NE 12 0 false.

(** Python's a / b for floats. *)
Definition pydiv64 (a b : float64) : res float64 := if is_zero64 b then Err ZeroDivisionError else Ok (div64 a b).

Section pow.
Variable pow64 : float64 -> Z -> res float64.

(** basic.py:194-198 _update_monthly_payment_ *)
Definition fpayment (amount mrate : float64) (duration : Z) : res float64 :=
  let val := mul64 amount mrate in
  do p <- pow64 (add64 one64 mrate) duration;
  do q <- pydiv64 one64 p;
  pydiv64 val (sub64 one64 q).

(** basic.py:166-192 __init__ (interest_rate setter 213-217) *)
Definition new_floan (bank loan interest : string) (amount rate : float64) (duration : Z) : res floan :=
  let mrate := div64 rate twelve64 in
  do pay <- fpayment amount mrate duration;
  Ok (mkfloan bank loan interest amount rate mrate pay duration 0 amount).

(** basic.py:204-207 amount setter *)
Definition fset_amount (v : float64) (l : floan) : res floan :=
  do pay <- fpayment v (fn_mrate l) (fn_duration l);
  Ok (mkfloan (fn_bank l) (fn_loan l) (fn_interest l) v (fn_rate l) (fn_mrate l) pay (fn_duration l) (fn_months l) (fn_left l)).
(** basic.py:213-217 interest_rate setter *)
Definition fset_rate (v : float64) (l : floan) : res floan :=
  let m := div64 v twelve64 in
  do pay <- fpayment (fn_amount l) m (fn_duration l);
  Ok (mkfloan (fn_bank l) (fn_loan l) (fn_interest l) (fn_amount l) v m pay (fn_duration l) (fn_months l) (fn_left l)).
End pow.

(** basic.py:235-236 prepare_to_run *)
Definition fprepare (l : floan) : floan :=
  mkfloan (fn_bank l) (fn_loan l) (fn_interest l) (fn_amount l) (fn_rate l) (fn_mrate l) (fn_payment l) (fn_duration l) 0 (fn_amount l).

(** basic.py:256-289 run, in a period in which the activity is due *)
Definition fexecute (interval : Z) (l : floan) : floan * list fposting :=
  if fn_months l =? 0 then
    (mkfloan (fn_bank l) (fn_loan l) (fn_interest l) (fn_amount l) (fn_rate l) (fn_mrate l) (fn_payment l) (fn_duration l)
             (fn_months l + interval) (fn_left l),
     [mkfposting (fn_bank l) (fn_loan l) (fn_amount l)])
  else
    let interest := div64 (mul64 (fn_left l) (fn_rate l)) twelve64 in
    (mkfloan (fn_bank l) (fn_loan l) (fn_interest l) (fn_amount l) (fn_rate l) (fn_mrate l) (fn_payment l) (fn_duration l)
             (fn_months l + interval) (add64 (fn_left l) (sub64 interest (fn_payment l))),
     [mkfposting (fn_interest l) (fn_loan l) interest; mkfposting (fn_loan l) (fn_bank l) (fn_payment l)]).

(** models.py:109-111: the activity's run is called once per period; here the
    [k] periods in which it is due, with the transactions in the order created. *)
Fixpoint fexecutions (interval : Z) (k : nat) (l : floan) : floan * list fposting :=
  match k with
  | O => (l, [])
  | S j => let '(l1, ps) := fexecute interval l in let '(l2, qs) := fexecutions interval j l1 in (l2, ps ++ qs)
  end.
