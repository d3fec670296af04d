(** Vocabulary: the repayment schedule over the real numbers, and what is
    posted on an account. *)
From Verif Require Import Prelude M_Ieee Spec_Ieee M_FloatLoan.
From Coq Require Import Reals List.
Local Open Scope R_scope.

(** What is still owed after [k] payments [p] at the interest [m] per period. *)
Fixpoint schedule (amount m p : R) (k : nat) : R :=
  match k with O => amount | S j => schedule amount m p j * (1 + m) - p end.
(** 1 + (1+m) + ... + (1+m)^(k-1) *)
Fixpoint growth_sum (m : R) (k : nat) : R := match k with O => 0 | S j => growth_sum m j * (1 + m) + 1 end.
(** The payment that repays [amount] in [n] periods. *)
Definition annuity (amount m : R) (n : nat) : R := amount * m / (1 - / (1 + m) ^ n).

(** Credits minus debits on [account], added without rounding. *)
Fixpoint credit_balance (account : string) (ps : list fposting) : R :=
  match ps with
  | nil => 0
  | cons p r => (if string_dec (fp_cr p) account then value (fp_amount p) else 0)
              - (if string_dec (fp_dt p) account then value (fp_amount p) else 0) + credit_balance account r
  end.

(** A power function whose results are at most one unit in the last place
    (2^-52, twice [ulp_half]) off, as long as they are far from overflow. *)
Definition accurate_pow (pow64 : float64 -> Z -> res float64) : Prop :=
  forall x n, finite x -> 1 <= value x -> value x ^ n <= 2 ^ 1000 ->
  exists y, pow64 x (Z.of_nat n) = Ok y /\ finite y /\ Rabs (value y - value x ^ n) <= 2 * ulp_half * value x ^ n.

(** Ordinary amounts and rates: no overflow or underflow near. *)
Definition ordinary_amount (a : float64) : Prop := finite a /\ / 2 ^ 900 <= value a <= 2 ^ 1000.
(** An annual rate above 0 and at most 1200 per cent. *)
Definition ordinary_rate (r : float64) : Prop := finite r /\ 0 < value r <= 12.
