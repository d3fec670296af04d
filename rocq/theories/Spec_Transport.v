(** Vocabulary for transport phenomena. *)
From Coq Require Import Reals.
From Verif Require Import M_Transport.
Local Open Scope R_scope.

(** x to the power y for x >= 0 and y > 0. *)
Definition power (x y : R) : R := if Req_EM_T x 0 then 0 else Rpower x y.
(** The correlation meant for a plate inclined by [theta] degrees from the vertical. *)
Definition chart (theta Ra : R) : correlation :=
  if Rle_dec theta (-52) then (if Rle_dec Ra 7 then Nu_9_22 else Nu_9_23)
  else if Rlt_dec theta 0 then Nu_8_27_g
  else if Rle_dec theta 0 then Nu_8_26
  else if Rlt_dec theta 88 then Nu_8_27
  else Nu_8_38.
(** The correlations as formulas. *)
Definition nusselt (c : correlation) (Ra Pr : R) : R :=
  match c with
  | Nu_8_26 => 0.678 * power Ra (1/4) * power (Pr / (0.952 + Pr)) (1/4)
  | Nu_8_27 | Nu_8_27_g => 0.68 + 0.67 * power Ra (1/4) / power (1 + power (0.492 / Pr) (9/16)) (4/9)
  | Nu_8_38 => 0.58 * power Ra (1/5)
  | Nu_9_22 => 0.59 * power Ra (1/4)
  | Nu_9_23 => 0.1 * power Ra (1/3)
  end.
(** The Rayleigh number. *)
Definition rayleigh (g beta dT L nu alpha : R) : R := g * beta * dT * L ^ 3 / (nu * alpha).
(** Decimal logarithm. *)
Definition lg (x : R) : R := ln x / ln 10.
