(** C85: special values in the arithmetic of packages. *)
From Verif Require Import Prelude M_Float M_Ieee Spec_Ieee P_Ieee M_FloatMix P_FloatMix M_FloatCompare Spec_Special P_FloatReports P_FloatReports2 P_Special Properties_Float.
From Coq Require Import Qabs Reals Qreals List Lra Lia ZArith.
From Flocq Require Import Core BinarySingleNaN.
Import ListNotations.
Local Open Scope R_scope.

Theorem C85_add : forall x y, rounds_to (fadd (reading x) (reading y)) (add64 x y). Proof. exact add_special. Qed.
Print Assumptions C85_add.
Theorem C85_sub : forall x y, rounds_to (fsub (reading x) (reading y)) (sub64 x y). Proof. exact sub_special. Qed.
Print Assumptions C85_sub.
Theorem C85_neg : forall x, rounds_to (fopp (reading x)) (neg64 x). Proof. exact neg_special. Qed.
Print Assumptions C85_neg.
Theorem C85_mul : forall x y, rounds_to (fmul (reading x) (reading y)) (mul64 x y). Proof. exact mul_special. Qed.
Print Assumptions C85_mul.
Theorem C85_div : forall x y, y <> B754_zero true -> rounds_to (fdiv (reading x) (reading y)) (div64 x y). Proof. exact div_special. Qed.
Print Assumptions C85_div.
Theorem C85_less : forall x y, flt (reading x) (reading y) = lt64 x y. Proof. exact lt_special. Qed.
Print Assumptions C85_less.
Theorem C85_equal : forall x y, feq (reading x) (reading y) = eq64 x y. Proof. exact eq_special. Qed.
Print Assumptions C85_equal.
(** What [lt64] and [eq64] mean: the order of the numbers, infinities at the
    ends, never true for a nan. *)
Theorem C85_compare : forall x y,
  (finite x -> finite y -> (lt64 x y = true <-> value x < value y) /\ (eq64 x y = true <-> value x = value y)) /\
  lt64 B754_nan y = false /\ lt64 x B754_nan = false /\ eq64 B754_nan y = false /\ eq64 x B754_nan = false /\
  (finite x -> lt64 (B754_infinity true) x = true /\ lt64 x (B754_infinity false) = true /\ lt64 (B754_infinity false) x = false /\ lt64 x (B754_infinity true) = false).
Proof.
  intros x y. split; [intros Fx Fy|].
  - unfold lt64, eq64. rewrite (Bcompare_correct 53 1024 x y Fx Fy). fold (value x) (value y). destruct (Rcompare_spec (value x) (value y)); (split; split; intros; auto; try discriminate; lra).
  - destruct x as [sx|sx| |sx mx ex Hx], y as [sy|sy| |sy my ey Hy]; repeat split; intros; try discriminate; auto; try (destruct sx; reflexivity).
Qed.
Print Assumptions C85_compare.
(** With a zero of the other sign the sign of an infinite quotient is the other one. *)
Theorem C85_negative_zero_refuted : exists x y, ~ rounds_to (fdiv (reading x) (reading y)) (div64 x y).
Proof. exists one64, (B754_zero true). intros H. vm_compute in H. discriminate H. Qed.
Print Assumptions C85_negative_zero_refuted.
(** A nan total passes the test for enough mass, and everything becomes nan. *)
Theorem C85_nan_total_not_refused : forall x ms, extract64 B754_nan x ms = Ok (map (fun _ => B754_nan) ms, map (fun _ => B754_nan) ms).
Proof.
  intros x ms. unfold extract64. assert (G : gt64 x B754_nan = false) by (destruct x; reflexivity). rewrite G.
  assert (D : div64 x B754_nan = B754_nan) by (destruct x; reflexivity). rewrite D. assert (M : forall m, mul64 m B754_nan = B754_nan) by (destruct m; reflexivity).
  assert (S : sub64 one64 B754_nan = B754_nan) by reflexivity. rewrite S. do 2 f_equal; apply map_ext; intros; apply M.
Qed.
Print Assumptions C85_nan_total_not_refused.
(** Masses over an empty total: nan where the mass is zero, infinite otherwise. *)
Theorem C85_empty_total : forall m, finite m -> div64 m zero64 = (if is_zero64 m then B754_nan else B754_infinity (Bsign m)).
Proof. intros [s|s| |s m e H] F; try discriminate; cbn; [reflexivity|]. now rewrite xorb_false_r. Qed.
Print Assumptions C85_empty_total.
Example C85_case : div64 (tenths 1) zero64 = B754_infinity false /\ div64 zero64 zero64 = B754_nan /\ lt64 (tenths 1) (tenths 2) = true /\ reading B754_nan = NaN /\
  fdiv (reading (tenths 1)) (reading zero64) = Inf false /\ zero64 <> B754_zero true.
Proof. repeat split; try (vm_compute; reflexivity). discriminate. Qed.
