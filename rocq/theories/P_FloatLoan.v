From Verif Require Import Prelude M_Ieee Spec_Ieee P_Ieee M_FloatMix Spec_FloatMix P_FloatMix M_FloatLoan Spec_FloatLoan.
From Verif Require P_FloatReports2.
From Coq Require Import Reals List Permutation Lra Lia ZArith.
From Flocq Require Import Core BinarySingleNaN Relative.
Import ListNotations.
Local Open Scope R_scope.

(** * Operations that cannot overflow *)
Lemma u_val : ulp_half = / 2 ^ 53. Proof. reflexivity. Qed.
Lemma u_tight : ulp_half <= / 1024.
Proof. unfold ulp_half. apply Rinv_le_contravar; [lra|]. replace 1024 with (2 ^ 10) by (cbn; ring). apply Rle_pow; [lra|lia]. Qed.
Lemma tiny_lt_1 : tiny <= 1.
Proof. unfold tiny. rewrite <- Rinv_1. apply Rinv_le_contravar; [lra|]. rewrite <- (pow_O 2). apply Rle_pow; [lra|lia]. Qed.
Lemma big_pow : 2 ^ 1020 < bpow radix2 1024.
Proof. change 1024%Z with (Z.of_nat 1024). rewrite bpow_nat. apply Rlt_pow; [lra|lia]. Qed.
Lemma rnd_small v : Rabs v <= 2 ^ 1019 -> Rabs (rnd v) < bpow radix2 1024.
Proof.
  intros H. apply Rle_lt_trans with (2 ^ 1020); [|apply big_pow]. pose proof (rnd_err v) as E. pose proof u_tight as U. pose proof ulp_half_pos. pose proof tiny_lt_1. pose proof tiny_pos. pose proof (Rabs_pos v).
  assert (Rabs (rnd v) <= Rabs v + (ulp_half * Rabs v + tiny)).
  { replace (rnd v) with (v + (rnd v - v)) by ring. eapply Rle_trans; [apply Rabs_triang|]. lra. }
  assert (ulp_half * Rabs v <= / 1024 * Rabs v) by (apply Rmult_le_compat_r; lra).
  assert (B : 2 ^ 10 <= 2 ^ 1019) by (apply Rle_pow; [lra|lia]). replace (2 ^ 10) with 1024 in B by (cbn; ring).
  replace (2 ^ 1020) with (2 * 2 ^ 1019) by (rewrite <- tech_pow_Rmult; ring). set (b := 2 ^ 1019) in *. lra.
Qed.
Lemma add_ok x y : finite x -> finite y -> Rabs (rnd (value x + value y)) < bpow radix2 1024 -> finite (add64 x y) /\ value (add64 x y) = rnd (value x + value y).
Proof.
  intros Fx Fy B. pose proof (Bplus_correct 53 1024 _ _ mode_NE x y Fx Fy) as C. fold (add64 x y) in C. cbv zeta in C. rewrite Rlt_bool_true in C by exact B.
  destruct C as (C1 & C2 & _). split; auto.
Qed.
Lemma add_safe x y : finite x -> finite y -> Rabs (value x + value y) <= 2 ^ 1019 ->
  finite (add64 x y) /\ Rabs (value (add64 x y) - (value x + value y)) <= ulp_half * Rabs (value x + value y).
Proof. intros Fx Fy B. destruct (add_ok x y Fx Fy (rnd_small _ B)) as [F _]. split; [exact F|]. now apply add_err. Qed.
Lemma sub_safe x y : finite x -> finite y -> Rabs (value x - value y) <= 2 ^ 1019 ->
  finite (sub64 x y) /\ Rabs (value (sub64 x y) - (value x - value y)) <= ulp_half * Rabs (value x - value y).
Proof.
  intros Fx Fy B. rewrite sub_add. apply neg_finite in Fy as Fn. replace (value x - value y) with (value x + value (neg64 y)) in * by (rewrite neg_value; ring). now apply add_safe.
Qed.
Lemma mul_safe x y : finite x -> finite y -> Rabs (value x * value y) <= 2 ^ 1019 ->
  finite (mul64 x y) /\ Rabs (value (mul64 x y) - value x * value y) <= ulp_half * Rabs (value x * value y) + tiny.
Proof. intros Fx Fy B. destruct (mul_ok x y Fx Fy (rnd_small _ B)) as [F ->]. split; [exact F|]. apply rnd_err. Qed.
Lemma div_safe x y : finite x -> value y <> 0 -> Rabs (value x / value y) <= 2 ^ 1019 ->
  finite (div64 x y) /\ Rabs (value (div64 x y) - value x / value y) <= ulp_half * Rabs (value x / value y) + tiny.
Proof. intros Fx Ny B. destruct (div_ok x y Fx Ny (rnd_small _ B)) as [F ->]. split; [exact F|]. apply rnd_err. Qed.
Lemma twelve_val : finite twelve64 /\ value twelve64 = 12.
Proof.
  pose proof (binary_normalize_correct 53 1024 _ _ mode_NE 12 0 false) as C. change (round_mode mode_NE) with ZnearestE in C. fold twelve64 in C.
  assert (V : F2R (Float radix2 12 0) = 12) by (unfold F2R; cbn [Fnum Fexp bpow]; ring). rewrite V in C.
  assert (R : round radix2 fexp64 ZnearestE 12 = 12).
  { apply round_generic; [apply valid_rnd_N|]. replace 12 with (IZR 12 * bpow radix2 0) by (cbn; ring). apply multiple_format; [lia|cbn; lia]. }
  cbv zeta in C. rewrite R in C. rewrite Rlt_bool_true in C; [destruct C as (C1 & C2 & _); auto|]. rewrite Rabs_pos_eq by lra. apply Rle_lt_trans with (2 ^ 4); [cbn; lra|].
  change 1024%Z with (Z.of_nat 1024). rewrite bpow_nat. apply Rlt_pow; [lra|lia].
Qed.

(** * One instalment *)
Definition finterest (x r : float64) : float64 := div64 (mul64 x r) twelve64.
Lemma tiny_A A : / 2 ^ 900 <= A -> 4 * tiny <= ulp_half * A.
Proof.
  intros H. unfold tiny, ulp_half. apply Rle_trans with (/ 2 ^ 53 * / 2 ^ 900).
  - rewrite <- Rinv_mult, <- pow_add. replace (/ 2 ^ 1075) with (/ (2 ^ 122) * / 2 ^ (53 + 900)). 2:{ rewrite <- Rinv_mult, <- pow_add. reflexivity. }
    assert (0 < / 2 ^ (53 + 900)) by (apply Rinv_0_lt_compat, pow_lt; lra).
    assert (4 * / 2 ^ 122 <= 1).
    { apply (Rmult_le_reg_r (2 ^ 122)); [apply pow_lt; lra|]. rewrite Rmult_assoc, Rinv_l by (apply pow_nonzero; lra). rewrite Rmult_1_l, Rmult_1_r. apply Rle_trans with (2 ^ 2); [cbn; lra|apply Rle_pow; [lra|lia]]. }
    rewrite <- Rmult_assoc. rewrite <- (Rmult_1_l (/ 2 ^ (53 + 900))) at 2. apply Rmult_le_compat_r; lra.
  - apply Rmult_le_compat_l; auto. left. apply Rinv_0_lt_compat, pow_lt. lra.
Qed.
Section step.
Variables (A : R) (x r p : float64).
Hypothesis HA : / 2 ^ 900 <= A <= 2 ^ 1000.
Hypothesis Fx : finite x.
Hypothesis Fr : finite r.
Hypothesis Fp : finite p.
Hypothesis Bx : Rabs (value x) <= 3 * A.
Hypothesis Br : 0 <= value r <= 12.
Hypothesis Bp : 0 <= value p <= 4 * A.
Let i := finterest x r.
Lemma A_pos : 0 < A. Proof. apply Rlt_le_trans with (/ 2 ^ 900); [apply Rinv_0_lt_compat, pow_lt; lra|lra]. Qed.
Lemma A_room k : 0 <= k <= 2 ^ 10 -> k * A <= 2 ^ 1019.
Proof.
  intros K. pose proof A_pos. apply Rle_trans with (2 ^ 10 * 2 ^ 1000); [apply Rmult_le_compat; lra|]. rewrite <- pow_add. apply Rle_pow; [lra|lia].
Qed.
Lemma interest_step : finite i /\ Rabs (value i - value x * (value r / 12)) <= 10 * ulp_half * A /\ Rabs (value i) <= 4 * A.
Proof.
  pose proof A_pos as AP. destruct twelve_val as [F12 V12]. pose proof ulp_half_pos as UP. pose proof u_tight as UT. pose proof (tiny_A A ltac:(lra)) as TA. pose proof tiny_pos as TP.
  assert (UA : ulp_half * A <= / 1024 * A) by (apply Rmult_le_compat_r; lra). assert (UA0 : 0 < ulp_half * A) by (apply Rmult_lt_0_compat; lra).
  assert (X : Rabs (value x * value r) <= 36 * A).
  { rewrite Rabs_mult, (Rabs_pos_eq (value r)) by lra. apply Rle_trans with (3 * A * 12); [apply Rmult_le_compat; try lra; apply Rabs_pos|lra]. }
  destruct (mul_safe x r Fx Fr) as [Fm Em]. { eapply Rle_trans; [exact X|]. apply A_room. cbn; lra. }
  set (a := value (mul64 x r)) in *. set (v := value x * value r) in *.
  assert (Em' : Rabs (a - v) <= ulp_half * (36 * A) + tiny).
  { eapply Rle_trans; [exact Em|]. apply Rplus_le_compat_r. apply Rmult_le_compat_l; lra. }
  assert (Ba : Rabs a <= 37 * A).
  { replace a with (v + (a - v)) by ring. eapply Rle_trans; [apply Rabs_triang|]. lra. }
  assert (Ba2 : Rabs (a / value twelve64) <= 37 / 12 * A).
  { rewrite V12. unfold Rdiv. rewrite Rabs_mult, (Rabs_pos_eq (/ 12)) by lra. lra. }
  destruct (div_safe (mul64 x r) twelve64 Fm) as [Fi Ei]; [rewrite V12; lra| |].
  { fold a. eapply Rle_trans; [exact Ba2|]. apply A_room. cbn; lra. }
  fold (finterest x r) in Fi, Ei. change (finterest x r) with i in Fi, Ei. fold a in Ei. rewrite V12 in *.
  assert (Ei' : Rabs (value i - a / 12) <= ulp_half * (37 / 12 * A) + tiny).
  { eapply Rle_trans; [exact Ei|]. apply Rplus_le_compat_r. apply Rmult_le_compat_l; lra. }
  assert (E : Rabs (value i - value x * (value r / 12)) <= 10 * ulp_half * A).
  { replace (value i - value x * (value r / 12)) with ((value i - a / 12) + (a - v) * / 12) by (unfold v; field). eapply Rle_trans; [apply Rabs_triang|].
    rewrite (Rabs_mult (a - v)), (Rabs_pos_eq (/ 12)) by lra. replace (10 * ulp_half * A) with (10 * (ulp_half * A)) by ring.
    replace (ulp_half * (37 / 12 * A)) with (37 / 12 * (ulp_half * A)) in Ei' by ring. replace (ulp_half * (36 * A)) with (36 * (ulp_half * A)) in Em' by ring. lra. }
  split; [exact Fi|]. split; [exact E|].
  replace (value i) with (value x * (value r / 12) + (value i - value x * (value r / 12))) by ring. eapply Rle_trans; [apply Rabs_triang|].
  assert (Rabs (value x * (value r / 12)) <= 3 * A).
  { replace (value x * (value r / 12)) with (v * / 12) by (unfold v; field). rewrite Rabs_mult, (Rabs_pos_eq (/ 12)) by lra. lra. }
  replace (10 * ulp_half * A) with (10 * (ulp_half * A)) in E by ring. lra.
Qed.
Let y := add64 x (sub64 i p).
Lemma left_step : finite y /\ Rabs (value y - (value x + value i - value p)) <= 20 * ulp_half * A /\
  Rabs (value y - (value x * (1 + value r / 12) - value p)) <= 30 * ulp_half * A.
Proof.
  destruct interest_step as (Fi & Ei & Bi). pose proof A_pos as AP. pose proof ulp_half_pos as UP. pose proof u_tight as UT. 
  assert (UA : ulp_half * A <= / 1024 * A) by (apply Rmult_le_compat_r; lra). assert (UA0 : 0 < ulp_half * A) by (apply Rmult_lt_0_compat; lra).
  assert (Bd : Rabs (value i - value p) <= 8 * A).
  { replace (value i - value p) with (value i + - value p) by ring. eapply Rle_trans; [apply Rabs_triang|]. rewrite Rabs_Ropp, (Rabs_pos_eq (value p)) by lra. lra. }
  destruct (sub_safe i p Fi Fp) as [Fd Ed]. { eapply Rle_trans; [exact Bd|]. apply A_room. cbn; lra. }
  set (d := value (sub64 i p)) in *. assert (Ed' : Rabs (d - (value i - value p)) <= ulp_half * (8 * A)).
  { eapply Rle_trans; [exact Ed|]. apply Rmult_le_compat_l; lra. }
  assert (Bs : Rabs (value x + d) <= 12 * A).
  { replace (value x + d) with (value x + ((value i - value p) + (d - (value i - value p)))) by ring. eapply Rle_trans; [apply Rabs_triang|].
    pose proof (Rabs_triang (value i - value p) (d - (value i - value p))). lra. }
  destruct (add_safe x (sub64 i p) Fx Fd) as [Fy Ey]. { fold d. eapply Rle_trans; [exact Bs|]. apply A_room. cbn; lra. }
  fold d in Ey. change (add64 x (sub64 i p)) with y in Fy, Ey.
  assert (Ey' : Rabs (value y - (value x + d)) <= ulp_half * (12 * A)).
  { eapply Rle_trans; [exact Ey|]. apply Rmult_le_compat_l; lra. }
  assert (E1 : Rabs (value y - (value x + value i - value p)) <= 20 * ulp_half * A).
  { replace (value y - (value x + value i - value p)) with ((value y - (value x + d)) + (d - (value i - value p))) by ring. eapply Rle_trans; [apply Rabs_triang|]. lra. }
  split; [exact Fy|]. split; [exact E1|].
  replace (value y - (value x * (1 + value r / 12) - value p)) with ((value y - (value x + value i - value p)) + (value i - value x * (value r / 12))) by ring.
  eapply Rle_trans; [apply Rabs_triang|]. lra.
Qed.
End step.

(** * All instalments *)
Fixpoint left_after (x r p : float64) (k : nat) : float64 :=
  match k with O => x | S j => let y := left_after x r p j in add64 y (sub64 (finterest y r) p) end.
Lemma growth_pos m k : 0 <= m -> 0 <= growth_sum m k.
Proof. intros M. induction k as [|k IH]; cbn [growth_sum]; [lra|]. apply Rplus_le_le_0_compat; [apply Rmult_le_pos; lra|lra]. Qed.
Lemma growth_mono m j k : 0 <= m -> (j <= k)%nat -> growth_sum m j <= growth_sum m k.
Proof.
  intros M. induction 1 as [|k L IH]; [lra|]. cbn [growth_sum]. pose proof (growth_pos m k M). pose proof (Rmult_le_pos _ _ M H). lra.
Qed.
Lemma growth_ge m k : 0 <= m -> INR k <= growth_sum m k.
Proof.
  intros M. induction k as [|k IH]; [cbn; lra|]. rewrite S_INR. cbn [growth_sum]. pose proof (growth_pos m k M) as H. pose proof (Rmult_le_pos _ _ M H). lra.
Qed.
Lemma growth_closed m k : m * growth_sum m k = (1 + m) ^ k - 1.
Proof. induction k as [|k IH]; cbn [growth_sum pow]; [ring|]. replace (m * (growth_sum m k * (1 + m) + 1)) with (m * growth_sum m k * (1 + m) + m) by ring. rewrite IH. ring. Qed.
Section years.
Variables (x r p : float64).
Let A := value x.
Let m := value r / 12.
Hypothesis OA : ordinary_amount x.
Hypothesis Fr : finite r.
Hypothesis Br : 0 <= value r <= 12.
Hypothesis Fp : finite p.
Hypothesis Bp : 0 <= value p <= 4 * A.
Theorem left_after_close k : (forall j, (j <= k)%nat -> Rabs (schedule A m (value p) j) <= 2 * A) -> 30 * ulp_half * growth_sum m k <= 1 ->
  let y := left_after x r p k in
  finite y /\ Rabs (value y - schedule A m (value p) k) <= 30 * ulp_half * A * growth_sum m k /\ Rabs (value y) <= 3 * A.
Proof.
  destruct OA as [Fx HA]. fold A in HA. pose proof (A_pos A HA) as AP. pose proof ulp_half_pos as UP. assert (M : 0 <= m <= 1) by (unfold m; lra).
  intros S G. assert (E0 : forall j, (j <= k)%nat -> 30 * ulp_half * A * growth_sum m j <= A).
  { intros j L. apply Rle_trans with (30 * ulp_half * growth_sum m k * A); [|rewrite <- (Rmult_1_l A) at 2; apply Rmult_le_compat_r; lra].
    replace (30 * ulp_half * A * growth_sum m j) with (30 * ulp_half * A * growth_sum m j) by ring.
    replace (30 * ulp_half * growth_sum m k * A) with (30 * ulp_half * A * growth_sum m k) by ring. apply Rmult_le_compat_l; [|apply growth_mono; [lra|auto]].
    apply Rmult_le_pos; lra. }
  assert (Q : forall j, (j <= k)%nat -> let y := left_after x r p j in finite y /\ Rabs (value y - schedule A m (value p) j) <= 30 * ulp_half * A * growth_sum m j).
  { induction j as [|j IH]; intros L.
    - cbn. split; auto. fold A. replace (A - A) with 0 by ring. rewrite Rabs_R0. lra.
    - destruct IH as [Fy Ey]; [lia|]. set (y := left_after x r p j) in *. specialize (S j ltac:(lia)) as Sj. specialize (E0 j ltac:(lia)).
      assert (By : Rabs (value y) <= 3 * A).
      { replace (value y) with (schedule A m (value p) j + (value y - schedule A m (value p) j)) by ring. eapply Rle_trans; [apply Rabs_triang|]. lra. }
      destruct (left_step A y r p HA Fy Fr Fp By Br Bp) as (Fz & _ & Ez). cbn [left_after schedule growth_sum]. fold y. split; [exact Fz|]. set (z := add64 y (sub64 (finterest y r) p)) in *. fold m in Ez.
      replace (value z - (schedule A m (value p) j * (1 + m) - value p)) with ((value z - (value y * (1 + m) - value p)) + (value y - schedule A m (value p) j) * (1 + m)) by ring.
      eapply Rle_trans; [apply Rabs_triang|]. rewrite (Rabs_mult _ (1 + m)), (Rabs_pos_eq (1 + m)) by lra.
      assert (Rabs (value y - schedule A m (value p) j) * (1 + m) <= 30 * ulp_half * A * growth_sum m j * (1 + m)) by (apply Rmult_le_compat_r; lra). lra. }
  intros y. destruct (Q k (le_n _)) as [Fy Ey]. fold y in Fy, Ey. split; auto. split; auto.
  replace (value y) with (schedule A m (value p) k + (value y - schedule A m (value p) k)) by ring. eapply Rle_trans; [apply Rabs_triang|]. specialize (S k (le_n _)). specialize (E0 k (le_n _)). lra.
Qed.
End years.

(** * What the activity posts *)
Definition instalment (l : floan) (y : float64) : list fposting :=
  [mkfposting (fn_interest l) (fn_loan l) (finterest y (fn_rate l)); mkfposting (fn_loan l) (fn_bank l) (fn_payment l)].
Definition floan_at (l : floan) (months : Z) (y : float64) : floan :=
  mkfloan (fn_bank l) (fn_loan l) (fn_interest l) (fn_amount l) (fn_rate l) (fn_mrate l) (fn_payment l) (fn_duration l) months y.
Lemma instalments_from l interval : (1 <= interval)%Z -> forall k j months, (0 < months)%Z ->
  fexecutions interval k (floan_at l months (left_after (fn_amount l) (fn_rate l) (fn_payment l) j)) =
  (floan_at l (months + Z.of_nat k * interval) (left_after (fn_amount l) (fn_rate l) (fn_payment l) (j + k)),
   flat_map (fun i => instalment l (left_after (fn_amount l) (fn_rate l) (fn_payment l) i)) (seq j k)).
Proof.
  intros I. induction k as [|k IH]; intros j months M.
  - cbn [fexecutions seq flat_map]. rewrite Nat.add_0_r. f_equal. f_equal. lia.
  - cbn [fexecutions seq flat_map]. unfold fexecute. cbn [floan_at fn_months]. destruct (Z.eqb_spec months 0) as [E|_]; [lia|].
    cbn [floan_at fn_bank fn_loan fn_interest fn_amount fn_rate fn_mrate fn_payment fn_duration fn_left].
    specialize (IH (S j) (months + interval)%Z ltac:(lia)). unfold floan_at in IH at 1. cbn [left_after] in IH. cbv zeta in IH. unfold finterest in IH at 1.
    rewrite IH. f_equal. replace (j + S k)%nat with (S j + k)%nat by lia. f_equal. lia.
Qed.
Theorem executions_post l interval k : (1 <= interval)%Z -> fn_months l = 0%Z -> fn_left l = fn_amount l ->
  fexecutions interval (S k) l =
  (floan_at l (Z.of_nat (S k) * interval) (left_after (fn_amount l) (fn_rate l) (fn_payment l) k),
   mkfposting (fn_bank l) (fn_loan l) (fn_amount l) :: flat_map (fun i => instalment l (left_after (fn_amount l) (fn_rate l) (fn_payment l) i)) (seq 0 k)).
Proof.
  intros I M L. cbn [fexecutions]. unfold fexecute. rewrite M. cbn [Z.eqb]. rewrite L.
  pose proof (instalments_from l interval I k 0 (0 + interval)%Z ltac:(lia)) as H. unfold floan_at in H at 1. cbn [left_after] in H. rewrite H. cbn [app plus]. f_equal. f_equal. lia.
Qed.
Lemma balance_app s ps qs : credit_balance s (ps ++ qs) = credit_balance s ps + credit_balance s qs.
Proof. induction ps as [|p ps IH]; cbn [app credit_balance]; [ring|]. rewrite IH. ring. Qed.
Theorem posted_balance l interval k l' ps : (1 <= interval)%Z -> fn_months l = 0%Z -> fn_left l = fn_amount l ->
  fn_bank l <> fn_loan l -> fn_interest l <> fn_loan l ->
  ordinary_amount (fn_amount l) -> finite (fn_rate l) -> 0 <= value (fn_rate l) <= 12 -> finite (fn_payment l) -> 0 <= value (fn_payment l) <= 4 * value (fn_amount l) ->
  (forall j, (j <= k)%nat -> Rabs (schedule (value (fn_amount l)) (value (fn_rate l) / 12) (value (fn_payment l)) j) <= 2 * value (fn_amount l)) ->
  30 * ulp_half * growth_sum (value (fn_rate l) / 12) k <= 1 ->
  fexecutions interval (S k) l = (l', ps) ->
  Forall (fun p => finite (fp_amount p)) ps /\ Rabs (credit_balance (fn_loan l) ps - value (fn_left l')) <= 20 * ulp_half * value (fn_amount l) * INR k.
Proof.
  intros I M L N1 N2 OA Fr Br Fp Bp S G E. rewrite (executions_post l interval k I M L) in E. injection E as <- <-. cbn [floan_at fn_left].
  set (x := fn_amount l) in *. set (r := fn_rate l) in *. set (p := fn_payment l) in *. set (m := value r / 12) in *.
  assert (M0 : 0 <= m) by (unfold m; lra). pose proof ulp_half_pos as UP. assert (AP : 0 < value x) by (apply A_pos, OA).
  assert (Q : forall j, (j <= k)%nat -> let ps := flat_map (fun i => instalment l (left_after x r p i)) (seq 0 j) in
     Forall (fun p => finite (fp_amount p)) ps /\ Rabs (value x + credit_balance (fn_loan l) ps - value (left_after x r p j)) <= 20 * ulp_half * value x * INR j).
  { induction j as [|j IH]; intros Lj.
    - cbn [seq flat_map]. split; [constructor|]. cbn. replace (value x + 0 - value x) with 0 by ring. rewrite Rabs_R0. lra.
    - destruct IH as [IF IE]; [lia|]. cbv zeta. rewrite seq_S, flat_map_app. cbn [plus flat_map]. rewrite app_nil_r.
      destruct (left_after_close x r p OA Fr Br Fp Bp j) as (Fy & _ & By); [intros i Li; apply S; lia| |].
      { eapply Rle_trans; [|exact G]. apply Rmult_le_compat_l; [lra|]. apply growth_mono; [exact M0|lia]. }
      set (y := left_after x r p j) in *. destruct (interest_step (value x) y r (proj2 OA) Fy Fr By Br) as (Fi & _). destruct (left_step (value x) y r p (proj2 OA) Fy Fr Fp By Br Bp) as (_ & Ez & _).
      split; [apply Forall_app; split; [exact IF|]; repeat constructor; assumption|].
      rewrite balance_app. unfold instalment at 2. cbn [credit_balance fp_cr fp_dt fp_amount]. fold p. fold r.
      destruct (string_dec (fn_loan l) (fn_loan l)) as [_|X]; [|congruence]. destruct (string_dec (fn_interest l) (fn_loan l)) as [X|_]; [congruence|]. destruct (string_dec (fn_bank l) (fn_loan l)) as [X|_]; [congruence|].
      cbn [left_after]. fold y. rewrite S_INR. set (z := add64 y (sub64 (finterest y r) p)) in *. set (c := credit_balance _ _) in *.
      replace (value x + (c + (value (finterest y r) - 0 + (0 - value p + 0))) - value z) with ((value x + c - value y) + - (value z - (value y + value (finterest y r) - value p))) by ring.
      eapply Rle_trans; [apply Rabs_triang|]. rewrite Rabs_Ropp. lra. }
  destruct (Q k (le_n _)) as [QF QE]. split.
  - constructor; [apply OA|exact QF].
  - cbn [credit_balance fp_cr fp_dt fp_amount]. destruct (string_dec (fn_loan l) (fn_loan l)) as [_|X]; [|congruence]. destruct (string_dec (fn_bank l) (fn_loan l)) as [X|_]; [congruence|].
    rewrite Rminus_0_r. exact QE.
Qed.
