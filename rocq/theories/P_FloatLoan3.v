From Verif Require Import Prelude M_Ieee Spec_Ieee P_Ieee M_FloatMix Spec_FloatMix P_FloatMix M_FloatLoan Spec_FloatLoan P_FloatLoan P_FloatLoan2.
From Coq Require Import Reals List Permutation Lra Lia ZArith.
From Flocq Require Import Core BinarySingleNaN Relative.
Import ListNotations.
Local Open Scope R_scope.

(** * The schedule over the reals *)
Lemma schedule_shift A m p p' k : schedule A m p k = schedule A m p' k - (p - p') * growth_sum m k.
Proof. induction k as [|k IH]; cbn [schedule growth_sum]; [ring|]. rewrite IH. ring. Qed.
Lemma schedule_closed A m p k : schedule A m p k = A * (1 + m) ^ k - p * growth_sum m k.
Proof. induction k as [|k IH]; cbn [schedule growth_sum pow]; [ring|]. rewrite IH. ring. Qed.
Lemma annuity_growth A m n : 0 < m -> (1 <= n)%nat -> annuity A m n * growth_sum m n = A * (1 + m) ^ n.
Proof.
  intros M Hn. assert (G1 : 1 < (1 + m) ^ n) by (apply Rlt_pow_R1; [lra|lia]). pose proof (growth_closed m n) as C. unfold annuity. set (G := (1 + m) ^ n) in *.
  assert (E : growth_sum m n = (G - 1) / m) by (rewrite <- C; field; lra). rewrite E. field. repeat split; lra.
Qed.
Theorem annuity_repays A m n : 0 < m -> (1 <= n)%nat -> schedule A m (annuity A m n) n = 0.
Proof. intros M Hn. rewrite schedule_closed, annuity_growth by auto. ring. Qed.
Lemma annuity_between A m n j : 0 < A -> 0 < m -> (1 <= n)%nat -> (j <= n)%nat -> 0 <= schedule A m (annuity A m n) j <= A.
Proof.
  intros HA M Hn L. assert (G1 : 1 < (1 + m) ^ n) by (apply Rlt_pow_R1; [lra|lia]). pose proof (annuity_growth A m n M Hn) as AG. pose proof (growth_closed m n) as C. pose proof (growth_closed m j) as Cj.
  rewrite schedule_closed. assert (Gj : (1 + m) ^ j <= (1 + m) ^ n) by (apply Rle_pow; [lra|exact L]). assert (G0 : 1 <= (1 + m) ^ j) by (apply pow_R1_Rle; lra).
  set (X := annuity A m n) in *. set (S := growth_sum m n) in *. set (Sj := growth_sum m j) in *. set (G := (1 + m) ^ n) in *. set (H := (1 + m) ^ j) in *.
  assert (S0 : 0 < S) by (apply (Rmult_lt_reg_l m); lra). assert (EX : X = A * G / S) by (rewrite <- AG; field; lra).
  assert (ES : S = (G - 1) / m) by (rewrite <- C; field; lra). assert (ESj : Sj = (H - 1) / m) by (rewrite <- Cj; field; lra).
  assert (E : A * H - X * Sj = A * ((G - H) / (G - 1))) by (rewrite EX, ESj, ES; field; repeat split; lra).
  rewrite E. assert (Q : 0 <= (G - H) / (G - 1) <= 1).
  { split; [apply Rmult_le_pos; [lra|left; apply Rinv_0_lt_compat; lra]|]. apply (Rmult_le_reg_r (G - 1)); [lra|]. unfold Rdiv. rewrite Rmult_assoc, Rinv_l by lra. lra. }
  split; [apply Rmult_le_pos; lra|]. rewrite <- (Rmult_1_r A) at 2. apply Rmult_le_compat_l; lra.
Qed.

(** * A whole loan *)
Section whole.
Variable pow64 : float64 -> Z -> res float64.
Hypothesis POW : accurate_pow pow64.
Variables (bank loan interest : string) (x r : float64) (n : nat).
Let A := value x.
Let m := value r / 12.
Let G := (1 + m) ^ n.
Hypothesis OA : ordinary_amount x.
Hypothesis OR : ordinary_rate r.
Hypothesis Hn : (1 <= n)%nat.
Hypothesis HT : G / m <= 2 ^ 40.
Theorem payment_close : exists l, new_floan pow64 bank loan interest x r (Z.of_nat n) = Ok l /\
  fn_bank l = bank /\ fn_loan l = loan /\ fn_interest l = interest /\ fn_amount l = x /\ fn_rate l = r /\ fn_left l = x /\ fn_months l = 0%Z /\
  finite (fn_payment l) /\ Rabs (value (fn_payment l) - annuity A m n) <= 20 * ulp_half / m * annuity A m n.
Proof.
  destruct (payment_value pow64 POW x r n OA OR Hn HT) as (p & E & F & B). unfold new_floan. rewrite E. cbn [bind]. eexists. split; [reflexivity|]. repeat split; auto.
  cbn [fn_payment]. fold A m in B. apply Rabs_le. unfold Rdiv in *. lra.
Qed.
Lemma t_small : ulp_half * (G / m) <= / 2 ^ 13 /\ 0 < G / m /\ 0 < m <= 1 /\ 1 < G /\ 0 < A.
Proof.
  pose proof (m_range r OR) as M. fold m in M. assert (G1 : 1 < G) by (unfold G; apply Rlt_pow_R1; [lra|lia]). pose proof (A_pos A (proj2 OA)) as AP.
  assert (T : 0 < G / m) by (apply Rmult_lt_0_compat; [lra|apply Rinv_0_lt_compat; lra]). repeat split; try lra.
  apply Rle_trans with (/ 2 ^ 53 * 2 ^ 40); [apply Rmult_le_compat; try lra; [left; apply ulp_half_pos|right; reflexivity]|]. right. replace (2 ^ 53) with (2 ^ 13 * 2 ^ 40) by (rewrite <- pow_add; reflexivity).
  rewrite Rinv_mult, Rmult_assoc, Rinv_l by (apply pow_nonzero; lra). ring.
Qed.
Theorem terms_in_range l : new_floan pow64 bank loan interest x r (Z.of_nat n) = Ok l ->
  let p := value (fn_payment l) in let P := annuity A m n in
  0 <= p <= 4 * A /\ (forall j, (j <= n)%nat -> Rabs (schedule A m p j) <= 2 * A) /\ 30 * ulp_half * growth_sum m n <= 1 /\
  growth_sum m n <= G / m /\ Rabs ((p - P) * growth_sum m n) <= 20 * (A * (ulp_half * (G / m))).
Proof.
  intros E. destruct payment_close as (l0 & E0 & _ & _ & _ & _ & _ & _ & _ & Fp & Bp). rewrite E in E0. injection E0 as <-. cbv zeta.
  destruct t_small as (TS & TP & M & G1 & AP). pose proof ulp_half_pos as UP. pose proof thirteen as T13. set (u := ulp_half) in *. set (T := G / m) in *. set (p := value (fn_payment l)) in *. set (P := annuity A m n) in *.
  pose proof (annuity_growth A m n ltac:(lra) Hn) as AG. fold P in AG. fold G in AG. pose proof (growth_closed m n) as GC. fold G in GC. set (S := growth_sum m n) in *.
  assert (Sn : 0 < S) by (apply (Rmult_lt_reg_l m); lra). assert (ST : S <= T). { unfold T. apply (Rmult_le_reg_l m); [lra|]. rewrite GC. unfold Rdiv. replace (m * (G * / m)) with G by (field; lra). lra. }
  assert (P0 : 0 < P). { apply (Rmult_lt_reg_r S); [exact Sn|]. rewrite AG, Rmult_0_l. apply Rmult_lt_0_compat; lra. }
  assert (n1 : 1 <= S). { apply Rle_trans with (INR n); [replace 1 with (INR 1) by reflexivity; apply le_INR; lia|]. apply growth_ge. lra. }
  assert (UT0 : 0 < u * T) by (apply Rmult_lt_0_compat; lra). assert (AUT : 0 < A * (u * T)) by (apply Rmult_lt_0_compat; lra).
  assert (AUT2 : A * (u * T) <= A * / 8000) by (apply Rmult_le_compat_l; lra).
  (* the payment's deviation, accumulated *)
  assert (DEV : forall j, (j <= n)%nat -> Rabs ((p - P) * growth_sum m j) <= 20 * (A * (u * T))).
  { intros j L. pose proof (growth_pos m j ltac:(lra)) as Gp. pose proof (growth_mono m j n ltac:(lra) L) as Gm. fold S in Gm.
    rewrite Rabs_mult, (Rabs_pos_eq (growth_sum m j)) by lra. apply Rle_trans with (20 * u / m * P * S); [apply Rmult_le_compat; try lra; apply Rabs_pos|].
    rewrite Rmult_assoc, AG. unfold T, Rdiv. right. field. lra. }
  assert (PA : P <= 2 * A).
  { apply (Rmult_le_reg_r S); [exact Sn|]. rewrite AG. assert (G <= 2 * S); [|replace (2 * A * S) with (A * (2 * S)) by ring; apply Rmult_le_compat_l; lra].
    assert (m * S <= 1 * S) by (apply Rmult_le_compat_r; lra). lra. }
  assert (uT1 : u / m * P <= P * / 8000).
  { rewrite Rmult_comm. apply Rmult_le_compat_l; [lra|]. apply Rle_trans with (u * T); [|lra]. unfold T, Rdiv. apply Rmult_le_compat_l; [lra|]. rewrite <- (Rmult_1_l (/ m)) at 1. apply Rmult_le_compat_r; [left; apply Rinv_0_lt_compat|]; lra. }
  assert (Bp' : 0 <= p <= 4 * A). { apply rel_bounds in Bp. unfold Rdiv in *. lra. }
  assert (SCH : forall j, (j <= n)%nat -> Rabs (schedule A m p j) <= 2 * A).
  { intros j L. pose proof (annuity_between A m n j AP ltac:(lra) Hn L) as AB. fold P in AB. rewrite (schedule_shift A m p P j). pose proof (DEV j L) as D.
    apply rel_bounds in D || idtac. apply Rabs_le_inv in D. apply Rabs_le. lra. }
  assert (GS : 30 * u * S <= 1). { apply Rle_trans with (30 * (u * T)); [|lra]. rewrite Rmult_assoc. apply Rmult_le_compat_l; [lra|]. apply Rmult_le_compat_l; lra. }
  split; [exact Bp'|]. split; [exact SCH|]. split; [exact GS|]. split; [exact ST|]. exact (DEV n (le_n _)).
Qed.
Theorem repaid interval l l' ps : (1 <= interval)%Z -> bank <> loan -> interest <> loan ->
  new_floan pow64 bank loan interest x r (Z.of_nat n) = Ok l -> fexecutions interval (S n) l = (l', ps) ->
  finite (fn_left l') /\ Forall (fun p => finite (fp_amount p)) ps /\
  Rabs (value (fn_left l')) <= 50 * ulp_half * A * (G / m) /\
  Rabs (credit_balance loan ps) <= 70 * ulp_half * A * (G / m).
Proof.
  intros I N1 N2 E X. destruct payment_close as (l0 & E0 & Eb & El & Ei & Ea & Er & Eleft & Em & Fp & Bp). rewrite E in E0. injection E0 as <-.
  destruct (terms_in_range l E) as (Bp' & SCH & GS & ST & DEVn). destruct t_small as (TS & TP & M & G1 & AP). pose proof ulp_half_pos as UP. set (u := ulp_half) in *. set (T := G / m) in *.
  set (p := value (fn_payment l)) in *. set (P := annuity A m n) in *. set (S := growth_sum m n) in *.
  destruct OR as [Fr Br].
  pose proof (posted_balance l interval n l' ps I Em) as PB. rewrite Eb, El, Ei, Ea, Er in PB. fold A m p in PB.
  specialize (PB Eleft N1 N2 OA Fr ltac:(lra) Fp Bp' SCH GS X). destruct PB as [PF PB].
  pose proof X as X'. rewrite (executions_post l interval n I) in X'; [|congruence|congruence]. injection X' as X1 _. subst l'. cbn [floan_at fn_left] in *.
  destruct (left_after_close x r (fn_payment l) OA Fr ltac:(lra) Fp Bp' n SCH GS) as (Fy & Ey & _). 
  rewrite Ea, Er in *. fold A m p in Ey. fold S u in Ey. set (y := left_after x r (fn_payment l) n) in *.
  assert (BL : Rabs (value y) <= 50 * u * A * T).
  { replace (value y) with ((value y - schedule A m p n) + schedule A m p n) by ring. eapply Rle_trans; [apply Rabs_triang|]. rewrite (schedule_shift A m p P n) at 2.
    unfold P at 1. rewrite (annuity_repays A m n) by (auto; lra). fold S P. pose proof DEVn as D. replace (0 - (p - P) * S) with (- ((p - P) * S)) by ring. rewrite Rabs_Ropp.
    assert (30 * u * A * S <= 30 * u * A * T) by (apply Rmult_le_compat_l; [repeat apply Rmult_le_pos; lra|lra]). lra. }
  split; [exact Fy|]. split; [exact PF|]. split; [exact BL|]. fold u in PB.
  assert (NS : INR n <= T) by (apply (Rle_trans _ S); [apply (growth_ge m n); lra|exact ST]).
  assert (20 * u * A * INR n <= 20 * u * A * T) by (apply Rmult_le_compat_l; [repeat apply Rmult_le_pos; lra|lra]).
  replace (credit_balance loan ps) with ((credit_balance loan ps - value y) + value y) by ring. eapply Rle_trans; [apply Rabs_triang|]. lra.
Qed.
End whole.
