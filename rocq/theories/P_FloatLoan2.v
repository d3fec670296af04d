From Verif Require Import Prelude M_Ieee Spec_Ieee P_Ieee M_FloatMix Spec_FloatMix P_FloatMix M_FloatLoan Spec_FloatLoan P_FloatLoan.
From Coq Require Import Reals List Permutation Lra Lia ZArith.
From Flocq Require Import Core BinarySingleNaN Relative.
Import ListNotations.
Local Open Scope R_scope.

(** * Relative rounding *)
Lemma rnd_rel v : / 2 ^ 1000 <= Rabs v -> Rabs (rnd v - v) <= ulp_half * Rabs v.
Proof.
  intros H. pose proof (relative_error_N_FLT radix2 (-1074) 53 eq_refl (fun z => negb (Z.even z)) v) as E.
  assert (B : bpow radix2 (-1074 + 53 - 1) <= Rabs v).
  { eapply Rle_trans; [|exact H]. change (-1074 + 53 - 1)%Z with (- Z.of_nat 1022)%Z. rewrite bpow_neg. apply Rinv_le_contravar; [apply pow_lt; lra|]. apply Rle_pow; [lra|lia]. }
  specialize (E B). replace (/ 2 * bpow radix2 (-(53) + 1)) with ulp_half in E; [exact E|].
  change (-(53) + 1)%Z with (- Z.of_nat 52)%Z. rewrite bpow_neg. unfold ulp_half. replace (2 ^ 53) with (2 * 2 ^ 52) by (cbn; ring). rewrite Rinv_mult. reflexivity.
Qed.
Lemma rel_bounds a b e : Rabs (a - b) <= e -> b - e <= a <= b + e.
Proof. intros H. apply Rabs_le_inv in H. lra. Qed.
Lemma rnd_within v : / 2 ^ 1000 <= v -> v * (1 - ulp_half) <= rnd v <= v * (1 + ulp_half).
Proof.
  intros H. assert (0 < v) by (eapply Rlt_le_trans; [|exact H]; apply Rinv_0_lt_compat, pow_lt; lra). pose proof (rnd_rel v) as E. rewrite Rabs_pos_eq in E by lra. specialize (E H). apply rel_bounds in E. lra.
Qed.
Lemma mul_le2 a b c d : 0 <= a -> a <= b -> 0 <= c -> c <= d -> a * c <= b * d.
Proof. intros. apply Rmult_le_compat; assumption. Qed.
Lemma pow_below t n : 0 <= t -> INR n * t <= 1 -> (1 + t) ^ n * (1 - INR n * t) <= 1.
Proof.
  intros T. induction n as [|n IH]; intros H; [cbn; lra|]. rewrite S_INR in *. pose proof (pos_INR n) as K. cbn [pow].
  assert (P : 0 < (1 + t) ^ n) by (apply pow_lt; lra). assert (X : INR n * t <= 1) by lra. specialize (IH X).
  replace ((1 + t) * (1 + t) ^ n * (1 - (INR n + 1) * t)) with ((1 + t) ^ n * (1 - INR n * t) - (1 + t) ^ n * ((INR n + 1) * (t * t))) by ring.
  assert (0 <= (1 + t) ^ n * ((INR n + 1) * (t * t))) by (apply Rmult_le_pos; [lra|]; apply Rmult_le_pos; [lra|]; apply Rmult_le_pos; lra). lra.
Qed.
Lemma pow_above t n : 0 <= t <= 1 -> 1 - INR n * t <= (1 - t) ^ n.
Proof.
  intros T. induction n as [|n IH]; [cbn; lra|]. rewrite S_INR. cbn [pow]. pose proof (pos_INR n) as K.
  assert (X : (1 - t) * (1 - INR n * t) <= (1 - t) * (1 - t) ^ n) by (apply Rmult_le_compat_l; lra).
  assert (0 <= INR n * (t * t)) by (apply Rmult_le_pos; [lra|]; apply Rmult_le_pos; lra).
  replace ((1 - t) * (1 - INR n * t)) with (1 - (INR n + 1) * t + INR n * (t * t)) in X by ring. lra.
Qed.
Lemma div_between a lo hi c d : 0 < c -> 0 <= lo -> c <= d -> lo <= a -> a <= hi -> forall b, c <= b <= d -> lo / d <= a / b <= hi / c.
Proof.
  intros C L CD A1 A2 b B. assert (0 < / d) by (apply Rinv_0_lt_compat; lra). assert (/ d <= / b) by (apply Rinv_le_contravar; lra). assert (/ b <= / c) by (apply Rinv_le_contravar; lra).
  unfold Rdiv. split; apply Rmult_le_compat; lra.
Qed.
Lemma not_zero x : value x <> 0 -> is_zero64 x = false.
Proof. destruct x as [s|s| |s m e H]; auto. intros N. exfalso. apply N. reflexivity. Qed.

(** * The payment *)
Section payment.
Variable pow64 : float64 -> Z -> res float64.
Hypothesis POW : accurate_pow pow64.
Variables (x r : float64) (n : nat).
Let A := value x.
Let m := value r / 12.
Let u := ulp_half.
Let g := 1 + m.
Let G := g ^ n.
Hypothesis OA : ordinary_amount x.
Hypothesis OR : ordinary_rate r.
Hypothesis Hn : (1 <= n)%nat.
Hypothesis HT : G / m <= 2 ^ 40.
Lemma m_range : 0 < m <= 1. Proof. destruct OR as [_ H]. unfold m. lra. Qed.
Lemma A_range : / 2 ^ 900 <= A <= 2 ^ 1000 /\ 0 < A.
Proof. destruct OA as [_ H]. fold A in H. split; auto. now apply A_pos. Qed.
Lemma u_range : 0 < u <= / 2 ^ 53. Proof. split; [apply ulp_half_pos|right; reflexivity]. Qed.
Lemma G_ge1 : 1 < G.
Proof. unfold G, g. pose proof m_range. apply Rlt_pow_R1; [lra|lia]. Qed.
Lemma nm_le : INR n * m <= G - 1.
Proof.
  pose proof m_range. unfold G, g. rewrite <- growth_closed. rewrite Rmult_comm. apply Rmult_le_compat_l; [lra|]. apply growth_ge. lra.
Qed.
Let w := u / m.
Let N := INR n * u.
Lemma small_w : u <= w <= / 2 ^ 13.
Proof.
  pose proof m_range as M. pose proof u_range as U. pose proof G_ge1 as G1. unfold w, Rdiv. assert (I : 1 <= / m) by (rewrite <- Rinv_1; apply Rinv_le_contravar; lra). split.
  - rewrite <- (Rmult_1_r u) at 1. apply Rmult_le_compat_l; lra.
  - assert (/ m <= 2 ^ 40). { eapply Rle_trans; [|exact HT]. unfold Rdiv. rewrite <- (Rmult_1_l (/ m)) at 1. apply Rmult_le_compat_r; lra. }
    apply Rle_trans with (/ 2 ^ 53 * 2 ^ 40); [apply Rmult_le_compat; lra|]. right. replace (2 ^ 53) with (2 ^ 13 * 2 ^ 40) by (rewrite <- pow_add; reflexivity).
    rewrite Rinv_mult, Rmult_assoc, Rinv_l by (apply pow_nonzero; lra). ring.
Qed.
Lemma small_N : u <= N <= / 2 ^ 13.
Proof.
  pose proof m_range as M. pose proof u_range as U. assert (n1 : 1 <= INR n) by (replace 1 with (INR 1) by reflexivity; apply le_INR; lia). unfold N. split.
  - rewrite <- (Rmult_1_l u) at 1. apply Rmult_le_compat_r; lra.
  - assert (INR n <= 2 ^ 40).
    { eapply Rle_trans; [|exact HT]. apply (Rmult_le_reg_r m); [lra|]. unfold Rdiv. rewrite Rmult_assoc, Rinv_l, Rmult_1_r by lra. pose proof nm_le. lra. }
    apply Rle_trans with (2 ^ 40 * / 2 ^ 53); [apply Rmult_le_compat; lra|]. right. replace (2 ^ 53) with (2 ^ 40 * 2 ^ 13) by (rewrite <- pow_add; reflexivity).
    rewrite Rinv_mult, <- Rmult_assoc, Rinv_r by (apply pow_nonzero; lra). ring.
Qed.
Lemma thirteen : / 2 ^ 13 <= / 8000. Proof. apply Rinv_le_contravar; [lra|]. cbn; lra. Qed.
Lemma low k a : (k <= 1000)%nat -> / 2 ^ k <= a -> / 2 ^ 1000 <= a.
Proof. intros K H. eapply Rle_trans; [|exact H]. apply Rinv_le_contravar; [apply pow_lt; lra|]. apply Rle_pow; [lra|exact K]. Qed.
Lemma high k a : (k <= 1019)%nat -> Rabs a <= 2 ^ k -> Rabs a <= 2 ^ 1019.
Proof. intros K H. eapply Rle_trans; [exact H|]. apply Rle_pow; [lra|exact K]. Qed.
Lemma m_low : / 2 ^ 40 <= m.
Proof.
  pose proof m_range as M. pose proof G_ge1 as G1. assert (I : / m <= 2 ^ 40). { eapply Rle_trans; [|exact HT]. unfold Rdiv. rewrite <- (Rmult_1_l (/ m)) at 1. apply Rmult_le_compat_r; [left; apply Rinv_0_lt_compat|]; lra. }
  rewrite <- (Rinv_inv m). apply Rinv_le_contravar; [apply Rinv_0_lt_compat; lra|exact I].
Qed.
Lemma G_high : G <= 2 ^ 40.
Proof.
  pose proof m_range as M. pose proof G_ge1 as G1. assert (X : G / m * m <= 2 ^ 40 * m) by (apply Rmult_le_compat_r; lra). unfold Rdiv in X. rewrite Rmult_assoc, Rinv_l, Rmult_1_r in X by lra.
  eapply Rle_trans; [exact X|]. rewrite <- (Rmult_1_r (2 ^ 40)) at 2. apply Rmult_le_compat_l; [apply pow_le|]; lra.
Qed.

Let mr := div64 r twelve64.
Lemma mrate_ok : finite mr /\ m * (1 - u) <= value mr <= m * (1 + u).
Proof.
  destruct twelve_val as [F12 V12]. destruct OR as [Fr Br]. pose proof m_range as M.
  assert (E : value r / value twelve64 = m) by (rewrite V12; reflexivity).
  destruct (div_ok r twelve64 Fr) as [F V]; [rewrite V12; lra| |].
  - apply rnd_small. rewrite E, Rabs_pos_eq by lra. apply Rle_trans with (2 ^ 0); [cbn; lra|apply Rle_pow; [lra|lia]].
  - fold mr in F, V. split; auto. rewrite V, E. apply rnd_within. apply (low 40); [lia|apply m_low].
Qed.
Let base := add64 one64 mr.
Lemma base_ok : finite base /\ 1 <= value base /\ g * (1 - 2 * u) <= value base <= g * (1 + 2 * u).
Proof.
  destruct mrate_ok as [Fm Bm]. pose proof m_range as M. pose proof u_range as U. pose proof small_w. pose proof thirteen. 
  assert (um : 0 <= m * u <= u) by (split; [apply Rmult_le_pos; lra|rewrite <- (Rmult_1_l u) at 2; apply Rmult_le_compat_r; lra]).
  assert (um2 : m * u <= m * / 8000) by (apply Rmult_le_compat_l; lra). assert (V1 : value one64 = 1) by apply one_value.
  destruct (add_ok one64 mr one_finite Fm) as [F V].
  - apply rnd_small. rewrite V1, Rabs_pos_eq by lra. apply Rle_trans with (2 ^ 2); [cbn; lra|apply Rle_pow; [lra|lia]].
  - fold base in F, V. rewrite V1 in V. split; [exact F|]. split; [rewrite V; apply Rle_trans with (rnd 1); [rewrite rnd_1; lra|apply rnd_le; lra]|].
    pose proof (rnd_within (1 + value mr)) as R. fold u in R. rewrite <- V in R. specialize (R ltac:(apply (low 1); [lia|cbn; lra])). destruct R as [R1 R2]. unfold g.
    assert (mu2 : 0 <= m * u * u <= m * u * 1) by (split; [apply Rmult_le_pos|apply Rmult_le_compat_l]; lra).
    assert (X1 : (1 + m * (1 - u)) * (1 - u) <= (1 + value mr) * (1 - u)) by (apply Rmult_le_compat_r; lra).
    assert (X2 : (1 + value mr) * (1 + u) <= (1 + m * (1 + u)) * (1 + u)) by (apply Rmult_le_compat_r; lra). lra.
Qed.
Lemma base_pow : G * (1 - 2 * N) <= value base ^ n <= G * (1 + 3 * N).
Proof.
  destruct base_ok as (Fb & B1 & Bb). pose proof m_range as M. pose proof u_range as U. pose proof small_N as SN. pose proof small_w as SW. pose proof thirteen as T. pose proof G_ge1 as G1.
  assert (E1 : (g * (1 - 2 * u)) ^ n <= value base ^ n). { apply pow_incr. split; [|lra]. apply Rmult_le_pos; unfold g; lra. }
  assert (E2 : value base ^ n <= (g * (1 + 2 * u)) ^ n) by (apply pow_incr; lra).
  rewrite Rpow_mult_distr in E1, E2. fold G in E1, E2. pose proof (pow_above (2 * u) n ltac:(lra)) as L. pose proof (pow_below (2 * u) n ltac:(lra)) as H.
  replace (INR n * (2 * u)) with (2 * N) in L, H by (unfold N; ring). specialize (H ltac:(lra)). split.
  - eapply Rle_trans; [|exact E1]. apply Rmult_le_compat_l; lra.
  - eapply Rle_trans; [exact E2|]. apply Rmult_le_compat_l; [lra|]. apply (Rmult_le_reg_r (1 - 2 * N)); [lra|]. eapply Rle_trans; [exact H|].
    assert (N * N <= N * / 8000) by (apply Rmult_le_compat_l; lra). lra.
Qed.
Lemma pow_result : exists P, pow64 base (Z.of_nat n) = Ok P /\ finite P /\ G * (1 - 6 * N) <= value P <= G * (1 + 6 * N).
Proof.
  destruct base_ok as (Fb & B1 & Bb). pose proof base_pow as BP. pose proof u_range as U. pose proof small_N as SN. pose proof thirteen as T. pose proof G_ge1 as G1.
  destruct (POW base n Fb B1) as (P & E & F & R).
  { eapply Rle_trans; [apply BP|]. apply Rle_trans with (2 ^ 40 * 2 ^ 1); [apply Rmult_le_compat; try lra; apply G_high|]. rewrite <- pow_add. apply Rle_pow; [lra|lia]. }
  exists P. split; auto. split; auto. apply rel_bounds in R. fold u in R. set (b := value base ^ n) in *.
  assert (GN : 0 <= G * N) by (apply Rmult_le_pos; lra). assert (GN2 : G * N <= G * / 8000) by (apply Rmult_le_compat_l; lra).
  assert (ub : 2 * u * b <= 2 * N * (G * (1 + 3 * N))). { apply Rmult_le_compat; lra. }
  assert (GNN : G * N * N <= G * N * / 8000) by (apply Rmult_le_compat_l; lra). lra.
Qed.
Lemma payment_value : exists p, fpayment pow64 x mr (Z.of_nat n) = Ok p /\ finite p /\
  annuity A m n * (1 - 20 * w) <= value p <= annuity A m n * (1 + 20 * w).
Proof.
  destruct pow_result as (P & EP & FP & BP). destruct mrate_ok as [Fm Bm]. pose proof m_range as M. pose proof u_range as U. pose proof small_N as SN. pose proof small_w as SW. pose proof thirteen as T. pose proof G_ge1 as G1.
  destruct A_range as [HA AP]. destruct OA as [Fx _]. pose proof G_high as GH. pose proof m_low as ML.
  unfold fpayment. fold base. rewrite EP. cbn [bind].
  (* q = 1 / P *)
  set (q := / G). assert (Q0 : 0 < q) by (apply Rinv_0_lt_compat; lra). assert (QG : q * G = 1) by (unfold q; apply Rinv_l; lra).
  assert (Q1 : q < 1) by (unfold q; rewrite <- Rinv_1; apply Rinv_lt_contravar; lra).
  assert (GN : 0 <= G * N) by (apply Rmult_le_pos; lra). assert (GN2 : G * N <= G * / 8000) by (apply Rmult_le_compat_l; lra).
  assert (PP : 0 < value P) by lra.
  assert (BI : q * (1 - 6 * N) <= 1 / value P <= q * (1 + 7 * N)).
  { split.
    - apply (Rmult_le_reg_r (value P)); [lra|]. unfold Rdiv. rewrite Rmult_1_l, Rinv_l by lra. apply Rle_trans with (q * (1 - 6 * N) * (G * (1 + 6 * N))); [apply Rmult_le_compat_l; [apply Rmult_le_pos; lra|lra]|].
      replace (q * (1 - 6 * N) * (G * (1 + 6 * N))) with (q * G * (1 - 36 * (N * N))) by ring. rewrite QG. assert (0 <= N * N) by (apply Rmult_le_pos; lra). lra.
    - apply (Rmult_le_reg_r (value P)); [lra|]. unfold Rdiv. rewrite Rmult_1_l, Rinv_l by lra. apply Rle_trans with (q * (1 + 7 * N) * (G * (1 - 6 * N))); [|apply Rmult_le_compat_l; [apply Rmult_le_pos; lra|lra]].
      replace (q * (1 + 7 * N) * (G * (1 - 6 * N))) with (q * G * (1 + N - 42 * (N * N))) by ring. rewrite QG. assert (N * N <= N * / 8000) by (apply Rmult_le_compat_l; lra). lra. }
  assert (QN : 0 <= q * N <= q * / 8000) by (split; [apply Rmult_le_pos|apply Rmult_le_compat_l]; lra).
  unfold pydiv64 at 1. rewrite (not_zero P) by lra. cbn [bind].
  destruct (div_ok one64 P one_finite) as [Fq Vq]; [lra| |].
  { rewrite one_value. apply rnd_small. rewrite Rabs_pos_eq by lra. apply Rle_trans with (2 ^ 2); [cbn; lra|apply Rle_pow; [lra|lia]]. }
  rewrite one_value in Vq. set (qf := div64 one64 P) in *.
  assert (q40 : / 2 ^ 40 <= q) by (unfold q; apply Rinv_le_contravar; lra).
  assert (Wq := rnd_within (1 / value P)). fold u in Wq. rewrite <- Vq in Wq. specialize (Wq ltac:(apply (low 41); [lia|]; eapply Rle_trans; [|apply BI]; replace (/ 2 ^ 41) with (/ 2 ^ 40 * / 2) by (rewrite <- Rinv_mult; f_equal; ring);  lra)).
  assert (Bq : Rabs (value qf - q) <= 9 * N * q).
  { apply Rabs_le. 
    assert (X1 : q * (1 - 6 * N) * (1 - u) <= 1 / value P * (1 - u)) by (apply Rmult_le_compat_r; lra).
    assert (X2 : 1 / value P * (1 + u) <= q * (1 + 7 * N) * (1 + N)) by (apply Rmult_le_compat; lra).
    assert (X3 : 0 <= q * (1 - 6 * N) * (N - u)) by (apply Rmult_le_pos; [apply Rmult_le_pos|]; lra).
    assert (QNN : 0 <= q * N * N <= q * N * / 8000) by (split; [apply Rmult_le_pos|apply Rmult_le_compat_l]; lra). lra. }
  (* d = 1 - q *)
  set (D := 1 - q). assert (D0 : 0 < D) by (unfold D; lra).
  assert (ND : N * q <= D * w).
  { unfold N, w, D. apply (Rmult_le_reg_r m); [lra|]. replace ((1 - q) * (u / m) * m) with ((1 - q) * u) by (field; lra). replace (INR n * u * q * m) with (INR n * m * q * u) by ring. apply Rmult_le_compat_r; [lra|].
    apply Rle_trans with ((G - 1) * q); [apply Rmult_le_compat_r; [lra|apply nm_le]|]. rewrite Rmult_minus_distr_r, Rmult_comm, QG. lra. }
  destruct (sub_safe one64 qf one_finite Fq) as [Fd Ed].
  { rewrite one_value. apply (high 2); [lia|]. replace (2 ^ 2) with 4 by ring. apply Rabs_le. apply rel_bounds in Bq. lra. }
  rewrite one_value in Ed. fold u in Ed. set (d := sub64 one64 qf) in *.
  assert (Bd : D * (1 - 11 * w) <= value d <= D * (1 + 11 * w)).
  { apply rel_bounds in Bq. assert (Y : Rabs (1 - value qf) <= D + 9 * N * q) by (unfold D; apply Rabs_le; lra).
    assert (Y2 : u * Rabs (1 - value qf) <= u * (D + 9 * N * q)) by (apply Rmult_le_compat_l; lra). apply rel_bounds in Ed.
    assert (Y3 : u * (N * q) <= / 8000 * (N * q)) by (apply Rmult_le_compat_r; lra). assert (Y4 : D * u <= D * w) by (apply Rmult_le_compat_l; lra). unfold D in *. lra. }
  assert (Dw : 0 <= D * w <= D * / 8000) by (split; [apply Rmult_le_pos|apply Rmult_le_compat_l]; lra).
  assert (dp : 0 < value d) by lra. unfold pydiv64. rewrite (not_zero d) by lra.
  (* A * m *)
  assert (AM : 0 < A * m) by (apply Rmult_lt_0_compat; lra).
  assert (BAm : A * m * (1 - u) <= value x * value mr <= A * m * (1 + u)).
  { fold A. split; [rewrite Rmult_assoc|rewrite (Rmult_assoc A m)]; apply Rmult_le_compat_l; lra. }
  assert (Alow : / 2 ^ 940 <= A * m). { replace (/ 2 ^ 940) with (/ 2 ^ 900 * / 2 ^ 40) by (rewrite <- Rinv_mult, <- pow_add; reflexivity). apply Rmult_le_compat; try lra; left; apply Rinv_0_lt_compat, pow_lt; lra. }
  assert (P940 : 0 < / 2 ^ 940) by (apply Rinv_0_lt_compat, pow_lt; lra).
  assert (AMu : 0 <= A * m * u <= A * m * / 8000) by (split; [apply Rmult_le_pos|apply Rmult_le_compat_l]; lra).
  assert (Ahigh : A * m <= 2 ^ 1000). { rewrite <- (Rmult_1_r (2 ^ 1000)). apply Rmult_le_compat; lra. }
  assert (B1000 : 1 <= 2 ^ 1000) by (apply pow_R1_Rle; lra).
  destruct (mul_ok x mr Fx Fm) as [Fv Vv].
  { apply rnd_small. apply (high 1001); [lia|]. rewrite Rabs_pos_eq by lra. rewrite <- tech_pow_Rmult. lra. }
  assert (Wv := rnd_within (value x * value mr)). fold u in Wv. rewrite <- Vv in Wv. set (v := mul64 x mr) in *.
  specialize (Wv ltac:(apply (low 941); [lia|]; replace (/ 2 ^ 941) with (/ 2 ^ 940 * / 2) by (rewrite <- Rinv_mult; f_equal; ring); lra)).
  assert (Bv : A * m * (1 - 3 * u) <= value v <= A * m * (1 + 3 * u)).
  { assert (X1 : A * m * (1 - u) * (1 - u) <= value x * value mr * (1 - u)) by (apply Rmult_le_compat_r; lra).
    assert (X2 : value x * value mr * (1 + u) <= A * m * (1 + u) * (1 + u)) by (apply Rmult_le_compat_r; lra).
    assert (0 <= A * m * u * u <= A * m * u * / 8000) by (split; [apply Rmult_le_pos|apply Rmult_le_compat_l]; lra). lra. }
  (* the quotient *)
  set (X := annuity A m n). assert (XD : X * D = A * m). { unfold X, annuity. fold g. fold G. fold q. fold D. unfold Rdiv. rewrite Rmult_assoc, Rinv_l by lra. ring. }
  assert (X0 : 0 < X). { apply (Rmult_lt_reg_r D); [exact D0|]. rewrite XD. lra. }
  assert (Bz : X * (1 - 15 * w) <= value v / value d <= X * (1 + 15 * w)).
  { split.
    - apply (Rmult_le_reg_r (value d)); [lra|]. replace (value v / value d * value d) with (value v) by (field; lra). apply Rle_trans with (X * (1 - 15 * w) * (D * (1 + 11 * w))); [apply Rmult_le_compat_l; [apply Rmult_le_pos; lra|lra]|].
      replace (X * (1 - 15 * w) * (D * (1 + 11 * w))) with (X * D * (1 - 4 * w - 165 * (w * w))) by ring. rewrite XD. eapply Rle_trans; [|apply Bv]. apply Rmult_le_compat_l; [lra|]. assert (0 <= w * w) by (apply Rmult_le_pos; lra). lra.
    - apply (Rmult_le_reg_r (value d)); [lra|]. replace (value v / value d * value d) with (value v) by (field; lra). apply Rle_trans with (X * (1 + 15 * w) * (D * (1 - 11 * w))); [|apply Rmult_le_compat_l; [apply Rmult_le_pos; lra|lra]].
      replace (X * (1 + 15 * w) * (D * (1 - 11 * w))) with (X * D * (1 + 4 * w - 165 * (w * w))) by ring. rewrite XD. eapply Rle_trans; [apply Bv|]. apply Rmult_le_compat_l; [lra|]. assert (w * w <= w * / 8000) by (apply Rmult_le_compat_l; lra). lra. }
  assert (Xhigh : X <= 2 * A).
  { apply (Rmult_le_reg_r D); [exact D0|]. rewrite XD. assert (m <= 2 * D).
    { assert (q <= / g). { unfold q, G. apply Rinv_le_contravar; [unfold g; lra|]. rewrite <- (pow_1 g) at 1. apply Rle_pow; [unfold g; lra|lia]. }
      assert (Z : / g * g = 1) by (apply Rinv_l; unfold g; lra). assert (/ g <= 1 - m / 2).
      { apply (Rmult_le_reg_r g); [unfold g; lra|]. rewrite Z. unfold g. assert (0 <= m * (1 - m)) by (apply Rmult_le_pos; lra). lra. }
      unfold D. lra. }
    replace (2 * A * D) with (A * (2 * D)) by ring. apply Rmult_le_compat_l; lra. }
  assert (Xlow : A * m <= X). { rewrite <- XD. rewrite <- (Rmult_1_r X) at 2. apply Rmult_le_compat_l; unfold D; lra. }
  assert (Xw : 0 <= X * w <= X * / 8000) by (split; [apply Rmult_le_pos|apply Rmult_le_compat_l]; lra).
  destruct (div_ok v d Fv) as [Fz Vz]; [lra| |].
  { apply rnd_small. apply (high 1002); [lia|]. rewrite Rabs_pos_eq by lra. replace (2 ^ 1002) with (2 ^ 2 * 2 ^ 1000) by (rewrite <- pow_add; reflexivity). replace (2 ^ 2) with 4 by ring. lra. }
  assert (Wz := rnd_within (value v / value d)). fold u in Wz. rewrite <- Vz in Wz.
  specialize (Wz ltac:(apply (low 941); [lia|]; replace (/ 2 ^ 941) with (/ 2 ^ 940 * / 2) by (rewrite <- Rinv_mult; f_equal; ring); lra)).
  exists (div64 v d). split; [reflexivity|]. split; [exact Fz|].
  assert (X1 : X * (1 - 15 * w) * (1 - u) <= value v / value d * (1 - u)) by (apply Rmult_le_compat_r; lra).
  assert (X2 : value v / value d * (1 + u) <= X * (1 + 15 * w) * (1 + w)) by (apply Rmult_le_compat; lra).
  assert (X3 : 0 <= X * (1 - 15 * w) * (w - u)) by (apply Rmult_le_pos; [apply Rmult_le_pos|]; lra).
  assert (0 <= X * w * w <= X * w * / 8000) by (split; [apply Rmult_le_pos|apply Rmult_le_compat_l]; lra). lra.
Qed.
End payment.
