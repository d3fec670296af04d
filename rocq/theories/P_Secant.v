(** The secant search. *)
From Verif Require Import Prelude M_Stoichiometry M_Thermochem M_ThermoMat Spec_Secant.
From Coq Require Import Reals Lra.
Local Open Scope list_scope.
Local Open Scope R_scope.

Lemma ndiv_ok a b : b <> 0 -> ndiv a b = Ok (a / b).
Proof. intros H. unfold ndiv. destruct (Req_EM_T b 0); [contradiction|auto]. Qed.

Lemma slope_between g lo hi m M x y : slopes g lo hi m M -> lo <= x <= hi -> lo <= y <= hi -> x <> y -> exists s, m <= s <= M /\ g y - g x = s * (y - x).
Proof.
  intros S X Y N. assert (E : forall a b, lo <= a -> a < b -> b <= hi -> exists s, m <= s <= M /\ g b - g a = s * (b - a)).
  { intros a b A B C. destruct (S a b A B C) as [U V]. exists ((g b - g a) / (b - a)). assert (0 < b - a) by lra. split; [|field; lra].
    split; apply Rmult_le_reg_r with (b - a); auto; unfold Rdiv; rewrite Rmult_assoc, Rinv_l by lra; lra. }
  destruct (Rlt_le_dec x y) as [L|L].
  - apply E; lra. - destruct (E y x) as (s & Hs & Es); [lra|lra|lra|]. exists s. split; auto. lra.
Qed.

Section Search.
  Variables (g : R -> R) (h : R -> res R) (lo hi m M r H : R).
  Hypothesis hg : forall x, lo <= x <= hi -> h x = Ok (g x).
  Hypothesis sl : slopes g lo hi m M.
  Hypothesis mp : 0 < m.
  Hypothesis mM : m <= M.
  Hypothesis two : M <= 2 * m.
  Hypothesis root : g r = H.
  Variable rho : R.
  Hypothesis inlo : lo <= r - rho.
  Hypothesis inhi : r + rho <= hi.
  Let q := M / m - 1.
  Lemma q_range : 0 <= q <= 1.
  Proof.
    unfold q. assert (E : M / m * m = M) by (field; lra). split.
    - assert (1 <= M / m); [|lra]. apply Rmult_le_reg_r with m; lra. - assert (M / m <= 2); [|lra]. apply Rmult_le_reg_r with m; lra.
  Qed.
  Lemma factor s s0 : m <= s <= M -> m <= s0 <= M -> Rabs (1 - s / s0) <= q.
  Proof.
    intros S S0. replace (1 - s / s0) with ((s0 - s) / s0) by (field; lra). unfold Rdiv. rewrite Rabs_mult, Rabs_inv, (Rabs_right s0) by lra.
    assert (A : Rabs (s0 - s) <= M - m) by (apply Rabs_le; lra). apply Rmult_le_reg_r with s0; [lra|]. rewrite Rmult_assoc, Rinv_l by lra.
    assert (B : q * m <= q * s0) by (apply Rmult_le_compat_l; [apply q_range|lra]). assert (q * m = M - m) by (unfold q; field; lra). lra.
  Qed.
  Let near x := Rabs (x - r) <= rho.
  Lemma near_in x : near x -> lo <= x <= hi.
  Proof. intros N. unfold near, Rabs in N. destruct (Rcase_abs (x - r)); lra. Qed.

  Lemma search n : forall x0 x1, near x0 -> near x1 -> x0 <> x1 ->
    exists x, secant (fun x => do y <- h x; Ok (y - H)) n x0 x1 (g x0 - H) (g x1 - H) = Ok x /\ near x /\
      (Rabs (g x - H) <= q * (1 / 100000) \/ Rabs (g x - H) <= q ^ n * Rabs (g x1 - H)).
  Proof.
    induction n as [|n IH]; intros x0 x1 N0 N1 D; cbn [secant].
    - exists x1. split; auto. split; auto. right. rewrite pow_O. lra.
    - pose proof (near_in _ N0) as I0. pose proof (near_in _ N1) as I1. destruct (slope_between g lo hi m M x0 x1 sl I0 I1 D) as (s0 & S0 & E0).
      assert (Dy : g x1 - H - (g x0 - H) <> 0). { replace (g x1 - H - (g x0 - H)) with (s0 * (x1 - x0)) by lra. apply Rmult_integral_contrapositive_currified; lra. }
      rewrite ndiv_ok by auto. cbn [bind]. replace ((x1 - x0) / (g x1 - H - (g x0 - H))) with (/ s0).
      2:{ replace (g x1 - H - (g x0 - H)) with (s0 * (x1 - x0)) by lra. field. split; lra. }
      set (x2 := x1 - (g x1 - H) * / s0). destruct (Req_EM_T (g x1) H) as [Z|Z].
      + assert (X2 : x2 = x1) by (unfold x2; rewrite Z; ring). rewrite X2, (hg x1 I1). cbn [bind]. replace (g x1 - H) with 0 by lra. rewrite Rabs_R0.
        destruct (Rlt_dec 0 (1 / 100000)) as [_|]; [|lra]. exists x1. split; auto. split; auto. left. replace (g x1 - H) with 0 by lra. rewrite Rabs_R0. pose proof q_range. nra.
      + assert (Dr : x1 <> r) by (intros ->; contradiction). assert (Ir : lo <= r <= hi). { apply near_in. unfold near. rewrite Rminus_diag_eq, Rabs_R0 by auto. unfold near in N1. pose proof (Rabs_pos (x1 - r)). lra. }
        destruct (slope_between g lo hi m M r x1 sl Ir I1) as (s1 & S1 & E1); [auto|].
        assert (N2 : near x2). { unfold near. replace (x2 - r) with ((1 - s1 / s0) * (x1 - r)). - rewrite Rabs_mult. pose proof (factor s1 s0 S1 S0) as F. pose proof q_range. pose proof (Rabs_pos (1 - s1 / s0)). pose proof (Rabs_pos (x1 - r)). unfold near in N1. nra.
          - unfold x2. rewrite <- root, E1. field. lra. }
        pose proof (near_in _ N2) as I2. assert (D12 : x1 <> x2). { unfold x2. intros E. assert (G : (g x1 - H) * / s0 = 0) by lra. apply Rmult_integral in G. destruct G as [G|G]; [lra|]. assert (/ s0 <> 0) by (apply Rinv_neq_0_compat; lra). contradiction. }
        destruct (slope_between g lo hi m M x1 x2 sl I1 I2 D12) as (s2 & S2 & E2).
        assert (Y2 : Rabs (g x2 - H) <= q * Rabs (g x1 - H)). { replace (g x2 - H) with ((1 - s2 / s0) * (g x1 - H)). - rewrite Rabs_mult. apply Rmult_le_compat_r; [apply Rabs_pos|now apply factor].
          - replace (g x2) with (g x1 + s2 * (x2 - x1)) by lra. unfold x2. field. lra. }
        rewrite (hg x2 I2). cbn [bind]. destruct (Rlt_dec (Rabs (g x1 - H)) (1 / 100000)) as [L|L].
        * exists x2. split; auto. split; auto. left. pose proof q_range. eapply Rle_trans; [exact Y2|]. apply Rmult_le_compat_l; lra.
        * destruct (IH x1 x2 N1 N2 D12) as (x & Ex & Nx & B). exists x. split; auto. split; auto. destruct B as [B|B]; [auto|]. right. eapply Rle_trans; [exact B|].
          cbn [pow]. assert (0 <= q ^ n) by (apply pow_le; apply q_range). rewrite (Rmult_comm q), Rmult_assoc. apply Rmult_le_compat_l; auto.
  Qed.
  Lemma find_T_converges T : near T -> near (T + 10) -> exists x, find_T h T H = Ok x /\ near x /\
      (Rabs (g x - H) <= q * (1 / 100000) \/ Rabs (g x - H) <= q ^ 48 * Rabs (g (T + 10) - H)).
  Proof.
    intros N0 N1. unfold find_T. rewrite (hg T), (hg (T + 10)) by (now apply near_in). cbn [bind]. apply search; auto. lra.
  Qed.
End Search.

(** A straight line is solved exactly. *)
Lemma find_T_line h a b T H : b <> 0 -> h T = Ok (a + b * T) -> h (T + 10) = Ok (a + b * (T + 10)) -> h ((H - a) / b) = Ok H -> find_T h T H = Ok ((H - a) / b).
Proof.
  intros B E0 E1 E2. unfold find_T. rewrite E0, E1. cbn [bind]. cbn [secant].
  assert (D : a + b * (T + 10) - H - (a + b * T - H) = b * 10) by ring. rewrite D. rewrite ndiv_ok by lra. cbn [bind].
  replace (T + 10 - (a + b * (T + 10) - H) * ((T + 10 - T) / (b * 10))) with ((H - a) / b) by (field; auto). rewrite E2. cbn [bind].
  destruct (Rlt_dec (Rabs (a + b * (T + 10) - H)) (1 / 100000)) as [L|L]; auto.
  assert (Y : a + b * (T + 10) - H <> 0) by (intros Z; rewrite Z, Rabs_R0 in L; lra).
  rewrite ndiv_ok by lra. cbn [bind]. replace (H - H) with 0 by ring. rewrite Rmult_0_l, Rminus_0_r, E2. cbn [bind]. rewrite Rabs_R0. destruct (Rlt_dec 0 (1 / 100000)); [auto|lra].
Qed.

(** Different enthalpies at different temperatures: the search never divides by 0. *)
Lemma secant_total g n : (forall x y, g x = g y -> x = y) -> forall x0 x1, x0 <> x1 -> exists x, secant (fun x => Ok (g x)) n x0 x1 (g x0) (g x1) = Ok x.
Proof.
  intros I. induction n as [|n IH]; intros x0 x1 D; cbn [secant]; [eauto|]. assert (Dy : g x1 - g x0 <> 0) by (intros E; apply D, I; lra). rewrite ndiv_ok by auto. cbn [bind].
  destruct (Rlt_dec (Rabs (g x1)) (1 / 100000)) as [L|L]; [eauto|]. apply IH. intros E. assert (Z : g x1 * ((x1 - x0) / (g x1 - g x0)) = 0) by lra. apply Rmult_integral in Z. destruct Z as [Z|Z].
  - rewrite Z, Rabs_R0 in L. lra.
  - unfold Rdiv in Z. apply Rmult_integral in Z. destruct Z as [Z|Z]; [lra|]. now apply Rinv_neq_0_compat in Z.
Qed.
Lemma find_T_total g T H : (forall x y, g x = g y -> x = y) -> exists x, find_T (fun x => Ok (g x)) T H = Ok x.
Proof. intros I. unfold find_T. cbn [bind]. apply (secant_total (fun x => g x - H)); [intros x y E; apply I; lra|lra]. Qed.

(** At most [n + 2] temperatures are looked at. *)
Lemma secant_points f n : forall x0 x1 y0 y1, exists l, (length l <= n)%nat /\ forall f', (forall x, In x l -> f' x = f x) -> secant f' n x0 x1 y0 y1 = secant f n x0 x1 y0 y1.
Proof.
  induction n as [|n IH]; intros x0 x1 y0 y1; [exists []; cbn; auto|]. cbn [secant]. destruct (ndiv (x1 - x0) (y1 - y0)) as [s|e]; cbn [bind]; [|exists []; cbn; split; [lia|auto]].
  set (x2 := x1 - y1 * s). destruct (f x2) as [y2|e] eqn:E.
  - destruct (IH x1 x2 y1 y2) as (l & L & P). exists (x2 :: l). split; [cbn; lia|]. intros f' Hf. rewrite Hf, E by (cbn; auto). cbn [bind]. destruct (Rlt_dec _ _); auto. apply P. intros x Hx. apply Hf. cbn. auto.
  - exists [x2]. split; [cbn; lia|]. intros f' Hf. rewrite Hf, E by (cbn; auto). reflexivity.
Qed.
Lemma find_T_points h T H : exists l, (length l <= 50)%nat /\ forall h', (forall x, In x l -> h' x = h x) -> find_T h' T H = find_T h T H.
Proof.
  unfold find_T. destruct (h T) as [y0|e] eqn:E0; cbn [bind].
  - destruct (h (T + 10)) as [y1|e] eqn:E1; cbn [bind].
    + destruct (secant_points (fun x => do y <- h x; Ok (y - H)) 48 T (T + 10) (y0 - H) (y1 - H)) as (l & L & P). exists (T :: T + 10 :: l). split; [cbn; lia|].
      intros h' Hh. rewrite (Hh T), (Hh (T + 10)), E0, E1 by (cbn; auto). cbn [bind]. apply P. intros x Hx. rewrite Hh; cbn; auto.
    + exists [T; T + 10]. split; [cbn; lia|]. intros h' Hh. rewrite (Hh T), (Hh (T + 10)), E0, E1 by (cbn; auto). reflexivity.
  - exists [T]. split; [cbn; lia|]. intros h' Hh. rewrite (Hh T), E0 by (cbn; auto). reflexivity.
Qed.
