(** C49: dry ash-free coal. *)
From Verif Require Import Prelude M_Thermochem M_Coals Spec_Thermo Spec_Coals P_Coals.
From Coq Require Import Reals Lra.
From Coquelicot Require Import Coquelicot.
Local Open Scope R_scope.

(** The enthalpy model's derivative is the heat capacity model. *)
Theorem C49_derivative : forall T yC yH yO yN yS, 0 < T -> atoms_per_kg yC yH yO yN yS <> 0 ->
  exists h cp, daf_H T yC yH yO yN yS = Ok h /\ daf_Cp T yC yH yO yN yS = Ok cp /\ is_derive (fun t => value (daf_H t yC yH yO yN yS)) T cp.
Proof.
  intros T yC yH yO yN yS HT N. do 2 eexists. split; [now apply daf_H_ok|]. split; [now apply daf_Cp_ok|].
  apply is_derive_ext_loc with (fun t => 1000 * Rgas * atoms_per_kg yC yH yO yN yS * (einstein_energy 380 t + 2 * einstein_energy 1800 t)).
  - exists (mkposreal T HT). intros t Ht. rewrite daf_H_ok; auto. unfold ball in Ht. cbn in Ht. unfold AbsRing_ball, abs, minus, plus, opp in Ht. cbn in Ht. unfold Rabs in Ht. destruct (Rcase_abs _) in Ht; lra.
  - apply (is_derive_scal (fun t => einstein_energy 380 t + 2 * einstein_energy 1800 t) T).
    apply (is_derive_plus (einstein_energy 380) (fun t => 2 * einstein_energy 1800 t)); [apply einstein_derive; lra|]. apply (is_derive_scal (einstein_energy 1800) T 2). apply einstein_derive; lra.
Qed.
Print Assumptions C49_derivative.
(** Enthalpy differences are integrals of the heat capacity. *)
Theorem C49_integral : forall T1 T2 yC yH yO yN yS, 0 < T1 -> 0 < T2 -> atoms_per_kg yC yH yO yN yS <> 0 ->
  is_RInt (fun t => value (daf_Cp t yC yH yO yN yS)) T1 T2 (value (daf_H T2 yC yH yO yN yS) - value (daf_H T1 yC yH yO yN yS)).
Proof.
  intros T1 T2 yC yH yO yN yS H1 H2 N. apply (is_RInt_derive (fun t => value (daf_H t yC yH yO yN yS))).
  - intros x Hx. assert (X : 0 < x) by (pose proof (Rmin_glb_lt _ _ _ H1 H2); lra). destruct (C49_derivative x yC yH yO yN yS X N) as (h & cp & _ & E & D). rewrite E. exact D.
  - intros x Hx. assert (X : 0 < x) by (pose proof (Rmin_glb_lt _ _ _ H1 H2); lra).
    apply continuous_ext_loc with (fun t => 1000 * Rgas * atoms_per_kg yC yH yO yN yS * (einstein_cp 380 t + 2 * einstein_cp 1800 t)).
    + exists (mkposreal x X). intros t Ht. rewrite daf_Cp_ok; auto. unfold ball in Ht. cbn in Ht. unfold AbsRing_ball, abs, minus, plus, opp in Ht. cbn in Ht. unfold Rabs in Ht. destruct (Rcase_abs _) in Ht; lra.
    + assert (E1 : 1 < exp (380 / x)) by (apply exp_gt1, frac_ne; lra). assert (E2 : 1 < exp (1800 / x)) by (apply exp_gt1, frac_ne; lra). unfold Rdiv in E1, E2.
      apply (ex_derive_continuous (fun t => 1000 * Rgas * atoms_per_kg yC yH yO yN yS * (einstein_cp 380 t + 2 * einstein_cp 1800 t))). unfold einstein_cp. auto_derive. unfold Rdiv. repeat split; try lra; apply Rgt_not_eq, Rmult_lt_0_compat; lra.
Qed.
Print Assumptions C49_integral.
(** The heat capacity is positive and below 3 R per mole of atoms. *)
Theorem C49_bounds : forall T yC yH yO yN yS, 0 < T -> 0 < atoms_per_kg yC yH yO yN yS ->
  exists cp, daf_Cp T yC yH yO yN yS = Ok cp /\ 0 < cp < 3 * (1000 * Rgas * atoms_per_kg yC yH yO yN yS).
Proof.
  intros T yC yH yO yN yS HT N. eexists. split; [apply daf_Cp_ok; lra|]. set (n := atoms_per_kg yC yH yO yN yS) in *.
  pose proof (einstein_range 380 T) as A. pose proof (einstein_range 1800 T) as B. set (k := 1000 * Rgas * n). assert (K : 0 < k) by (unfold k, Rgas; apply Rmult_lt_0_compat; lra).
  split; [apply Rmult_lt_0_compat; lra|]. rewrite (Rmult_comm 3). apply Rmult_lt_compat_l; lra.
Qed.
Print Assumptions C49_bounds.
Theorem C49_increasing : forall T1 T2 yC yH yO yN yS, 0 < T1 < T2 -> 0 < atoms_per_kg yC yH yO yN yS ->
  exists h1 h2, daf_H T1 yC yH yO yN yS = Ok h1 /\ daf_H T2 yC yH yO yN yS = Ok h2 /\ h1 < h2.
Proof.
  intros T1 T2 yC yH yO yN yS HT N. set (f := fun t => value (daf_H t yC yH yO yN yS)).
  destruct (MVT_gen f T1 T2 (fun t => value (daf_Cp t yC yH yO yN yS))) as (c & Hc & E).
  - rewrite Rmin_left, Rmax_right by lra. intros x Hx. destruct (C49_derivative x yC yH yO yN yS) as (h & cp & _ & E & D); [lra|lra|]. rewrite E. exact D.
  - rewrite Rmin_left, Rmax_right by lra. intros x Hx. destruct (C49_derivative x yC yH yO yN yS) as (h & cp & _ & E & D); [lra|lra|]. apply continuity_pt_filterlim, (ex_derive_continuous f). eexists. exact D.
  - rewrite Rmin_left, Rmax_right in Hc by lra. destruct (C49_bounds c yC yH yO yN yS) as (cp & Ec & P & _); [lra|auto|]. rewrite Ec in E. cbn [value] in E.
    destruct (C49_derivative T1 yC yH yO yN yS) as (h1 & _ & E1 & _); [lra|lra|]. destruct (C49_derivative T2 yC yH yO yN yS) as (h2 & _ & E2 & _); [lra|lra|]. exists h1, h2. split; auto. split; auto.
    unfold f in E. rewrite E1, E2 in E. cbn [value] in E. assert (0 < cp * (T2 - T1)) by (apply Rmult_lt_0_compat; lra). lra.
Qed.
Print Assumptions C49_increasing.
(** The enthalpy is counted from 0 K, not from 298.15 K: it is positive and at
    most 3 R T per mole of atoms, so it vanishes only as T goes to 0. *)
Theorem C49_zero_point : forall T yC yH yO yN yS, 0 < T -> 0 < atoms_per_kg yC yH yO yN yS ->
  exists h, daf_H T yC yH yO yN yS = Ok h /\ 0 < h < 3 * (1000 * Rgas * atoms_per_kg yC yH yO yN yS) * T.
Proof.
  intros T yC yH yO yN yS HT N. eexists. split; [apply daf_H_ok; lra|]. set (n := atoms_per_kg yC yH yO yN yS) in *. set (k := 1000 * Rgas * n). assert (K : 0 < k) by (unfold k, Rgas; apply Rmult_lt_0_compat; lra).
  assert (G : forall th, 0 < th -> 0 < einstein_energy th T < T).
  { intros th Hth. unfold einstein_energy. pose proof (frac_ne th T Hth HT) as Z. pose proof (exp_ineq1 (th / T)) as Q. assert (Q' : th / T < exp (th / T) - 1) by (assert (th / T <> 0) by lra; lra).
    split; [apply Rdiv_lt_0_compat; lra|]. apply Rmult_lt_reg_r with (exp (th / T) - 1); [lra|]. unfold Rdiv at 1. rewrite Rmult_assoc, Rinv_l by lra. rewrite Rmult_1_r.
    apply Rle_lt_trans with (T * (th / T)); [right; field; lra|]. apply Rmult_lt_compat_l; lra. }
  pose proof (G 380) as A. pose proof (G 1800) as B. split; [apply Rmult_lt_0_compat; lra|]. rewrite (Rmult_comm 3), Rmult_assoc. apply Rmult_lt_compat_l; lra.
Qed.
Print Assumptions C49_zero_point.
Theorem C49_zero_temperature : forall yC yH yO yN yS, atoms_per_kg yC yH yO yN yS <> 0 ->
  daf_H 0 yC yH yO yN yS = Err ZeroDivisionError /\ daf_Cp 0 yC yH yO yN yS = Err ZeroDivisionError.
Proof.
  intros yC yH yO yN yS N. unfold daf_H, daf_Cp. rewrite calc_a_ok by auto. cbn [bind]. rewrite P_ThermoApi.rdiv_ok by (apply Rmult_integral_contrapositive; split; [apply Rmult_integral_contrapositive; split; [lra|now apply Rinv_neq_0_compat]|lra]). cbn [bind].
  unfold rdiv. destruct (Req_EM_T 0 0); [split; reflexivity|congruence].
Qed.
Print Assumptions C49_zero_temperature.
(** Bituminous coal, the composition of the module's own test. *)
Example C49_example : 0 < atoms_per_kg 0.8271423317 0.0442564668 0.1034694128 0.020228025 0.0049037636.
Proof. unfold atoms_per_kg. lra. Qed.
