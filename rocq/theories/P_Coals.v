(** Proofs about the coal models. *)
From Verif Require Import Prelude M_Stoichiometry M_Thermochem M_Coals Spec_Coals P_ThermoApi.
From Coq Require Import Reals Lra.
From Coquelicot Require Import Coquelicot.
Local Open Scope R_scope.

Lemma mm_values : mm "C" = Ok 12.0107 /\ mm "H" = Ok 1.00794 /\ mm "O" = Ok 15.9994 /\ mm "N" = Ok 14.00674 /\ mm "S" = Ok 32.066.
Proof.
  assert (G : forall c q x, molar_mass (Some c) = Ok q -> Q2R (this q) = x -> mm c = Ok x) by (intros c q x E <-; unfold mm; now rewrite E).
  repeat split; (eapply G; [vm_compute; reflexivity|]); unfold Q2R; cbn; lra.
Qed.
Lemma calc_a_ok yC yH yO yN yS : atoms_per_kg yC yH yO yN yS <> 0 -> calc_a yC yH yO yN yS = Ok (1 / atoms_per_kg yC yH yO yN yS).
Proof.
  intros N. unfold calc_a. destruct mm_values as (-> & -> & -> & -> & ->). cbn [bind]. do 5 (rewrite rdiv_ok by lra; cbn [bind]). apply rdiv_ok. exact N.
Qed.
Lemma Rgas_ok : Rgas = gas_constant. Proof. unfold Rgas, gas_constant. lra. Qed.
Lemma exp_gt1 z : 0 < z -> 1 < exp z. Proof. intros H. rewrite <- exp_0. now apply exp_increasing. Qed.
Lemma exp_ne1 z : z <> 0 -> exp z - 1 <> 0.
Proof. intros H E. apply H. apply exp_inv. rewrite exp_0. lra. Qed.
Lemma frac_ne th T : 0 < th -> 0 < T -> 0 < th / T. Proof. intros A B. apply Rdiv_lt_0_compat; auto. Qed.
Lemma g0_ok th T : 0 < th -> 0 < T -> calc_g0 (th / T) = Ok (1 / (exp (th / T) - 1)).
Proof. intros A B. unfold calc_g0. apply rdiv_ok. pose proof (exp_gt1 _ (frac_ne th T A B)). lra. Qed.
Lemma g1_ok th T : 0 < th -> 0 < T -> calc_g1 (th / T) = Ok (einstein_cp th T).
Proof.
  intros A B. pose proof (frac_ne th T A B) as Z. pose proof (exp_gt1 _ Z) as E. unfold calc_g1. rewrite rdiv_ok by lra. cbn [bind]. set (z := th / T) in *.
  assert (P : 0 < (exp z - 1) / z) by (apply Rdiv_lt_0_compat; lra). rewrite rdiv_ok by (apply Rgt_not_eq, pow_lt, P). f_equal. unfold einstein_cp. fold z. field. split; [lra|lra].
Qed.
Lemma daf_H_ok T yC yH yO yN yS : 0 < T -> atoms_per_kg yC yH yO yN yS <> 0 ->
  daf_H T yC yH yO yN yS = Ok (1000 * Rgas * atoms_per_kg yC yH yO yN yS * (einstein_energy 380 T + 2 * einstein_energy 1800 T)).
Proof.
  intros HT N. unfold daf_H. rewrite calc_a_ok by auto. cbn [bind]. rewrite rdiv_ok by (apply Rmult_integral_contrapositive; split; [apply Rmult_integral_contrapositive; split; [lra|now apply Rinv_neq_0_compat]|lra]). cbn [bind].
  rewrite rdiv_ok by lra. cbn [bind]. rewrite g0_ok by lra. cbn [bind]. rewrite rdiv_ok by lra. cbn [bind]. rewrite g0_ok by lra. cbn [bind]. f_equal.
  rewrite Rgas_ok. unfold einstein_energy. assert (exp (380 / T) - 1 <> 0 /\ exp (1800 / T) - 1 <> 0) by (split; apply exp_ne1, Rgt_not_eq, frac_ne; lra). field. tauto.
Qed.
Lemma daf_Cp_ok T yC yH yO yN yS : 0 < T -> atoms_per_kg yC yH yO yN yS <> 0 ->
  daf_Cp T yC yH yO yN yS = Ok (1000 * Rgas * atoms_per_kg yC yH yO yN yS * (einstein_cp 380 T + 2 * einstein_cp 1800 T)).
Proof.
  intros HT N. unfold daf_Cp. rewrite calc_a_ok by auto. cbn [bind]. rewrite rdiv_ok by (apply Rmult_integral_contrapositive; split; [apply Rmult_integral_contrapositive; split; [lra|now apply Rinv_neq_0_compat]|lra]). cbn [bind].
  rewrite rdiv_ok by lra. cbn [bind]. rewrite g1_ok by lra. cbn [bind]. rewrite rdiv_ok by lra. cbn [bind]. rewrite g1_ok by lra. cbn [bind]. f_equal. rewrite Rgas_ok. field. auto.
Qed.
Lemma einstein_derive th T : 0 < th -> 0 < T -> is_derive (einstein_energy th) T (einstein_cp th T).
Proof.
  intros A B. pose proof (exp_gt1 _ (frac_ne th T A B)). unfold einstein_energy. auto_derive; [repeat split; unfold Rdiv in *; lra|]. unfold einstein_cp, Rdiv in *. field. split; lra.
Qed.
(** 2u < exp u - exp (-u) for u > 0. *)
Lemma sinh_gt u : 0 < u -> 2 * u < exp u - exp (- u).
Proof.
  intros Hu. set (h := fun x => exp x - exp (- x) - 2 * x). assert (D : forall x, is_derive h x (exp x + exp (- x) - 2)) by (intros x; unfold h; auto_derive; auto; ring).
  destruct (MVT_gen h 0 u (fun x => exp x + exp (- x) - 2)) as (c & Hc & E).
  - intros x _. apply D. - intros x _. apply continuity_pt_filterlim, (ex_derive_continuous h). eexists. apply D.
  - rewrite Rmin_left, Rmax_right in Hc by lra. destruct (Req_dec c 0) as [->|Nc].
    + (* derivative zero only at 0; use the middle instead *)
      assert (G : forall a b, 0 < a < b -> h a < h b).
      { intros a b [Ha Hb]. destruct (MVT_gen h a b (fun x => exp x + exp (- x) - 2)) as (c & Hc' & E'). - intros x _. apply D. - intros x _. apply continuity_pt_filterlim, (ex_derive_continuous h). eexists. apply D.
        - rewrite Rmin_left, Rmax_right in Hc' by lra. assert (P : 0 < exp c + exp (- c) - 2).
          { assert (Q : exp c + exp (- c) - 2 = (exp (c / 2) - exp (- c / 2)) ^ 2). { replace (exp c) with (exp (c / 2) * exp (c / 2)) by (rewrite <- exp_plus; f_equal; lra). replace (exp (- c)) with (exp (- c / 2) * exp (- c / 2)) by (rewrite <- exp_plus; f_equal; lra).
              assert (exp (c / 2) * exp (- c / 2) = 1) by (rewrite <- exp_plus; replace (c / 2 + - c / 2) with 0 by lra; apply exp_0). nra. }
            rewrite Q. apply pow_lt. assert (exp (- c / 2) < exp (c / 2)) by (apply exp_increasing; lra). lra. }
          assert (0 < (exp c + exp (- c) - 2) * (b - a)) by (apply Rmult_lt_0_compat; lra). lra. }
      assert (h (u / 2) < h u) by (apply G; lra). assert (0 <= h (u / 2)).
      { destruct (MVT_gen h 0 (u / 2) (fun x => exp x + exp (- x) - 2)) as (c & Hc' & E'). - intros x _. apply D. - intros x _. apply continuity_pt_filterlim, (ex_derive_continuous h). eexists. apply D.
        - assert (h 0 = 0) by (unfold h; rewrite Ropp_0, exp_0; ring). assert (P : 0 <= exp c + exp (- c) - 2).
          { assert (Q : exp c + exp (- c) - 2 = (exp (c / 2) - exp (- c / 2)) ^ 2). { replace (exp c) with (exp (c / 2) * exp (c / 2)) by (rewrite <- exp_plus; f_equal; lra). replace (exp (- c)) with (exp (- c / 2) * exp (- c / 2)) by (rewrite <- exp_plus; f_equal; lra).
              assert (exp (c / 2) * exp (- c / 2) = 1) by (rewrite <- exp_plus; replace (c / 2 + - c / 2) with 0 by lra; apply exp_0). nra. }
            rewrite Q. apply pow2_ge_0. }
          assert (0 <= (exp c + exp (- c) - 2) * (u / 2 - 0)) by (apply Rmult_le_pos; lra). lra. }
      unfold h in *. lra.
    + assert (P : 0 < exp c + exp (- c) - 2).
      { assert (Q : exp c + exp (- c) - 2 = (exp (c / 2) - exp (- c / 2)) ^ 2). { replace (exp c) with (exp (c / 2) * exp (c / 2)) by (rewrite <- exp_plus; f_equal; lra). replace (exp (- c)) with (exp (- c / 2) * exp (- c / 2)) by (rewrite <- exp_plus; f_equal; lra).
          assert (exp (c / 2) * exp (- c / 2) = 1) by (rewrite <- exp_plus; replace (c / 2 + - c / 2) with 0 by lra; apply exp_0). nra. }
        rewrite Q. apply pow_lt. assert (exp (- c / 2) < exp (c / 2)) by (apply exp_increasing; lra). lra. }
      assert (0 < (exp c + exp (- c) - 2) * (u - 0)) by (apply Rmult_lt_0_compat; lra). assert (h 0 = 0) by (unfold h; rewrite Ropp_0, exp_0; ring). unfold h in *. lra.
Qed.
Lemma einstein_range th T : 0 < th -> 0 < T -> 0 < einstein_cp th T < 1.
Proof.
  intros A B. pose proof (frac_ne th T A B) as Z. pose proof (exp_gt1 _ Z) as E. unfold einstein_cp. set (z := th / T) in *. pose proof (exp_pos z).
  split; [apply Rdiv_lt_0_compat; [apply Rmult_lt_0_compat; auto; apply pow_lt; auto|apply pow_lt; lra]|].
  apply Rmult_lt_reg_r with ((exp z - 1) ^ 2); [apply pow_lt; lra|]. unfold Rdiv. rewrite Rmult_assoc, Rinv_l by (apply pow_nonzero; lra). rewrite Rmult_1_r, Rmult_1_l.
  pose proof (sinh_gt (z / 2)) as S. assert (S' : z < exp (z / 2) - exp (- (z / 2))) by lra. set (s := exp (z / 2)) in *. set (t := exp (- (z / 2))) in *.
  assert (st : s * t = 1) by (unfold s, t; rewrite <- exp_plus; replace (z / 2 + - (z / 2)) with 0 by ring; apply exp_0). assert (ss : exp z = s * s) by (unfold s; rewrite <- exp_plus; f_equal; lra). assert (s0 : 0 < s) by apply exp_pos.
  rewrite ss. assert (Q : s * s - 1 = s * (s - t)) by nra. rewrite Q. replace (z ^ 2 * (s * s)) with ((s * z) * (s * z)) by ring. replace ((s * (s - t)) ^ 2) with ((s * (s - t)) * (s * (s - t))) by ring.
  assert (0 < s * z) by (apply Rmult_lt_0_compat; auto). assert (s * z < s * (s - t)) by (apply Rmult_lt_compat_l; auto). apply Rmult_le_0_lt_compat; lra.
Qed.
