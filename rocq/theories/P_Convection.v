(** Proofs about natural convection. *)
From Verif Require Import Prelude M_Lists M_Thermochem M_ThermoMat M_Coals M_Stoichiometry M_Physical M_Transport Spec_Transport P_Physical P_Transport.
From Coq Require Import Reals Lra Lia Psatz.
Local Open Scope list_scope.
Local Open Scope R_scope.

Lemma npow_power x y : 0 <= x -> 0 < y -> npow x y = Ok (power x y).
Proof.
  intros X Y. unfold npow, power. destruct (Rlt_dec x 0); [lra|]. destruct (Req_EM_T x 0); auto. destruct (Rlt_dec 0 y); [reflexivity|lra].
Qed.
Lemma power_nonneg x y : 0 <= power x y.
Proof. unfold power. destruct (Req_EM_T x 0); [lra|]. unfold Rpower. left. apply exp_pos. Qed.
Lemma power_pos x y : 0 < x -> 0 < power x y.
Proof. intros X. unfold power. destruct (Req_EM_T x 0); [lra|]. unfold Rpower. apply exp_pos. Qed.
Lemma power_inc x z y : 0 <= x -> x < z -> 0 < y -> power x y < power z y.
Proof.
  intros X Z Y. unfold power. destruct (Req_EM_T z 0); [lra|]. destruct (Req_EM_T x 0); [unfold Rpower; apply exp_pos|]. unfold Rpower. apply exp_increasing. apply Rmult_lt_compat_l; auto. apply ln_increasing; lra.
Qed.
Lemma correlate_ok c Ra Pr : 0 <= Ra -> 0 < Pr -> correlate c Ra Pr = Ok (nusselt c Ra Pr).
Proof.
  intros A B. assert (Q : 0 < Pr / (952 / 1000 + Pr)) by (apply Rdiv_lt_0_compat; lra). assert (Q' : 0 < 492 / 1000 / Pr) by (apply Rdiv_lt_0_compat; lra).
  assert (D : 0 <= power (492 / 1000 / Pr) (9 / 16)) by apply power_nonneg.
  assert (D' : 0 < power (1 + power (492 / 1000 / Pr) (9 / 16)) (4 / 9)) by (apply power_pos; lra).
  destruct c; unfold correlate; rewrite npow_power by lra; cbn [bind]; unfold nusselt;
    replace 0.678 with (678 / 1000) by lra; replace 0.952 with (952 / 1000) by lra; replace 0.492 with (492 / 1000) by lra; replace 0.67 with (67 / 100) by lra; replace 0.68 with (68 / 100) by lra;
    replace 0.58 with (58 / 100) by lra; replace 0.59 with (59 / 100) by lra; replace 0.1 with (1 / 10) by lra; auto.
  - rewrite rdiv_ok by lra. cbn [bind]. rewrite npow_power by lra. reflexivity.
  - rewrite rdiv_ok by lra. cbn [bind]. rewrite npow_power by lra. cbn [bind]. rewrite npow_power by lra. cbn [bind]. rewrite rdiv_ok by lra. reflexivity.
  - rewrite rdiv_ok by lra. cbn [bind]. rewrite npow_power by lra. cbn [bind]. rewrite npow_power by lra. cbn [bind]. rewrite rdiv_ok by lra. reflexivity.
Qed.
Lemma correlate_neg c Ra Pr : Ra < 0 -> correlate c Ra Pr = Err NonFinite.
Proof. intros A. destruct c; unfold correlate; now rewrite npow_neg. Qed.
Lemma nusselt_inc c Ra Ra' Pr : 0 <= Ra -> Ra < Ra' -> 0 < Pr -> nusselt c Ra Pr < nusselt c Ra' Pr.
Proof.
  intros A B P. assert (Q : 0 < Pr / (0.952 + Pr)) by (apply Rdiv_lt_0_compat; lra).
  assert (D' : 0 < power (1 + power (0.492 / Pr) (9 / 16)) (4 / 9)) by (apply power_pos; pose proof (power_nonneg (0.492 / Pr) (9 / 16)); lra).
  assert (I : forall y, 0 < y -> power Ra y < power Ra' y) by (intros; now apply power_inc).
  assert (I4 := I (1 / 4)). assert (I5 := I (1 / 5)). assert (I3 := I (1 / 3)).
  destruct c; unfold nusselt; try lra.
  - apply Rmult_lt_compat_r; [now apply power_pos|lra].
  - apply Rplus_lt_compat_l. apply Rmult_lt_compat_r; [now apply Rinv_0_lt_compat|lra].
  - apply Rplus_lt_compat_l. apply Rmult_lt_compat_r; [now apply Rinv_0_lt_compat|lra].
Qed.
Lemma nusselt_pos c Ra Pr : 0 < Ra -> 0 < Pr -> 0 < nusselt c Ra Pr.
Proof.
  intros A P. apply Rle_lt_trans with (nusselt c 0 Pr); [|apply nusselt_inc; lra]. assert (Z : forall y, power 0 y = 0) by (intros y; unfold power; destruct (Req_EM_T 0 0); [auto|contradiction]).
  destruct c; unfold nusselt; rewrite Z; unfold Rdiv; lra.
Qed.
Lemma Nu_x_ok m (isgas : bool) (L theta Ts : R) (st : state) (Tf b v a : R) : number_of "T" st = Ok Tf ->
  property m "beta" (at_T (if isgas then Tf else film_T isgas Ts Tf)) = Ok b -> nu m (at_T (film_T isgas Ts Tf)) = Ok v -> alpha m (at_T (film_T isgas Ts Tf)) = Ok a -> v <> 0 -> a <> 0 ->
  let ra := rayleigh (effective_g theta Ts Tf) b (Ts - Tf) L v a in
  Nu_x m isgas L theta Ts st = do c <- select theta ra; correlate c ra (v / a).
Proof.
  intros ET EB EV EA V A ra. unfold Nu_x. rewrite ET. cbn [bind]. rewrite EB. cbn [bind]. rewrite EV. cbn [bind]. rewrite EA. cbn [bind]. unfold Gr. rewrite rdiv_ok by now apply pow_nonzero. cbn [bind]. unfold Pr. rewrite rdiv_ok by auto. cbn [bind].
  replace (effective_g theta Ts Tf * b * (Ts - Tf) * L ^ 3 / v ^ 2 * (v / a)) with ra; [reflexivity|]. unfold ra, rayleigh. field. auto.
Qed.
Lemma effective_g_pos theta Ts Tf : 0 < effective_g theta Ts Tf.
Proof.
  assert (G : 0 < const_g) by (unfold const_g; lra). assert (C : -90 < theta < 90 -> 0 < const_g * cos (theta * PI / 180)).
  { intros H. apply Rmult_lt_0_compat; auto. pose proof PI_RGT_0. apply cos_gt_0; unfold Rdiv; nra. }
  unfold effective_g. destruct (Rlt_dec Tf Ts); [destruct (Rlt_dec 0 theta); auto; destruct (Rlt_dec theta 45); auto; apply C; lra|destruct (Rlt_dec (-45) theta); auto; destruct (Rlt_dec theta 0); auto; apply C; lra].
Qed.
Lemma rayleigh_pos g b dT L v a : 0 < g -> 0 < b -> 0 < dT -> 0 < L -> 0 < v -> 0 < a -> 0 < rayleigh g b dT L v a.
Proof. intros. unfold rayleigh. apply Rdiv_lt_0_compat; [|now apply Rmult_lt_0_compat]. apply Rmult_lt_0_compat; [|now apply pow_lt]. apply Rmult_lt_0_compat; auto. now apply Rmult_lt_0_compat. Qed.
Lemma rayleigh_neg g b dT L v a : 0 < g -> 0 < b -> dT < 0 -> 0 < L -> 0 < v -> 0 < a -> rayleigh g b dT L v a < 0.
Proof. intros. assert (P := rayleigh_pos g b (- dT) L v a). unfold rayleigh in *. replace (g * b * dT * L ^ 3 / (v * a)) with (- (g * b * - dT * L ^ 3 / (v * a))) by (field; split; lra). lra. Qed.
Lemma alpha_ok (m : fluid) st k rho Cp : lookup "alpha" m = None -> property m "k" st = Ok k -> property m "rho" st = Ok rho -> property m "Cp" st = Ok Cp -> rho <> 0 -> Cp <> 0 -> alpha m st = Ok (k / rho / Cp).
Proof. intros N K R C A B. unfold alpha. rewrite N, K, R. cbn [bind]. rewrite ndiv_ok by auto. cbn [bind]. rewrite C. cbn [bind]. now apply ndiv_ok. Qed.
Lemma nu_ok (m : fluid) st mu rho : lookup "nu" m = None -> property m "mu" st = Ok mu -> property m "rho" st = Ok rho -> rho <> 0 -> nu m st = Ok (mu / rho).
Proof. intros N K R A. unfold nu. rewrite N, K, R. cbn [bind]. now apply ndiv_ok. Qed.
