(** C50-C52, C69: transport phenomena. *)
From Verif Require Import Prelude M_Lists M_Thermochem M_ThermoMat M_Coals M_Stoichiometry M_Physical M_Transport M_Data_Fluids M_Fluids Spec_Physical Spec_Transport P_Content P_Convert P_PolyZ P_Poly P_Physical P_Fluids P_Transport P_Convection P_Pressure Properties_Physical Properties_Fluids.
From Coq Require Import Reals Qreals Lra Lia.
Local Open Scope list_scope.
Local Open Scope R_scope.

(** * C51: dimensionless quantities *)
Theorem C51_ratios : forall L v nu alpha h k D dT beta g Tf, nu <> 0 -> alpha <> 0 -> k <> 0 -> D <> 0 ->
  Re L v nu = Ok (v * L / nu) /\ Pr nu alpha = Ok (nu / alpha) /\ Nu L h k = Ok (h * L / k) /\ Sh L h D = Ok (h * L / D) /\
  Gr L (Tf + dT) Tf beta nu g = Ok (g * beta * dT * L ^ 3 / nu ^ 2).
Proof.
  intros L v nu alpha h k D dT beta g Tf A B C E. unfold Re, Pr, Nu, Sh, Gr. rewrite !rdiv_ok by (try apply pow_nonzero; auto). repeat split; auto. apply f_equal. f_equal. ring.
Qed.
Print Assumptions C51_ratios.
(** A zero denominator raises; nothing else does. *)
Theorem C51_zero_denominator : forall L v h Ts Tf beta g,
  Re L v 0 = Err ZeroDivisionError /\ Pr v 0 = Err ZeroDivisionError /\ Nu L h 0 = Err ZeroDivisionError /\ Sh L h 0 = Err ZeroDivisionError /\ Gr L Ts Tf beta 0 g = Err ZeroDivisionError.
Proof. intros. unfold Re, Pr, Nu, Sh, Gr. replace (0 ^ 2) with 0 by ring. rewrite !rdiv_0. auto. Qed.
Print Assumptions C51_zero_denominator.
(** Units of length, time and temperature changed by factors l, t and th leave the
    numbers as they are: velocity is length / time, nu and alpha are length^2 / time,
    g is length / time^2, beta is 1 / temperature.  Nu and Sh: h is k / length. *)
Theorem C51_units : forall l t th L v nu alpha Ts Tf beta g, l <> 0 -> t <> 0 -> th <> 0 ->
  Re (l * L) (l / t * v) (l ^ 2 / t * nu) = Re L v nu /\
  Pr (l ^ 2 / t * nu) (l ^ 2 / t * alpha) = Pr nu alpha /\
  Gr (l * L) (th * Ts) (th * Tf) (beta / th) (l ^ 2 / t * nu) (l / t ^ 2 * g) = Gr L Ts Tf beta nu g.
Proof.
  intros l t th L v nu alpha Ts Tf beta g A B C. assert (K : l ^ 2 / t <> 0) by (apply Rmult_integral_contrapositive; split; [now apply pow_nonzero|now apply Rinv_neq_0_compat]).
  unfold Re, Pr, Gr. repeat split.
  - destruct (Req_EM_T nu 0) as [->|N]; [rewrite Rmult_0_r, !rdiv_0; auto|]. rewrite !rdiv_ok by (auto using Rmult_integral_contrapositive_currified). apply f_equal. field. auto.
  - destruct (Req_EM_T alpha 0) as [->|N]; [rewrite Rmult_0_r, !rdiv_0; auto|]. rewrite !rdiv_ok by (auto using Rmult_integral_contrapositive_currified). apply f_equal. field. auto.
  - destruct (Req_EM_T nu 0) as [->|N]; [rewrite Rmult_0_r; replace (0 ^ 2) with 0 by ring; rewrite !rdiv_0; auto|]. rewrite !rdiv_ok; [|now apply pow_nonzero|apply pow_nonzero; now apply Rmult_integral_contrapositive]. apply f_equal. field. auto.
Qed.
Print Assumptions C51_units.
Theorem C51_units_transfer : forall l c L h k D, l <> 0 -> c <> 0 -> Nu (l * L) (c / l * h) (c * k) = Nu L h k /\ Sh (l * L) (c / l * h) (c * D) = Sh L h D.
Proof.
  intros l c L h k D A C. unfold Nu, Sh. split.
  - destruct (Req_EM_T k 0) as [->|N]; [rewrite Rmult_0_r, !rdiv_0; auto|]. rewrite !rdiv_ok by (auto using Rmult_integral_contrapositive_currified). apply f_equal. field. auto.
  - destruct (Req_EM_T D 0) as [->|N]; [rewrite Rmult_0_r, !rdiv_0; auto|]. rewrite !rdiv_ok by (auto using Rmult_integral_contrapositive_currified). apply f_equal. field. auto.
Qed.
Print Assumptions C51_units_transfer.
(** Grashof times Prandtl is the Rayleigh number. *)
Theorem C51_gr_pr : forall L Ts Tf beta nu alpha g, nu <> 0 -> alpha <> 0 -> exists gr pr, Gr L Ts Tf beta nu g = Ok gr /\ Pr nu alpha = Ok pr /\ gr * pr = rayleigh g beta (Ts - Tf) L nu alpha.
Proof.
  intros L Ts Tf beta nu alpha g A B. unfold Gr, Pr. rewrite !rdiv_ok by (try apply pow_nonzero; auto). do 2 eexists. split; [reflexivity|]. split; [reflexivity|]. unfold rayleigh. field. auto.
Qed.
Print Assumptions C51_gr_pr.
(** But the function for the Rayleigh number never returns. *)
Theorem C51_Ra_refuted : forall L Ts Tf alpha beta nu, Ra L Ts Tf alpha beta nu = Err NameError.
Proof. reflexivity. Qed.
Print Assumptions C51_Ra_refuted.
Example C51_example : Re 2 3 (1 / 2) = Ok 12. Proof. unfold Re. rewrite rdiv_ok by lra. apply f_equal. lra. Qed.

(** * C52: pressure drop *)
(** Hagen and Poiseuille: the laminar friction factor at the Reynolds number of the
    flow gives a pressure drop of 32 mu L v / D^2. *)
Theorem C52_hagen_poiseuille : forall D v mu rho L, D <> 0 -> v <> 0 -> mu <> 0 -> rho <> 0 -> exists re f, Re D v (mu / rho) = Ok re /\ f_l re = Ok f /\ delta_p f L D rho v = Ok (32 * mu * L * v / D ^ 2).
Proof.
  intros D v mu rho L A B C E. assert (N : mu / rho <> 0) by (apply Rmult_integral_contrapositive; split; auto; now apply Rinv_neq_0_compat).
  unfold Re. rewrite rdiv_ok by auto. eexists. eexists. split; [reflexivity|]. assert (M : v * D / (mu / rho) <> 0) by (apply Rmult_integral_contrapositive; split; [now apply Rmult_integral_contrapositive|now apply Rinv_neq_0_compat]).
  unfold f_l. rewrite rdiv_ok by auto. split; [reflexivity|]. unfold delta_p. rewrite rdiv_ok by auto. cbn [bind]. apply f_equal. field. auto.
Qed.
Print Assumptions C52_hagen_poiseuille.
(** The hydraulic diameter of a circle of diameter d is d, of a square of side a is a, of a rectangle 2 a b / (a + b). *)
Theorem C52_hydraulic_diameter : (forall d, d <> 0 -> D_h (PI * d ^ 2 / 4) (PI * d) = Ok d) /\ (forall a b, a + b <> 0 -> D_h (a * b) (2 * (a + b)) = Ok (2 * a * b / (a + b))) /\ forall A, D_h A 0 = Err ZeroDivisionError.
Proof.
  pose proof PI_RGT_0. unfold D_h. repeat split.
  - intros d N. rewrite rdiv_ok by (apply Rmult_integral_contrapositive; split; lra). apply f_equal. field. split; lra.
  - intros a b N. rewrite rdiv_ok by lra. apply f_equal. field. auto.
  - intros A. apply rdiv_0.
Qed.
Print Assumptions C52_hydraulic_diameter.
(** Darcy-Weisbach: linear in the friction factor, the length and the density, quadratic in the velocity, and additive for pipes in series. *)
Theorem C52_darcy_weisbach : forall f L D rho v, D <> 0 -> exists p, delta_p f L D rho v = Ok p /\
  (forall k, delta_p (k * f) L D rho v = Ok (k * p) /\ delta_p f (k * L) D rho v = Ok (k * p) /\ delta_p f L D (k * rho) v = Ok (k * p) /\ delta_p f L D rho (k * v) = Ok (k ^ 2 * p)) /\
  (forall L' p', delta_p f L' D rho v = Ok p' -> delta_p f (L + L') D rho v = Ok (p + p')) /\ (0 <= f -> 0 <= L -> 0 < D -> 0 <= rho -> 0 <= p).
Proof.
  intros f L D rho v N. unfold delta_p. rewrite rdiv_ok by auto. cbn [bind]. eexists. split; [reflexivity|]. split; [|split].
  - intros k. rewrite !rdiv_ok by auto. cbn [bind]. repeat split; apply f_equal; field; auto.
  - intros L' p' H. rewrite rdiv_ok in H by auto. injection H as <-. rewrite rdiv_ok by auto. cbn [bind]. apply f_equal. field. auto.
  - intros F HL HD HR. apply Rmult_le_pos; [apply Rmult_le_pos; auto; apply Rmult_le_pos; auto; left; now apply Rinv_0_lt_compat|]. pose proof (pow2_ge_0 v). assert (0 <= rho * v ^ 2) by now apply Rmult_le_pos. lra.
Qed.
Print Assumptions C52_darcy_weisbach.
(** The friction factor of smooth pipes: positive and strictly falling with the Reynolds number from 10 on. *)
Theorem C52_smooth : forall r1 r2 f1 f2, 10 <= r1 -> r1 < r2 -> f_ts r1 = Ok f1 -> f_ts r2 = Ok f2 -> 0 < f2 < f1.
Proof.
  intros r1 r2 f1 f2 A B H1 H2. rewrite f_ts_ok in H1 by lra. rewrite f_ts_ok in H2 by lra. injection H1 as <-. injection H2 as <-.
  assert (G : 1 <= lg r1) by (rewrite <- lg_10; destruct (Rle_lt_or_eq_dec _ _ A) as [L| <-]; [left; apply lg_inc; lra|lra]). assert (K := lg_inc r1 r2 ltac:(lra) B).
  split; [apply Rdiv_lt_0_compat; [lra|apply (pow_lt _ 2); lra]|apply (sq_div_lt (1.82 * lg r1 - 1.64) (1.82 * lg r2 - 1.64)); lra].
Qed.
Print Assumptions C52_smooth.
Theorem C52_smooth_defined : forall r, (10 <= r -> exists f, f_ts r = Ok f) /\ (r <= 0 -> f_ts r = Err ValueError).
Proof. intros r. split; intros H; [rewrite f_ts_ok by auto; eauto|]. unfold f_ts, log10. destruct (Rlt_dec 0 r); [lra|]. reflexivity. Qed.
Print Assumptions C52_smooth_defined.
(** Haaland: the friction factor falls with the Reynolds number and grows with the
    roughness, as long as the argument of its logarithm is below one (Re > 6.9 / (1 -
    (eps / 3.7 D)^1.11)). *)
Theorem C52_haaland : forall Re_D eps D, 0 < Re_D -> 0 <= eps -> 0 < D -> 6.9 / Re_D + power (eps / D / 3.7) 1.11 < 1 ->
  exists f, f_tr_Haaland Re_D eps D = Ok f /\ 0 < f /\
    (forall Re', Re_D < Re' -> exists f', f_tr_Haaland Re' eps D = Ok f' /\ 0 < f' < f) /\
    (forall eps', 0 <= eps' < eps -> exists f', f_tr_Haaland Re_D eps' D = Ok f' /\ 0 < f' < f) /\
    (forall k, 0 < k -> f_tr_Haaland Re_D (k * eps) (k * D) = Ok f).
Proof.
  intros Re_D eps D A B C H. change (haaland_arg Re_D eps D < 1) in H.
  assert (ARG : forall r e, 0 < r -> 0 <= e -> 0 < haaland_arg r e D). { intros r e P Q. unfold haaland_arg. assert (0 < 6.9 / r) by (apply Rdiv_lt_0_compat; lra). pose proof (power_nonneg (e / D / 3.7) 1.11). lra. }
  assert (POS : forall a, 0 < a < 1 -> 0 < 1 / (1.8 * lg a) ^ 2). { intros a P. pose proof (lg_inc a 1 ltac:(lra) ltac:(lra)). rewrite lg_1 in *. apply Rdiv_lt_0_compat; [lra|]. replace ((1.8 * lg a) ^ 2) with ((- (1.8 * lg a)) ^ 2) by ring. apply pow_lt. lra. }
  assert (P0 := ARG Re_D eps A B). eexists. split; [apply haaland_ok; auto; lra|]. split; [apply POS; lra|]. repeat split.
  - intros Re' L. assert (P1 := ARG Re' eps ltac:(lra) B). assert (Q : haaland_arg Re' eps D < haaland_arg Re_D eps D). { unfold haaland_arg. apply Rplus_lt_compat_r. apply Rmult_lt_compat_l; [lra|]. apply Rinv_lt_contravar; auto. apply Rmult_lt_0_compat; lra. }
    eexists. split; [apply haaland_ok; auto; lra|]. split; [apply POS; lra|]. apply haaland_lt; lra.
  - intros eps' [L0 L1]. assert (P1 := ARG Re_D eps' A L0). assert (Q : haaland_arg Re_D eps' D < haaland_arg Re_D eps D).
    { unfold haaland_arg. apply Rplus_lt_compat_l. apply power_inc; [|apply Rmult_lt_compat_r; [lra|]; apply Rmult_lt_compat_r; auto; now apply Rinv_0_lt_compat|lra]. apply Rmult_le_pos; [|lra]. apply Rmult_le_pos; auto. left. now apply Rinv_0_lt_compat. }
    eexists. split; [apply haaland_ok; auto; lra|]. split; [apply POS; lra|]. apply haaland_lt; lra.
  - intros k K. assert (E : haaland_arg Re_D (k * eps) (k * D) = haaland_arg Re_D eps D) by (unfold haaland_arg; f_equal; f_equal; field; split; lra).
    rewrite haaland_ok; [now rewrite E|auto|apply Rmult_le_pos; lra|apply Rmult_lt_0_compat; lra|rewrite E; lra].
Qed.
Print Assumptions C52_haaland.
(** A hydraulically smooth pipe at Re = 1e5 meets the hypotheses. *)
Example C52_example : exists f, f_tr_Haaland 100000 0 1 = Ok f /\ 0 < f.
Proof.
  destruct (C52_haaland 100000 0 1) as (f & H & P & _); try lra; [|eauto]. unfold power. replace (0 / 1 / 3.7) with 0 by lra. destruct (Req_EM_T 0 0); [lra|contradiction].
Qed.

(** * C69: the Colebrook equation *)
(** For a relative roughness below 3.7 the function whose root is asked for has
    exactly one positive root, it is strictly increasing, and so the root is
    bracketed by any two numbers where it has opposite signs. *)
Theorem C69_unique_root : forall Re_D eps D, 0 < Re_D -> 0 <= eps -> 0 < D -> eps < 3.7 * D ->
  exists f, 0 < f /\ colebrook f Re_D eps D = Ok 0 /\
    1 / sqrt f = - 2 * lg (eps / D / 3.7 + 2.51 / (Re_D * sqrt f)) /\
    forall g, 0 < g -> exists y, colebrook g Re_D eps D = Ok y /\ (g < f -> y < 0) /\ (f < g -> 0 < y).
Proof.
  intros Re_D eps D A B C E. assert (R : 0 <= eps / D / 3.7 < 1). { split; [apply Rmult_le_pos; [|lra]; apply Rmult_le_pos; auto; left; now apply Rinv_0_lt_compat|]. apply Rmult_lt_reg_r with (3.7 * D); [lra|]. unfold Rdiv. replace (eps * / D * / 3.7 * (3.7 * D)) with eps by (field; lra). lra. }
  assert (Q : 0 < 2.51 / Re_D) by (apply Rdiv_lt_0_compat; lra). destruct (colebrook_root _ _ R Q) as (f & F & Z). exists f. split; auto. split; [rewrite colebrook_ok by auto; now rewrite Z|]. split.
  - unfold colebrook_value in Z. assert (S := sqrt_lt_R0 f F). replace (2.51 / (Re_D * sqrt f)) with (2.51 / Re_D / sqrt f) by (field; split; lra). lra.
  - intros g G. rewrite colebrook_ok by auto. eexists. split; [reflexivity|]. split; intros L.
    + pose proof (colebrook_inc _ (2.51 / Re_D) g f (proj1 R) Q G L). lra.
    + pose proof (colebrook_inc _ (2.51 / Re_D) f g (proj1 R) Q F L). lra.
Qed.
Print Assumptions C69_unique_root.
(** For rougher pipes there is none. *)
Theorem C69_no_root : forall Re_D eps D f, 0 < Re_D -> 0 < D -> 3.7 * D <= eps -> 0 < f -> exists y, colebrook f Re_D eps D = Ok y /\ y < 0.
Proof.
  intros Re_D eps D f A C E F. rewrite colebrook_ok; auto; [|lra]. eexists. split; [reflexivity|]. apply colebrook_no_root; auto; [|apply Rdiv_lt_0_compat; lra].
  apply Rmult_le_reg_r with (3.7 * D); [lra|]. unfold Rdiv. replace (eps * / D * / 3.7 * (3.7 * D)) with eps by (field; lra). lra.
Qed.
Print Assumptions C69_no_root.
(** The function raises at zero and at negative numbers (where a root finder may step). *)
Theorem C69_outside : forall Re_D eps D f, Re_D <> 0 -> D <> 0 -> f <= 0 -> colebrook f Re_D eps D = Err (if Rlt_dec f 0 then ValueError else ZeroDivisionError).
Proof.
  intros Re_D eps D f A C F. unfold colebrook. rewrite !rdiv_ok by auto. cbn [bind]. destruct (Rlt_dec f 0); [reflexivity|]. replace f with 0 by lra. rewrite sqrt_0. cbn [bind]. now rewrite rdiv_0.
Qed.
Print Assumptions C69_outside.
Example C69_example : exists f, 0 < f /\ colebrook f 100000 0.0001 0.1 = Ok 0.
Proof. destruct (C69_unique_root 100000 0.0001 0.1) as (f & F & H & _); try lra. eauto. Qed.

(** * C50: natural convection on an inclined plate *)
(** Between -90 and 90 degrees the correlation is the one of the chart, with two exceptions. *)
Theorem C50_chart : forall theta Ra, -90 <= theta <= 90 -> (theta = 0 -> Ra <> 11) -> (theta = 88 -> 6 <= Ra) -> select theta Ra = Ok (chart theta Ra).
Proof. exact select_chart. Qed.
Print Assumptions C50_chart.
Theorem C50_vertical_refuted : select 0 11 = Ok Nu_8_27 /\ chart 0 11 = Nu_8_26.
Proof. split; [exact select_0_11|]. unfold chart. destruct (Rle_dec 0 (-52)); [lra|]. destruct (Rlt_dec 0 0); [lra|]. destruct (Rle_dec 0 0); [reflexivity|lra]. Qed.
Print Assumptions C50_vertical_refuted.
Theorem C50_horizontal_refuted : forall Ra, Ra < 6 -> select 88 Ra = Err IndexError.
Proof. exact select_88. Qed.
Print Assumptions C50_horizontal_refuted.
Theorem C50_outside : forall theta Ra, theta < -90 \/ 90 < theta -> select theta Ra = Err IndexError.
Proof. exact select_outside. Qed.
Print Assumptions C50_outside.
(** The correlations are the formulas, positive, and increase with the Rayleigh number. *)
Theorem C50_correlations : forall c Ra Pr, 0 < Ra -> 0 < Pr -> correlate c Ra Pr = Ok (nusselt c Ra Pr) /\ 0 < nusselt c Ra Pr /\ forall Ra', Ra < Ra' -> nusselt c Ra Pr < nusselt c Ra' Pr.
Proof. intros c Ra Pr A B. split; [apply correlate_ok; lra|]. split; [now apply nusselt_pos|]. intros Ra' L. apply nusselt_inc; lra. Qed.
Print Assumptions C50_correlations.
(** A surface hotter than the fluid: positive numbers, with the relations between them.
    Tr is the reference temperature: Ts - 0.38 (Ts - Tf) for gases, the mean for liquids;
    theta is not 88 (see above), and beta is taken at Tf for gases, at Tr for liquids. *)
Theorem C50_hot_surface : forall m (isgas : bool) L theta Ts st Tf b v a k,
  number_of "T" st = Ok Tf -> Tf < Ts -> 0 < L -> -90 <= theta <= 90 -> theta <> 0 -> theta <> 88 ->
  let Tr := if isgas then Ts - 0.38 * (Ts - Tf) else (Ts + Tf) / 2 in
  property m "beta" (at_T (if isgas then Tf else Tr)) = Ok b -> nu m (at_T Tr) = Ok v -> alpha m (at_T Tr) = Ok a -> property m "k" (at_T Tr) = Ok k -> 0 < b -> 0 < v -> 0 < a -> 0 < k ->
  let g := if Rlt_dec 0 theta then if Rlt_dec theta 45 then 9.80665 * cos (theta * PI / 180) else 9.80665 else 9.80665 in
  let ra := rayleigh g b (Ts - Tf) L v a in
  exists n h, 0 < ra /\ Nu_x m isgas L theta Ts st = Ok n /\ n = nusselt (chart theta ra) ra (v / a) /\ 0 < n /\ Nu_L m isgas L theta Ts st = Ok (n / 0.75) /\
    h_x m isgas L theta Ts st = Ok h /\ h * L / k = n /\ h_L m isgas L theta Ts st = Ok (h / 0.75).
Proof.
  intros m isgas L theta Ts st Tf b v a k HT D PL T T0 T88 Tr Hb Hv Ha Hk Pb Pv Pa Pk g ra.
  assert (F : film_T isgas Ts Tf = Tr) by (unfold film_T, Tr; destruct isgas; lra).
  assert (G : effective_g theta Ts Tf = g) by (unfold effective_g, g, const_g; destruct (Rlt_dec Tf Ts); [|lra]; destruct (Rlt_dec 0 theta); [destruct (Rlt_dec theta 45)|]; lra).
  assert (GP : 0 < g) by (rewrite <- G; apply effective_g_pos). assert (RP : 0 < ra) by (apply rayleigh_pos; auto; lra).
  assert (PR : 0 < v / a) by now apply Rdiv_lt_0_compat.
  assert (E : Nu_x m isgas L theta Ts st = Ok (nusselt (chart theta ra) ra (v / a))).
  { rewrite (Nu_x_ok m isgas L theta Ts st Tf b v a); auto; try lra; [|rewrite F; exact Hb|rewrite F; exact Hv|rewrite F; exact Ha]. rewrite G. fold ra. rewrite select_chart; auto; try contradiction. cbn [bind]. apply correlate_ok; lra. }
  exists (nusselt (chart theta ra) ra (v / a)), (nusselt (chart theta ra) ra (v / a) * k / L). assert (NP := nusselt_pos (chart theta ra) ra (v / a) RP PR).
  split; auto. split; auto. split; auto. split; auto. unfold Nu_L, h_x, h_L. unfold Nu_L. rewrite E. cbn [bind]. rewrite HT. cbn [bind]. rewrite F, Hk. cbn [bind]. rewrite !rdiv_ok by lra.
  split; [apply f_equal; lra|]. split; [reflexivity|]. split; [field; lra|]. apply f_equal. replace 0.75 with (75 / 100) by lra. field. lra.
Qed.
Print Assumptions C50_hot_surface.
(** A surface colder than the fluid never gets a real number: the Rayleigh number is
    negative and its roots are not real. *)
Theorem C50_cold_surface_refuted : forall m (isgas : bool) L theta Ts st Tf b v a,
  number_of "T" st = Ok Tf -> Ts < Tf -> 0 < L ->
  let Tr := if isgas then Ts - 0.38 * (Ts - Tf) else (Ts + Tf) / 2 in
  property m "beta" (at_T (if isgas then Tf else Tr)) = Ok b -> nu m (at_T Tr) = Ok v -> alpha m (at_T Tr) = Ok a -> 0 < b -> 0 < v -> 0 < a ->
  forall n, Nu_x m isgas L theta Ts st <> Ok n.
Proof.
  intros m isgas L theta Ts st Tf b v a HT D PL Tr Hb Hv Ha Pb Pv Pa n. assert (F : film_T isgas Ts Tf = Tr) by (unfold film_T, Tr; destruct isgas; lra).
  rewrite (Nu_x_ok m isgas L theta Ts st Tf b v a); auto; try lra; [|rewrite F; exact Hb|rewrite F; exact Hv|rewrite F; exact Ha].
  assert (RN : rayleigh (effective_g theta Ts Tf) b (Ts - Tf) L v a < 0) by (apply rayleigh_neg; auto; [apply effective_g_pos|lra]).
  destruct (select theta _); cbn [bind]; [rewrite correlate_neg by auto|]; discriminate.
Qed.
Print Assumptions C50_cold_surface_refuted.
(** Without a temperature of the fluid the call raises. *)
Theorem C50_no_temperature : forall m isgas L theta Ts st, lookup "T" st = None -> Nu_x m isgas L theta Ts st = Err KeyError /\ h_x m isgas L theta Ts st = Err KeyError.
Proof. intros m isgas L theta Ts st H. unfold h_x, Nu_x, number_of. rewrite H. auto. Qed.
Print Assumptions C50_no_temperature.
(** For every shipped gas: whenever its properties are there, a hot surface gets a
    positive heat transfer coefficient. *)
Theorem C50_shipped_gases : forall c m L theta Ts Tf b v a k, In (c, m) gases -> Tf < Ts -> 0 < L -> -90 <= theta <= 90 -> theta <> 0 -> theta <> 88 ->
  let Tr := Ts - 0.38 * (Ts - Tf) in
  property m "beta" (at_T Tf) = Ok b -> nu m (at_T Tr) = Ok v -> alpha m (at_T Tr) = Ok a -> property m "k" (at_T Tr) = Ok k ->
  exists n h, Nu_x m true L theta Ts (at_T Tf) = Ok n /\ 0 < n /\ h_x m true L theta Ts (at_T Tf) = Ok h /\ 0 < h /\ h * L = n * k.
Proof.
  intros c m L theta Ts Tf b v a k I D PL T T0 T88 Tr Hb Hv Ha Hk.
  assert (Pb : 0 < b) by (apply (C67_gases_positive c m "beta" Tf b I); auto; cbn; tauto). assert (Pk : 0 < k) by (apply (C67_gases_positive c m "k" Tr k I); auto; cbn; tauto).
  assert (Pv : 0 < v) by (apply (C67_gases_derived_positive c m Tr v I); auto). assert (Pa : 0 < a) by (apply (C67_gases_derived_positive c m Tr a I); auto).
  destruct (C50_hot_surface m true L theta Ts (at_T Tf) Tf b v a k (number_T Tf) D PL T T0 T88 Hb Hv Ha Hk Pb Pv Pa Pk) as (n & h & _ & E & _ & P & _ & H & R & _).
  assert (R' : h * L = n * k) by (rewrite <- R; field; lra). exists n, h. repeat split; auto. apply Rmult_lt_reg_r with L; auto. rewrite R', Rmult_0_l. now apply Rmult_lt_0_compat.
Qed.
Print Assumptions C50_shipped_gases.
(** A fluid with constant properties meets the hypotheses of C50_hot_surface. *)
Example C50_example : exists n, Nu_x [("beta"%string, fun _ => Ok (1 / 300)); ("nu"%string, fun _ => Ok 0.000015); ("alpha"%string, fun _ => Ok 0.00002); ("k"%string, fun _ => Ok 0.025)] true 1 30 400 (at_T 300) = Ok n /\ 0 < n.
Proof.
  set (m := [("beta"%string, _); _; _; _]).
  destruct (C50_hot_surface m true 1 30 400 (at_T 300) 300 (1 / 300) 0.000015 0.00002 0.025) as (n & h & _ & E & _ & P & _); try reflexivity; try lra. eauto.
Qed.
