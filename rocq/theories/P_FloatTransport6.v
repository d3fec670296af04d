(** The Colebrook equation in floats. *)
From Verif Require Import Prelude M_Lists M_Thermochem M_Stoichiometry Spec_Stoich M_Ieee Spec_Ieee P_Ieee M_FloatCompare M_FloatMix P_FloatMix M_FloatLoan P_FloatLoan M_FloatStoich Spec_FloatStoich P_Within P_FloatReports2 P_FloatLoan2
  P_FloatStoich P_FloatStoich2 P_FloatStoich3 Properties_FloatLoan P_FloatGas M_Physical M_Transport Spec_Transport P_Transport P_Convection Properties_Transport M_FloatTransport Spec_FloatTransport P_FloatTransport P_FloatTransport2 P_FloatTransport3 P_FloatTransport4 P_FloatTransport5.
From Coq Require Import Reals Qreals List Lra Lia.
From Flocq Require Import Core BinarySingleNaN.
Import ListNotations.
Local Open Scope list_scope.
Local Open Scope R_scope.

Lemma ulp_half_small : ulp_half <= / 1000000. Proof. apply Rle_trans with (/ 2 ^ 20); [unfold ulp_half; apply inv_pow_le; lia|cbn [pow]; lra]. Qed.
Lemma pow_upper n : INR n * ulp_half <= / 4 -> (1 + ulp_half) ^ n <= 1 + 2 * INR n * ulp_half.
Proof.
  pose proof ulp_half_pos as U. induction n as [|n IH]; [cbn [pow INR]; lra|]. intros H. rewrite S_INR in *. specialize (IH ltac:(nra)). cbn [pow]. pose proof (pos_INR n).
  apply Rle_trans with ((1 + ulp_half) * (1 + 2 * INR n * ulp_half)); [apply Rmult_le_compat_l; lra|]. assert (INR n * ulp_half * ulp_half <= / 4 * ulp_half) by (apply Rmult_le_compat_r; nra). nra.
Qed.
Lemma within_abs n x X : 0 <= X -> INR n * ulp_half <= / 8 -> within n x X -> Rabs (x - X) <= 3 * INR n * ulp_half * X.
Proof.
  intros P H W. pose proof ulp_half_pos as U. pose proof (pos_INR n) as I. assert (E : 0 <= INR n * ulp_half) by (apply Rmult_le_pos; lra). pose proof (pow_upper n ltac:(lra)) as B. pose proof (within_nonneg _ _ _ P W) as Px. destruct W as [W1 W2].
  assert (A : x <= X * (1 + 2 * INR n * ulp_half)) by (eapply Rle_trans; [exact W1|]; apply Rmult_le_compat_l; auto). assert (C : X <= x * (1 + 2 * INR n * ulp_half)) by (eapply Rle_trans; [exact W2|]; apply Rmult_le_compat_l; auto).
  set (e := INR n * ulp_half) in *. replace (3 * INR n * ulp_half * X) with (3 * (e * X)) by (unfold e; ring). replace (X * (1 + 2 * INR n * ulp_half)) with (X + 2 * (e * X)) in A by (unfold e; ring). replace (x * (1 + 2 * INR n * ulp_half)) with (x + 2 * (e * x)) in C by (unfold e; ring).
  assert (D : e * X <= / 8 * X) by (apply Rmult_le_compat_r; lra). assert (F : e * x <= e * (X + 2 * (e * X))) by (apply Rmult_le_compat_l; lra). assert (G : e * (e * X) <= e * (/ 8 * X)) by (apply Rmult_le_compat_l; lra). assert (0 <= e * X) by (apply Rmult_le_pos; lra).
  apply Rabs_le. nra.
Qed.
Lemma sqrt_near f : finite f -> 0.0025 <= value f <= 1 -> exists s, fsqrt f = Ok s /\ near 1 10 s (sqrt (value f)) /\ 0.05 <= sqrt (value f) <= 1.
Proof.
  intros F R. assert (S1 : 0.05 <= sqrt (value f) <= 1). { split; [|rewrite <- sqrt_1; apply sqrt_le_1; lra]. replace 0.05 with (sqrt (0.05 * 0.05)) by (apply sqrt_square; lra). apply sqrt_le_1; lra. }
  unfold fsqrt. rewrite (lt64_dec f zero64 F eq_refl), zero_value. destruct (Rlt_dec (value f) 0); [lra|]. eexists. split; [reflexivity|]. split; [|exact S1].
  pose proof (Bsqrt_correct 53 1024 _ _ mode_NE f) as (V & G & _). split.
  - unfold finite. rewrite G. destruct f as [| | |sg m e h]; try discriminate F; [reflexivity|]. destruct sg; [|reflexivity]. exfalso. assert (value (B754_finite true m e h) < 0); [|lra]. unfold value. cbn [B2R cond_Zopp]. apply F2R_lt_0. reflexivity.
  - split; [|apply ten_range; lra]. unfold value at 1. rewrite V. apply (rnd_within1 (sqrt (value f))). apply Rle_trans with (/ 2 ^ 10); [apply inv_pow_le; lia|cbn [pow]; lra].
Qed.
Lemma sub_abs x y : finite x -> finite y -> Rabs (value x - value y) <= 2 ^ 1019 -> finite (sub64 x y) /\ Rabs (value (sub64 x y) - (value x - value y)) <= 3 * ulp_half * Rabs (value x - value y).
Proof.
  intros Fx Fy B. destruct (P_FloatMix.sub_ok x y Fx Fy (rnd_small _ B)) as [F V]. split; [exact F|]. pose proof ulp_half_pos. assert (U8 : INR 1 * ulp_half <= / 8) by (cbn [INR]; pose proof ulp_half_small; lra).
  assert (Fny : finite (neg64 y)) by now apply neg_finite. pose proof (neg_value y) as Vn.
  destruct (Rle_dec 0 (value x - value y)) as [P|P].
  - rewrite sub_add in *. pose proof (add_within x (neg64 y) F ltac:(lra)) as W. replace (value x + value (neg64 y)) with (value x - value y) in W by lra. pose proof (within_abs 1 _ _ P U8 W) as A. cbn [INR] in A. rewrite (Rabs_pos_eq (value x - value y)) by auto. lra.
  - destruct (anti_sub x y Fx Fy F) as [Fa Va]. rewrite (sub_add y x) in *. assert (Fnx : finite (neg64 x)) by now apply neg_finite. pose proof (neg_value x) as Vx. pose proof (add_within y (neg64 x) Fa ltac:(lra)) as W. replace (value y + value (neg64 x)) with (value y - value x) in W by lra.
    pose proof (within_abs 1 (value (add64 y (neg64 x))) (value y - value x) ltac:(lra) U8 W) as A. cbn [INR] in A. rewrite (Rabs_left (value x - value y)) by lra. rewrite Va in A. rewrite <- Rabs_Ropp. replace (- (value (sub64 x y) - (value x - value y))) with (- value (sub64 x y) - (value y - value x)) by ring. lra.
Qed.
Theorem colebrook_float log64 f Re eps D : accurate_log log64 -> finite Re -> 4000 <= value Re <= 10 ^ 8 -> sized 40 eps -> sized 40 D -> value eps / value D <= 0.05 -> finite f -> 0.0025 <= value f <= 1 ->
  let L := - 2 * lg (value eps / value D / 3.7 + 2.51 / value Re / sqrt (value f)) in
  exists v, fcolebrook log64 f Re eps D = Ok v /\ finite v /\ Rabs (value v - (L - 1 / sqrt (value f))) <= 40 * ulp_half * (L + 1 / sqrt (value f)).
Proof.
  intros LOG F R Se SD HE Ff Rf L. unfold fcolebrook. assert (SR : sized 27 Re). { split; [exact F|]. split; [apply Rle_trans with (/ 2 ^ 0); [apply inv_pow_le; lia|rewrite pow_O, Rinv_1; lra]|]. eapply Rle_trans; [apply R|]. cbn [pow]. lra. }
  destruct (ndiv _ _ _ _ _ _ _ _ (near_sized _ _ Se) (near_sized _ _ SD) ltac:(lia) ltac:(lia) ltac:(lia)) as (-> & N1). cbn [bind].
  pose proof (near_lit 37 10 3.7 eq_refl ltac:(lra) ltac:(lia) ltac:(lia) ltac:(lra)) as B. destruct (ndiv _ _ _ _ _ _ _ _ N1 B ltac:(lia) ltac:(lia) ltac:(lia)) as (-> & N3). cbn [bind].
  pose proof (near_lit 251 100 2.51 eq_refl ltac:(lra) ltac:(lia) ltac:(lia) ltac:(lra)) as A. destruct (ndiv _ _ _ _ _ _ _ _ A (near_sized _ _ SR) ltac:(lia) ltac:(lia) ltac:(lia)) as (-> & N2). cbn [bind].
  destruct (sqrt_near f Ff Rf) as (s & -> & Ns & Rs). cbn [bind]. destruct (ndiv _ _ _ _ _ _ _ _ N2 Ns ltac:(lia) ltac:(lia) ltac:(lia)) as (-> & N4). cbn [bind].
  destruct (ndiv _ _ _ _ _ _ _ _ (near_whole 1 ltac:(lia)) Ns ltac:(lia) ltac:(lia) ltac:(lia)) as (DI & N5).
  set (E := value eps / value D / 3.7) in *. set (G := 2.51 / value Re / sqrt (value f)) in *.
  assert (NA : near 5 100 (add64 (div64 (div64 eps D) (literal64 (37 # 10))) (div64 (div64 (literal64 (251 # 100)) Re) s)) (E + G)). { change 5%nat with (S 4). change 100%nat with (S 99). apply near_add; [lia|lia| |]; [eapply near_wide; [| |exact N3]; lia|eapply near_wide; [| |exact N4]; lia]. }
  set (x := add64 _ _) in *. pose proof (near_pos _ _ _ _ NA) as [PA Px]. 
  assert (BA : E + G <= / 30).
  { assert (H1 : 2.51 / value Re <= 2.51 / 4000) by (apply Rmult_le_compat_l; [lra|apply Rinv_le_contravar; lra]). assert (HE' : E <= 0.05 / 3.7) by (unfold E; apply Rmult_le_compat_r; [lra|exact HE]).
    assert (H2 : G <= 2.51 / 4000 / 0.05). { unfold G. apply Rle_trans with (2.51 / 4000 / sqrt (value f)); [apply Rmult_le_compat_r; [left; apply Rinv_0_lt_compat; lra|exact H1]|]. apply Rmult_le_compat_l; [lra|apply Rinv_le_contravar; lra]. }
    lra. }
  destruct NA as (Fx & Wx & Rx). assert (Bx : value x <= / 10) by (destruct (within_two 5 (value x) (E + G) ltac:(lia) ltac:(lra) Wx); lra).
  unfold flog10. assert (Z : le64 x zero64 = false). { rewrite (le64_spec x zero64 Fx eq_refl). rewrite zero_value. destruct (Rle_dec (value x) 0); [lra|reflexivity]. } rewrite Z. cbn [bind]. rewrite DI. cbn [bind].
  destruct (LOG x Fx Px ltac:(lra)) as [Fl El]. pose proof (lg_within 5 (value x) (E + G) (conj Px Bx) (conj PA (Rle_trans (E + G) (/30) (/10) BA ltac:(lra))) Wx) as WL.
  assert (L1 : 1 <= - lg (E + G) <= 1000).
  { pose proof ln_10 as T. assert (E1 : ln (E + G) <= ln (/ 10)) by (left; apply ln_increasing; lra). rewrite ln_Rinv in E1 by lra. assert (E2 : ln (/ 2 ^ 100) <= ln (E + G)) by (destruct (Req_dec (/ 2 ^ 100) (E + G)) as [<- |N]; [lra|left; apply ln_increasing; [apply ip2|lra]]).
    rewrite ln_Rinv, ln_pow in E2 by (try apply p2; lra). replace (INR 100) with 100 in E2 by (rewrite INR_IZR_INZ; reflexivity). assert (L2 : ln 2 <= 1). { pose proof (exp_ineq1_le 1). rewrite <- (ln_exp 1). destruct (Req_dec 2 (exp 1)) as [-> |N]; [lra|]. left. apply ln_increasing; lra. }
    unfold lg. split; apply (Rmult_le_reg_r (ln 10)); try lra; replace (- (ln (E + G) / ln 10) * ln 10) with (- ln (E + G)) by (field; lra); lra. }
  assert (Lx : 0 < - lg (value x)) by (eapply within_pos; [|exact WL]; lra).
  assert (NL : near 8 10 (neg64 (log64 x)) (- lg (E + G))).
  { split; [now apply neg_finite|]. split; [|split; [apply Rle_trans with (/ 2 ^ 0); [apply inv_pow_le; lia|rewrite pow_O, Rinv_1; lra]|cbn [pow]; lra]].
    change 8%nat with (3 + 5)%nat. eapply within_trans; [|exact WL]. rewrite neg_value. apply pow_within3; [exact Lx|]. rewrite (Rabs_left (lg (value x))) in El by lra. replace (- value (log64 x) - - lg (value x)) with (- (value (log64 x) - lg (value x))) by ring. rewrite Rabs_Ropp. exact El. }
  pose proof (nmul _ _ _ _ _ _ _ _ (near_whole 2 ltac:(lia)) NL ltac:(lia) ltac:(lia) ltac:(lia)) as (Fm & Wm & Rm).
  assert (VM : finite (mul64 (whole64 (-2)) (log64 x)) /\ value (mul64 (whole64 (-2)) (log64 x)) = value (mul64 (whole64 2) (neg64 (log64 x)))).
  { destruct (mul_finite _ _ Fm) as (Fc & _ & Vm). assert (T : finite (whole64 (-2)) /\ value (whole64 (-2)) = - value (whole64 2)) by (split; [reflexivity|unfold value; cbn; unfold F2R; cbn; lra]). destruct T as [Ft Vt]. rewrite neg_value in Vm. replace (value (whole64 2) * - value (log64 x)) with (value (whole64 (-2)) * value (log64 x)) in Vm by (rewrite Vt; ring).
    destruct (P_FloatMix.mul_ok (whole64 (-2)) (log64 x) Ft Fl) as [Fn Vn]; [|split; [exact Fn|now rewrite Vn, Vm]]. pose proof (value_lt_max (mul64 (whole64 2) (neg64 (log64 x)))) as BM. rewrite Vm in BM. exact BM. }
  destruct VM as [Fp Vp]. set (m := mul64 (whole64 (-2)) (log64 x)) in *. set (i := div64 (whole64 1) s) in *. rewrite <- Vp in Wm. destruct N5 as (Fi & Wi & Ri).
  assert (EL : L = 2 * - lg (E + G)) by (unfold L; ring). rewrite <- EL in Wm. pose proof ulp_half_pos as UP. pose proof ulp_half_small as US'.
  assert (P1 : 0 < 1 / sqrt (value f) <= 20). { split; [apply Rdiv_lt_0_compat; lra|]. apply Rle_trans with (1 / 0.05); [apply Rmult_le_compat_l; [lra|apply Rinv_le_contravar; lra]|lra]. } set (I := 1 / sqrt (value f)) in *.
  pose proof (within_abs (S (0 + 8)) (value m) L ltac:(lra) ltac:(cbn [INR Init.Nat.add]; lra) Wm) as Am. pose proof (within_abs (S (0 + 1)) (value i) I ltac:(lra) ltac:(cbn [INR Init.Nat.add]; lra) Wi) as Ai. cbn [INR Init.Nat.add] in Am, Ai. apply Rabs_le_inv in Am, Ai.
  destruct (sub_abs m i Fp Fi) as [Fs As].
  { apply Rle_trans with (2 ^ 20); [|apply two_pow_le; lia]. apply Rabs_le. cbn [pow]. assert (ulp_half * L <= / 1000000 * L) by (apply Rmult_le_compat_r; lra). assert (ulp_half * I <= / 1000000 * I) by (apply Rmult_le_compat_r; lra). assert (0 <= ulp_half * L) by (apply Rmult_le_pos; lra). assert (0 <= ulp_half * I) by (apply Rmult_le_pos; lra). lra. }
  exists (sub64 m i). split; [reflexivity|]. split; [exact Fs|].
  assert (H1 : ulp_half * L <= / 1000000 * L) by (apply Rmult_le_compat_r; lra). assert (H2 : ulp_half * I <= / 1000000 * I) by (apply Rmult_le_compat_r; lra). assert (H3 : 0 <= ulp_half * L) by (apply Rmult_le_pos; lra). assert (H4 : 0 <= ulp_half * I) by (apply Rmult_le_pos; lra).
  assert (H5 : Rabs (value m - value i) <= 2 * (L + I)) by (apply Rabs_le; lra).
  assert (H6 : 3 * ulp_half * Rabs (value m - value i) <= 3 * ulp_half * (2 * (L + I))) by (apply Rmult_le_compat_l; lra). apply Rabs_le_inv in As. apply Rabs_le. lra.
Qed.
