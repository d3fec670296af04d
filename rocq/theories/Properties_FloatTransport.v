(** C102: dimensionless numbers, pressure drop and natural convection in binary64. *)
From Verif Require Import Prelude M_Lists M_Thermochem M_Stoichiometry Spec_Stoich M_Ieee Spec_Ieee P_Ieee M_FloatCompare M_FloatMix P_FloatMix M_FloatLoan P_FloatLoan M_FloatStoich Spec_FloatStoich P_Within P_FloatReports2 P_FloatLoan2
  P_FloatStoich P_FloatStoich2 P_FloatStoich3 Properties_FloatLoan Spec_Special M_Physical M_Transport Spec_Transport P_Transport P_Convection Properties_Transport M_FloatTransport Spec_FloatTransport P_FloatTransport P_FloatTransport2 P_FloatTransport3 P_FloatTransport4 P_FloatTransport5 P_FloatTransport6.
From Verif Require P_Pressure.
From Coq Require Import Reals Qreals List Lra Lia.
From Flocq Require Import Core BinarySingleNaN.
Import ListNotations.
Local Open Scope list_scope.
Local Open Scope R_scope.

(** ** C102: rounding in transport phenomena *)
(** A quotient is the float nearest to the exact one; a product before it is
    rounded once more. *)
Lemma quotient_nearest x y : finite x -> finite y -> value y <> 0 -> Rabs (nearest (value x / value y)) < 2 ^ 1024 ->
  exists q, pydiv64 x y = Ok q /\ finite q /\ value q = nearest (value x / value y).
Proof.
  intros X Y N B. assert (E : bpow radix2 1024 = 2 ^ 1024) by exact (bpow_nat 1024). destruct (div_ok x y X N) as [F V]; [rewrite E; exact B|].
  exists (div64 x y). split; [|auto]. unfold pydiv64. now rewrite (not_zero y N).
Qed.
Lemma product_nearest x y : finite x -> finite y -> Rabs (nearest (value x * value y)) < 2 ^ 1024 -> finite (mul64 x y) /\ value (mul64 x y) = nearest (value x * value y).
Proof. intros X Y B. assert (E : bpow radix2 1024 = 2 ^ 1024) by exact (bpow_nat 1024). apply mul_ok; auto. rewrite E. exact B. Qed.
Theorem C102_quotients : forall nu alpha Re A P, finite nu -> finite alpha -> finite Re -> finite A -> finite P ->
  (value alpha <> 0 -> Rabs (nearest (value nu / value alpha)) < 2 ^ 1024 -> exists v, fPr nu alpha = Ok v /\ finite v /\ value v = nearest (value nu / value alpha)) /\
  (value Re <> 0 -> Rabs (nearest (64 / value Re)) < 2 ^ 1024 -> exists v, ff_l Re = Ok v /\ finite v /\ value v = nearest (64 / value Re)) /\
  (value P <> 0 -> Rabs (nearest (4 * value A)) < 2 ^ 1024 -> Rabs (nearest (nearest (4 * value A) / value P)) < 2 ^ 1024 -> exists v, fD_h A P = Ok v /\ finite v /\ value v = nearest (nearest (4 * value A) / value P)).
Proof.
  intros nu alpha Re A P Fn Fa Fr FA FP. destruct (whole_val 64 ltac:(lia)) as [F64 V64]. destruct (whole_val 4 ltac:(lia)) as [F4 V4]. split; [|split].
  - intros N B. now apply quotient_nearest.
  - intros N B. unfold ff_l. destruct (quotient_nearest (whole64 64) Re F64 Fr N) as (q & E & F & V); rewrite V64 in *; eauto.
  - intros N B1 B2. unfold fD_h. destruct (product_nearest (whole64 4) A F4 FA) as [F V]; rewrite V4 in *; auto. rewrite <- V in B2 |- *. now apply quotient_nearest.
Qed.
Print Assumptions C102_quotients.
Theorem C102_ratios : forall L v nu h k D, finite L -> finite v -> finite nu -> finite h -> finite k -> finite D ->
  (value nu <> 0 -> Rabs (nearest (value v * value L)) < 2 ^ 1024 -> Rabs (nearest (nearest (value v * value L) / value nu)) < 2 ^ 1024 -> exists r, fRe L v nu = Ok r /\ finite r /\ value r = nearest (nearest (value v * value L) / value nu)) /\
  (value k <> 0 -> Rabs (nearest (value h * value L)) < 2 ^ 1024 -> Rabs (nearest (nearest (value h * value L) / value k)) < 2 ^ 1024 -> exists r, fNu L h k = Ok r /\ finite r /\ value r = nearest (nearest (value h * value L) / value k)) /\
  (value D <> 0 -> Rabs (nearest (value h * value L)) < 2 ^ 1024 -> Rabs (nearest (nearest (value h * value L) / value D)) < 2 ^ 1024 -> exists r, fSh L h D = Ok r /\ finite r /\ value r = nearest (nearest (value h * value L) / value D)).
Proof.
  intros L v nu h k D FL Fv Fn Fh Fk FD. split; [|split]; intros N B1 B2.
  - unfold fRe. destruct (product_nearest v L Fv FL B1) as [F V]. rewrite <- V in B2 |- *. now apply quotient_nearest.
  - unfold fNu. destruct (product_nearest h L Fh FL B1) as [F V]. rewrite <- V in B2 |- *. now apply quotient_nearest.
  - unfold fSh. destruct (product_nearest h L Fh FL B1) as [F V]. rewrite <- V in B2 |- *. now apply quotient_nearest.
Qed.
Print Assumptions C102_ratios.
Theorem C102_zero_denominator : forall x y z, finite z -> value z = 0 ->
  fPr x z = Err ZeroDivisionError /\ fRe x y z = Err ZeroDivisionError /\ fNu x y z = Err ZeroDivisionError /\ fSh x y z = Err ZeroDivisionError /\ ff_l z = Err ZeroDivisionError /\ fD_h x z = Err ZeroDivisionError.
Proof. intros x y z F V. unfold fPr, fRe, fNu, fSh, ff_l, fD_h, pydiv64. rewrite (zero_is_zero z F V). auto 10. Qed.
Print Assumptions C102_zero_denominator.
(** The formulas with powers. *)
Theorem C102_grashof : forall pow64, accurate_power pow64 -> forall L Ts Tf beta nu g, sized 60 L -> sized 60 beta -> sized 60 nu -> sized 60 g -> finite Ts -> finite Tf -> / 2 ^ 60 <= value Ts - value Tf <= 2 ^ 60 ->
  exists v, fGr pow64 L Ts Tf beta nu g = Ok v /\ finite v /\ within 12 (value v) (grashof (value L) (value Ts) (value Tf) (value beta) (value nu) (value g)).
Proof. intros pow64 POW L Ts Tf beta nu g SL Sb Sn Sg Fs Ff R. destruct (Gr_ok pow64 POW L Ts Tf beta nu g SL Sb Sn Sg Fs Ff R) as (v & E & F & W & _). exists v. auto. Qed.
Print Assumptions C102_grashof.
(** A surface colder than the fluid has the opposite Grashof number, to the last
    bit. *)
Theorem C102_grashof_cold : forall pow64, accurate_power pow64 -> forall L Ts Tf beta nu g, sized 60 L -> sized 60 beta -> sized 60 nu -> sized 60 g -> finite Ts -> finite Tf -> / 2 ^ 60 <= value Tf - value Ts <= 2 ^ 60 ->
  exists v w, fGr pow64 L Ts Tf beta nu g = Ok v /\ fGr pow64 L Tf Ts beta nu g = Ok w /\ finite v /\ value v = - value w /\ within 12 (- value v) (grashof (value L) (value Tf) (value Ts) (value beta) (value nu) (value g)).
Proof. intros. now apply Gr_cold. Qed.
Print Assumptions C102_grashof_cold.
Theorem C102_pressure_drop : forall pow64, accurate_power pow64 -> forall f L D rho v, sized 100 f -> sized 100 L -> sized 100 D -> sized 100 rho -> sized 100 v ->
  exists p, fdelta_p pow64 f L D rho v = Ok p /\ finite p /\ within 8 (value p) (value f * (value L / value D) * (value rho * value v ^ 2 / 2)).
Proof. exact delta_p_ok. Qed.
Print Assumptions C102_pressure_drop.
(** The friction factor of a smooth duct, for turbulent flow. *)
Theorem C102_smooth_turbulent : forall pow64 log64, accurate_power pow64 -> accurate_log log64 -> forall Re, finite Re -> 1000 <= value Re <= 2 ^ 100 ->
  exists f, ff_ts pow64 log64 Re = Ok f /\ finite f /\ within 36 (value f) (1 / (1.82 * lg (value Re) - 1.64) ^ 2).
Proof. intros pow64 log64 POW LOG Re. now apply f_ts_ok. Qed.
Print Assumptions C102_smooth_turbulent.
Theorem C102_smooth_refused : forall pow64 log64 Re, finite Re -> value Re <= 0 -> ff_ts pow64 log64 Re = Err ValueError.
Proof. intros pow64 log64 Re F H. unfold ff_ts, flog10. rewrite (le64_spec Re zero64 F eq_refl), zero_value. destruct (Rle_dec (value Re) 0); [reflexivity|lra]. Qed.
(** The printed warnings: the Reynolds number is judged exactly; a relative
    roughness in the range is never warned of, and one outside of it is, except
    within 10^-13 of the limit. *)
Theorem C102_rough_warnings : forall Re eps D, finite Re -> finite eps -> finite D -> value D <> 0 -> Rabs (nearest (value eps / value D)) < 2 ^ 1024 ->
  exists b, Haaland_warnings true Re eps D = Ok ((if (b : bool) then [RoughnessRange] else []) ++ (if Rle_dec 4000 (value Re) then if Rle_dec (value Re) (10 ^ 8) then [] else [ReynoldsRange] else [ReynoldsRange])) /\
    (0 <= value eps / value D <= 0.05 -> b = false) /\ (value eps / value D <= - / 2 ^ 1000 \/ 0.0500000000001 < value eps / value D -> b = true).
Proof.
  intros Re eps D FR Fe FD N B. destruct (quotient_nearest eps D Fe FD N B) as (q & E & Fq & Vq). unfold Haaland_warnings. rewrite E. cbn [bind].
  destruct (whole_val 4000 ltac:(lia)) as [F4 V4]. destruct (whole_val 100000000 ltac:(lia)) as [F8 V8]. destruct (lit_val (5 # 100)) as (Fl & Vl & _ & El & _); [cbn; lia|cbn; lia|cbn [Qnum Qden]; apply ten_range; lra|]. cbn [Qnum Qden] in Vl, El.
  exists (lt64 q zero64 || gt64 q (literal64 (5 # 100)))%bool. split.
  - f_equal. f_equal. rewrite (lt64_dec Re (whole64 4000) FR F4), V4. destruct (Rlt_dec (value Re) 4000); destruct (Rle_dec 4000 (value Re)); try lra; [reflexivity|]. cbn [orb].
    pose proof (gt64_spec Re (whole64 100000000) FR F8) as G. rewrite V8 in G. assert (P : 10 ^ 8 = 100000000) by (cbn [pow]; lra). destruct (Rle_dec (value Re) (10 ^ 8)) as [H|H]; [rewrite (proj2 G) by lra; reflexivity|]. destruct (gt64 Re (whole64 100000000)); [reflexivity|]. pose proof (proj1 G eq_refl). lra.
  - pose proof (gt64_spec q (literal64 (5 # 100)) Fq Fl) as G. rewrite (lt64_dec q zero64 Fq eq_refl), zero_value. set (x := value eps / value D) in *. split.
    + intros H. rewrite (proj2 G). { destruct (Rlt_dec (value q) 0) as [L|]; [|reflexivity]. exfalso. rewrite Vq in L. assert (0 <= nearest x); [|lra]. rewrite <- rnd_0. apply round_le; [apply (FLT_exp_valid (-1074) 53)|apply valid_rnd_N|lra]. }
      rewrite Vq, Vl. apply round_le; [apply (FLT_exp_valid (-1074) 53)|apply valid_rnd_N|lra].
    + assert (I : forall u, / 2 ^ 1000 <= Rabs u -> Rabs (nearest u - u) <= ulp_half * Rabs u) by exact rnd_rel. assert (U : ulp_half <= / 2 ^ 53) by (unfold ulp_half; lra). pose proof ulp_half_pos as UP. pose proof (ip2 1000) as I1.
      intros [H|H].
      * destruct (Rlt_dec (value q) 0) as [L|L]; [reflexivity|]. exfalso. rewrite Vq in L. specialize (I x). rewrite (Rabs_left x) in I by lra. specialize (I ltac:(lra)). assert (- x * ulp_half < - x * 1) by (apply Rmult_lt_compat_l; [lra|]; apply Rle_lt_trans with (/ 2 ^ 53); [exact U|cbn [pow]; lra]). apply Rabs_le_inv in I. lra.
      * destruct (gt64 q (literal64 (5 # 100))); [now rewrite Bool.orb_true_r|]. pose proof (proj1 G eq_refl) as L. exfalso. rewrite Vq in L. specialize (I x). rewrite (Rabs_pos_eq x) in I by lra. assert (Z : / 2 ^ 1000 <= x). { apply Rle_trans with (/ 2 ^ 10); [apply inv_pow_le; lia|cbn [pow]; lra]. }
        specialize (I Z). apply Rabs_le_inv in I, El. assert (U2 : ulp_half <= 0.0000000000001) by (eapply Rle_trans; [exact U|cbn [pow]; lra]). nra.
Qed.
Print Assumptions C102_rough_warnings.
Theorem C102_no_warnings : forall Re eps D, Haaland_warnings false Re eps D = Ok [] /\ (forall w, Haaland_warnings true B754_nan eps D = Ok w -> ~ In ReynoldsRange w).
Proof.
  intros Re eps D. split; [reflexivity|]. intros w. unfold Haaland_warnings. destruct (pydiv64 eps D) as [q|]; cbn [bind]; [|discriminate]. intros E. injection E as <-. rewrite app_nil_r. destruct (_ || _)%bool; intros H; [destruct H as [H|[]]; discriminate|destruct H].
Qed.
Print Assumptions C102_no_warnings.
Theorem C102_rough_refused : forall pow64 log64 Re eps D, finite Re -> finite D -> (value D = 0 \/ value Re = 0) -> ff_tr_Haaland pow64 log64 Re eps D = Err ZeroDivisionError.
Proof.
  intros pow64 log64 Re eps D F G H. unfold ff_tr_Haaland, pydiv64 at 1 2. destruct (is_zero64 D) eqn:Z; [reflexivity|]. cbn [bind]. destruct H as [H|H]; [rewrite (zero_is_zero D G H) in Z; discriminate|]. now rewrite (zero_is_zero Re F H).
Qed.
Print Assumptions C102_rough_refused.
(** Fully developed turbulent flow in a rough duct, by Haaland: for a Reynolds
    number up to 10^8 and a relative roughness up to 0.05. *)
Theorem C102_rough_turbulent : forall pow64 log64, accurate_power pow64 -> even_square pow64 (whole64 2) -> accurate_log log64 -> forall Re eps D, finite Re -> 4000 <= value Re <= 10 ^ 8 -> sized 40 eps -> sized 40 D -> value eps / value D <= 0.05 ->
  exists f, ff_tr_Haaland pow64 log64 Re eps D = Ok f /\ finite f /\ within 840 (value f) (1 / (1.8 * lg (6.9 / value Re + Rpower (value eps / value D / 3.7) 1.11)) ^ 2).
Proof. intros. now apply Haaland_ok. Qed.
Print Assumptions C102_rough_turbulent.
Print Assumptions C102_smooth_refused.
(** The choice of the correlation is exact for the numbers it is given; a nan has no
    correlation, and an infinite Rayleigh number has the one of large numbers. *)
Theorem C102_region : forall theta Ra, finite theta -> finite Ra -> fselect theta Ra = select (value theta) (value Ra).
Proof. exact select_same. Qed.
Print Assumptions C102_region.
Theorem C102_region_chart : forall theta Ra, finite theta -> finite Ra -> -90 <= value theta <= 90 -> (value theta = 0 -> value Ra <> 11) -> (value theta = 88 -> 6 <= value Ra) -> fselect theta Ra = Ok (chart (value theta) (value Ra)).
Proof. intros theta Ra F G A B C. rewrite select_same by auto. now apply C50_chart. Qed.
Print Assumptions C102_region_chart.
Theorem C102_region_special : forall theta Ra, finite theta ->
  fselect theta B754_nan = Err IndexError /\ fselect B754_nan Ra = Err IndexError /\
  (-90 <= value theta <= 90 -> fselect theta (B754_infinity false) = Ok (chart (value theta) 12)) /\ (value theta < -90 \/ 90 < value theta -> finite Ra -> fselect theta Ra = Err IndexError).
Proof.
  intros theta Ra F. split; [apply select_nan; auto|]. split; [apply select_nan; auto|]. split.
  - intros R. rewrite select_inf by auto. destruct (whole_val 12 ltac:(lia)) as [G V]. rewrite C102_region_chart by (auto; rewrite ?V; intros; lra). now rewrite V.
  - intros R G. rewrite select_same by auto. now apply C50_outside.
Qed.
Print Assumptions C102_region_special.
(** The correlations. *)
Theorem C102_correlations : forall pow64, accurate_power pow64 -> forall c Ra Pr, sized 98 Ra -> sized 60 Pr ->
  exists v, fcorrelate pow64 c Ra Pr = Ok v /\ finite v /\ within 116 (value v) (nusselt c (value Ra) (value Pr)) /\ 0 < value v.
Proof.
  intros pow64 POW c Ra Pr SR SP. apply near_sized in SR, SP. pose proof (near_pos _ _ _ _ SR) as [P1 _]. pose proof (near_pos _ _ _ _ SP) as [P2 _].
  destruct (P_FloatTransport3.correlate_ok pow64 POW c 0 0 Ra Pr _ _ ltac:(lia) ltac:(lia) SR SP) as (v & V & E1 & E2 & N). rewrite P_Convection.correlate_ok in E2 by lra. injection E2 as <-.
  exists v. pose proof (near_pos _ _ _ _ N) as [_ P]. destruct N as (F & W & _). auto.
Qed.
Print Assumptions C102_correlations.
(** From the properties of the fluid to the coefficient of heat transfer, for a
    surface hotter than the fluid and a Rayleigh number of at least 12. *)
Theorem C102_hot_surface : forall pow64, accurate_power pow64 -> forall L theta Ts Tf beta nu alpha g k,
  sized 60 L -> finite theta -> -90 <= value theta <= 90 -> finite Ts -> finite Tf -> sized 60 beta -> sized 30 nu -> sized 30 alpha -> sized 60 g -> sized 60 k -> / 2 ^ 60 <= value Ts - value Tf <= 2 ^ 60 ->
  let Ra := rayleigh (value g) (value beta) (value Ts - value Tf) (value L) (value nu) (value alpha) in
  12 <= Ra <= 2 ^ 98 ->
  let n := nusselt (chart (value theta) Ra) Ra (value nu / value alpha) in
  exists n1 n2 h1 h2, fNu_x pow64 L theta Ts Tf beta nu alpha g = Ok n1 /\ fNu_L pow64 L theta Ts Tf beta nu alpha g = Ok n2 /\
    fh_x pow64 L theta Ts Tf beta nu alpha g k = Ok h1 /\ fh_L pow64 L theta Ts Tf beta nu alpha g k = Ok h2 /\
    finite n1 /\ within 132 (value n1) n /\ finite n2 /\ within 134 (value n2) (n / 0.75) /\
    finite h1 /\ within 134 (value h1) (n * value k / value L) /\ finite h2 /\ within 136 (value h2) (n / 0.75 * value k / value L).
Proof.
  intros pow64 POW L t Ts Tf beta nu alpha g k SL Ft Rt Fs Ff Sb Sn Sa Sg Sk R Ra HR n.
  destruct (Nu_x_float pow64 POW L t Ts Tf beta nu alpha g Ft Rt Fs Ff SL Sb Sn Sa Sg R HR) as (n1 & E1 & N1). fold Ra in N1. fold n in N1.
  destruct (Nu_L_step pow64 _ _ _ _ _ _ _ _ _ _ E1 N1) as (n2 & E2 & N2). destruct (h_x_step pow64 _ _ _ _ _ _ _ _ _ _ _ SL Sk E1 N1) as (h1 & E3 & N3). destruct (h_L_step pow64 _ _ _ _ _ _ _ _ _ _ _ SL Sk E1 N1) as (h2 & E4 & N4).
  exists n1, n2, h1, h2. destruct N1 as (? & ? & _), N2 as (? & ? & _), N3 as (? & ? & _), N4 as (? & ? & _). auto 20.
Qed.
Print Assumptions C102_hot_surface.
(** Below 12 the correlation is the one of the rounded Rayleigh number. *)
Theorem C102_any_rayleigh : forall pow64, accurate_power pow64 -> forall L theta Ts Tf beta nu alpha g,
  sized 60 L -> finite theta -> finite Ts -> finite Tf -> sized 60 beta -> sized 30 nu -> sized 30 alpha -> sized 60 g -> / 2 ^ 60 <= value Ts - value Tf <= 2 ^ 60 ->
  let Ra := rayleigh (value g) (value beta) (value Ts - value Tf) (value L) (value nu) (value alpha) in
  / 2 ^ 98 <= Ra <= 2 ^ 98 ->
  exists ra, within 14 ra Ra /\ forall c, select (value theta) ra = Ok c ->
  exists v, fNu_x pow64 L theta Ts Tf beta nu alpha g = Ok v /\ finite v /\ within 132 (value v) (nusselt c Ra (value nu / value alpha)).
Proof.
  intros pow64 POW L t Ts Tf beta nu alpha g SL Ft Fs Ff Sb Sn Sa Sg R Ra HR. destruct (Nu_x_general pow64 POW L t Ts Tf beta nu alpha g Ft Fs Ff SL Sb Sn Sa Sg R HR) as (ra & (F & W & _) & K).
  exists (value ra). split; [exact W|]. intros c Hc. rewrite <- select_same in Hc by auto. destruct (K c Hc) as (v & E & Fv & Wv & _). exists v. auto.
Qed.
Print Assumptions C102_any_rayleigh.
(** A product Gr Pr just above 7 can be rounded to 7, on the other side of the
    limit: the chosen correlation is not the one of the exact number. *)
Definition gr_case : float64 := div64 (whole64 4503599627370498) (whole64 4503599627370496).
Definition pr_case : float64 := div64 (whole64 7881299347898365) (whole64 1125899906842624).
Lemma qv x q : finite x -> Q2R (qval x) = value x -> qval x = q -> value x = Q2R q. Proof. intros _ <- ->. reflexivity. Qed.
Theorem C102_boundary_refuted : exists gr pr, finite gr /\ finite pr /\ 7 < value gr * value pr /\ select (-75) (value gr * value pr) = Ok Nu_9_23 /\ fselect (whole64 (-75)) (mul64 gr pr) = Ok Nu_9_22.
Proof.
  exists gr_case, pr_case. assert (Vg : value gr_case = 4503599627370498 / 4503599627370496 /\ finite gr_case).
  { destruct (ratio_val 4503599627370498 4503599627370496 ltac:(lia) ltac:(lia)) as (_ & F & V & _); [apply ten_range; lra|]. split; [|exact F]. unfold gr_case. rewrite V. apply round_generic; [apply valid_rnd_N|].
    replace (4503599627370498 / 4503599627370496) with (IZR 4503599627370498 * bpow radix2 (-52)) by (cbn; lra). apply multiple_format; lia. }
  assert (Vp : value pr_case = 7881299347898365 / 1125899906842624 /\ finite pr_case).
  { destruct (ratio_val 7881299347898365 1125899906842624 ltac:(lia) ltac:(lia)) as (_ & F & V & _); [apply ten_range; lra|]. split; [|exact F]. unfold pr_case. rewrite V. apply round_generic; [apply valid_rnd_N|].
    replace (7881299347898365 / 1125899906842624) with (IZR 7881299347898365 * bpow radix2 (-50)) by (cbn; lra). apply multiple_format; lia. }
  destruct Vg as [Vg Fg], Vp as [Vp Fp]. split; [exact Fg|]. split; [exact Fp|]. rewrite Vg, Vp. assert (B : 7 < 4503599627370498 / 4503599627370496 * (7881299347898365 / 1125899906842624) < 8) by lra. split; [lra|]. split.
  - rewrite C50_chart by lra. unfold chart. destruct (Rle_dec (-75) (-52)); [|lra]. destruct (Rle_dec _ 7); [lra|reflexivity].
  - vm_compute. reflexivity.
Qed.
Print Assumptions C102_boundary_refuted.

(** The Colebrook residual (C69) that scipy is asked to make zero, for friction
    factors between 0.0025 and 1: its rounding errors are below 40 halves of a
    unit in the last place of its two terms. *)
Theorem C102_colebrook : forall log64, accurate_log log64 -> forall f Re eps D, finite Re -> 4000 <= value Re <= 10 ^ 8 -> sized 40 eps -> sized 40 D -> value eps / value D <= 0.05 -> finite f -> 0.0025 <= value f <= 1 ->
  let L := - 2 * lg (value eps / value D / 3.7 + 2.51 / value Re / sqrt (value f)) in
  exists v, fcolebrook log64 f Re eps D = Ok v /\ finite v /\ Rabs (value v - (L - 1 / sqrt (value f))) <= 40 * ulp_half * (L + 1 / sqrt (value f)).
Proof. intros. now apply colebrook_float. Qed.
Print Assumptions C102_colebrook.
(** So the computed residual has the sign of the exact one wherever that is not
    tiny: bracketing the root in floats brackets the root. *)
Theorem C102_colebrook_sign : forall log64, accurate_log log64 -> forall f Re eps D, finite Re -> 4000 <= value Re <= 10 ^ 8 -> sized 40 eps -> sized 40 D -> value eps / value D <= 0.05 -> finite f -> 0.0025 <= value f <= 1 ->
  let L := - 2 * lg (value eps / value D / 3.7 + 2.51 / value Re / sqrt (value f)) in
  exists v y, fcolebrook log64 f Re eps D = Ok v /\ colebrook (value f) (value Re) (value eps) (value D) = Ok y /\
    (40 * ulp_half * (L + 1 / sqrt (value f)) < y -> 0 < value v) /\ (y < - (40 * ulp_half * (L + 1 / sqrt (value f))) -> value v < 0).
Proof.
  intros log64 LOG f Re eps D FR R Se SD HE Ff Rf L. destruct (colebrook_float log64 f Re eps D LOG FR R Se SD HE Ff Rf) as (v & E & Fv & B). cbv zeta in B. fold L in B. pose proof (ip2 40) as I. destruct Se as [_ Se], SD as [_ SD].
  exists v. rewrite P_Pressure.colebrook_ok by lra. eexists. split; [exact E|]. split; [reflexivity|]. unfold P_Pressure.colebrook_value.
  assert (EQ : -2 * lg (value eps / value D / 3.7 + 2.51 / value Re / sqrt (value f)) - 1 / sqrt (value f) = L - 1 / sqrt (value f)) by reflexivity. apply Rabs_le_inv in B. split; intros H; lra.
Qed.
Print Assumptions C102_colebrook_sign.
Theorem C102_colebrook_refused : forall log64 f Re eps D, finite Re -> finite eps -> finite D -> finite f -> value D <> 0 -> value Re <> 0 ->
  (value f < 0 -> fcolebrook log64 f Re eps D = Err ValueError) /\ (f = zero64 -> fcolebrook log64 f Re eps D = Err ZeroDivisionError).
Proof.
  intros log64 f Re eps D FR Fe FD Ff ND NR. assert (Z : forall x, value x <> 0 -> is_zero64 x = false) by (intros [| | |]; try reflexivity; intros H; exfalso; apply H; reflexivity).
  assert (K : is_zero64 (literal64 (37 # 10)) = false) by (vm_compute; reflexivity).
  split; [intros N|intros ->]; unfold fcolebrook, pydiv64 at 1; rewrite (Z D ND); cbn [bind]; unfold pydiv64 at 1; rewrite K; cbn [bind]; unfold pydiv64 at 1; rewrite (Z Re NR); cbn [bind]; [|reflexivity].
  unfold fsqrt at 1. rewrite (lt64_dec f zero64 Ff eq_refl), zero_value. destruct (Rlt_dec (value f) 0); [reflexivity|lra].
Qed.
Print Assumptions C102_colebrook_refused.

(** *** A power function that meets the condition: the correctly rounded one. *)
Definition float_of (v : R) : float64 :=
  binary_normalize 53 1024 _ _ mode_NE (Ztrunc (scaled_mantissa radix2 (FLT_exp (-1074) 53) (nearest v))) (cexp radix2 (FLT_exp (-1074) 53) (nearest v)) false.
Lemma float_of_value v : Rabs (nearest v) < 2 ^ 1024 -> finite (float_of v) /\ value (float_of v) = nearest v.
Proof.
  intros B. assert (G : generic_format radix2 (FLT_exp (-1074) 53) (nearest v)) by (apply generic_format_round; [apply (FLT_exp_valid (-1074) 53)|apply valid_rnd_N]).
  pose proof (binary_normalize_correct 53 1024 _ _ mode_NE (Ztrunc (scaled_mantissa radix2 (FLT_exp (-1074) 53) (nearest v))) (cexp radix2 (FLT_exp (-1074) 53) (nearest v)) false) as C.
  cbv zeta in C. fold (float_of v) in C. assert (E : F2R (Float radix2 (Ztrunc (scaled_mantissa radix2 (FLT_exp (-1074) 53) (nearest v))) (cexp radix2 (FLT_exp (-1074) 53) (nearest v))) = nearest v) by (symmetry; exact G).
  rewrite E in C. change (SpecFloat.fexp 53 1024) with (FLT_exp (-1074) 53) in C. rewrite (round_generic radix2 (FLT_exp (-1074) 53) (round_mode mode_NE) (nearest v) G) in C.
  assert (E2 : bpow radix2 1024 = 2 ^ 1024) by exact (bpow_nat 1024). rewrite Rlt_bool_true in C by (rewrite E2; exact B). destruct C as (C1 & C2 & _). split; [exact C2|exact C1].
Qed.
Definition power_cr (x y : float64) : res float64 := Ok (float_of (Rpower (Rabs (value x)) (value y))).
Theorem C102_accurate_power_exists : accurate_power power_cr /\ even_square power_cr (whole64 2).
Proof.
  split; [|intros x _; unfold power_cr; now rewrite neg_value, Rabs_Ropp].
  intros x y _ _ P [R1 R2]. unfold power_cr. rewrite (Rabs_pos_eq (value x)) by lra. set (v := Rpower (value x) (value y)) in *. assert (V : 0 < v) by apply Rpower_pos. assert (E2 : bpow radix2 1024 = 2 ^ 1024) by exact (bpow_nat 1024).
  destruct (float_of_value v) as [F Vf]. { rewrite <- E2. apply (rnd_small v). rewrite Rabs_pos_eq by lra. pose proof (two_pow_le 1000 1019 ltac:(lia)). lra. }
  exists (float_of v). split; [reflexivity|]. split; [exact F|]. rewrite Vf. pose proof (rnd_rel v) as E. rewrite (Rabs_pos_eq v) in E by lra. specialize (E R1). pose proof ulp_half_pos. change (rnd v) with (nearest v) in E. assert (0 < ulp_half * v) by nra. lra.
Qed.
Print Assumptions C102_accurate_power_exists.

Definition log_cr (x : float64) : float64 := float_of (lg (value x)).
Lemma lg_bounds x : finite x -> 0 < value x -> value x <= / 10 \/ 10 <= value x -> 1 <= Rabs (lg (value x)) <= 1074.
Proof.
  intros Fx P H. assert (L : 1 < ln 10) by exact ln_10. assert (L2 : ln 2 <= 1). { pose proof (exp_ineq1_le 1). rewrite <- (ln_exp 1). destruct (Req_dec 2 (exp 1)) as [-> |N]; [lra|]. left. apply ln_increasing; lra. }
  assert (M : forall u v, 0 < u -> u <= v -> ln u <= ln v) by (intros u v U [H1|<-]; [left; apply ln_increasing; lra|lra]).
  assert (K : forall u, 1 * ln 10 <= Rabs u <= 1074 * ln 10 -> 1 <= Rabs (u / ln 10) <= 1074). { intros u U. unfold Rdiv. rewrite Rabs_mult, (Rabs_pos_eq (/ ln 10)) by (left; apply Rinv_0_lt_compat; lra). split; apply (Rmult_le_reg_r (ln 10)); try lra; rewrite Rmult_assoc, Rinv_l; lra. }
  unfold lg. apply K. destruct H as [H|H].
  - pose proof (M _ _ P H) as U. rewrite ln_Rinv in U by lra. assert (B : / 2 ^ 1074 <= value x).
    { rewrite <- bpow_neg. rewrite <- (Rabs_pos_eq (value x)) by lra. apply (abs_B2R_ge_emin 53 1024 x). destruct x; try discriminate Fx; [|reflexivity]. change (value (B754_zero s)) with 0 in P. lra. }
    pose proof (M _ _ ltac:(apply ip2) B) as W. rewrite ln_Rinv, ln_pow in W by (try apply p2; lra). replace (INR 1074) with 1074 in W by (rewrite INR_IZR_INZ; reflexivity). rewrite Rabs_left by lra. lra.
  - pose proof (M 10 (value x) ltac:(lra) H) as U. assert (E2 : bpow radix2 1024 = 2 ^ 1024) by exact (bpow_nat 1024). pose proof (value_lt_max x) as B. rewrite Rabs_pos_eq, E2 in B by lra. pose proof (M _ _ P (Rlt_le _ _ B)) as W. rewrite ln_pow in W by lra. replace (INR 1024) with 1024 in W by (rewrite INR_IZR_INZ; reflexivity).
    rewrite Rabs_pos_eq by lra. lra.
Qed.
Theorem C102_accurate_log_exists : accurate_log log_cr.
Proof.
  intros x Fx P H. pose proof (lg_bounds x Fx P H) as B. assert (E2 : bpow radix2 1024 = 2 ^ 1024) by exact (bpow_nat 1024). assert (U : 1074 <= 2 ^ 1019) by (apply Rle_trans with (2 ^ 11); [cbn [pow]; lra|apply two_pow_le; lia]).
  destruct (float_of_value (lg (value x))) as [F Vf]. { rewrite <- E2. apply (rnd_small (lg (value x))). apply Rle_trans with 1074; [apply B|exact U]. }
  split; [exact F|]. unfold log_cr. rewrite Vf. pose proof (rnd_rel (lg (value x))) as E. assert (I : / 2 ^ 1000 <= Rabs (lg (value x))). { apply Rle_trans with (/ 2 ^ 0); [apply inv_pow_le; lia|rewrite pow_O, Rinv_1; lra]. }
  specialize (E I). change (rnd (lg (value x))) with (nearest (lg (value x))) in E. pose proof ulp_half_pos. assert (0 < ulp_half * Rabs (lg (value x))) by nra. lra.
Qed.
Print Assumptions C102_accurate_log_exists.
Example C102_turbulent_case : exists f, ff_ts power_cr log_cr (whole64 10000) = Ok f /\ finite f /\ within 36 (value f) (1 / (1.82 * 4 - 1.64) ^ 2).
Proof.
  destruct (whole_val 10000 ltac:(lia)) as [F V]. destruct (C102_smooth_turbulent power_cr log_cr (proj1 C102_accurate_power_exists) C102_accurate_log_exists (whole64 10000) F) as (f & E & G & W).
  { rewrite V. split; [lra|]. apply Rle_trans with (2 ^ 14); [cbn [pow]; lra|apply two_pow_le; lia]. }
  exists f. split; [exact E|]. split; [exact G|]. rewrite V in W. replace (lg 10000) with 4 in W; [exact W|]. unfold lg. replace 10000 with (10 ^ 4) by (cbn; lra). assert (L : 0 < ln 10) by (rewrite <- ln_1; apply ln_increasing; lra). rewrite ln_pow by lra. replace (INR 4) with 4 by (cbn; lra). field. lra.
Qed.
(** *** The hypotheses can be met: a plate of 1 m at 313 K in air of 283 K. *)
Lemma sized_whole a z : (10 <= a)%nat -> (1 <= z <= 1000)%Z -> sized a (whole64 z).
Proof.
  intros A H. destruct (whole_val z ltac:(lia)) as [F V]. split; [exact F|]. rewrite V. assert (1 <= IZR z <= 1000) by (split; apply IZR_le; lia). apply (wide_range 10); auto. split; [|apply Rle_trans with 1000; [lra|cbn [pow]; lra]].
  apply Rle_trans with (/ 2 ^ 0); [apply inv_pow_le; lia|rewrite pow_O, Rinv_1; lra].
Qed.
Definition tiny_case (e : Z) : float64 := div64 (whole64 1) (whole64 e).
Lemma tiny_value e k : e = (2 ^ Z.of_nat k)%Z -> (k <= 20)%nat -> finite (tiny_case e) /\ value (tiny_case e) = / 2 ^ k.
Proof.
  intros -> K. assert (B : (1 <= 2 ^ Z.of_nat k <= 2 ^ 53)%Z) by (split; [apply (Z.pow_le_mono_r 2 0); lia|apply Z.pow_le_mono_r; lia]). destruct (whole_val 1 ltac:(lia)) as [F1 V1]. destruct (whole_val (2 ^ Z.of_nat k) ltac:(lia)) as [Fk Vk].
  assert (E : IZR (2 ^ Z.of_nat k) = 2 ^ k) by (rewrite <- pow_IZR; reflexivity). assert (G : rnd (/ 2 ^ k) = / 2 ^ k). { apply round_generic; [apply valid_rnd_N|]. rewrite <- bpow_neg. replace (bpow radix2 (- Z.of_nat k)) with (IZR 1 * bpow radix2 (- Z.of_nat k)) by ring. apply multiple_format; lia. }
  destruct (div_step 20 (whole64 1) (whole64 (2 ^ Z.of_nat k)) ltac:(lia) F1) as (F & _ & _).
  { rewrite Vk, E. apply p2. }
  { rewrite V1, Vk, E. unfold Rdiv. rewrite Rmult_1_l. split; [apply inv_pow_le; lia|]. apply Rle_trans with (/ 2 ^ 0); [apply inv_pow_le; lia|rewrite pow_O, Rinv_1; apply pow_R1_Rle; lra]. }
  split; [exact F|]. pose proof (div_finite (whole64 1) (whole64 (2 ^ Z.of_nat k))) as D. rewrite V1, Vk, E in D. destruct D as [_ D]; [apply pow_nonzero; lra|exact F|]. unfold Rdiv in D. rewrite Rmult_1_l in D. rewrite <- G. exact D.
Qed.
Lemma tiny_case_value : finite (tiny_case 65536) /\ value (tiny_case 65536) = / 2 ^ 16 /\ finite (tiny_case 256) /\ value (tiny_case 256) = / 2 ^ 8.
Proof. destruct (tiny_value 65536 16 eq_refl ltac:(lia)). destruct (tiny_value 256 8 eq_refl ltac:(lia)). auto. Qed.
Example C102_plate : exists n1 n2 h1 h2, fNu_x power_cr (whole64 1) (whole64 45) (whole64 313) (whole64 283) (tiny_case 256) (tiny_case 65536) (tiny_case 65536) (whole64 10) = Ok n1 /\
  fNu_L power_cr (whole64 1) (whole64 45) (whole64 313) (whole64 283) (tiny_case 256) (tiny_case 65536) (tiny_case 65536) (whole64 10) = Ok n2 /\
  fh_x power_cr (whole64 1) (whole64 45) (whole64 313) (whole64 283) (tiny_case 256) (tiny_case 65536) (tiny_case 65536) (whole64 10) (tiny_case 256) = Ok h1 /\
  fh_L power_cr (whole64 1) (whole64 45) (whole64 313) (whole64 283) (tiny_case 256) (tiny_case 65536) (tiny_case 65536) (whole64 10) (tiny_case 256) = Ok h2.
Proof.
  destruct tiny_case_value as (F16 & V16 & F8 & V8). destruct (whole_val 1 ltac:(lia)) as [F1 V1], (whole_val 45 ltac:(lia)) as [F45 V45], (whole_val 313 ltac:(lia)) as [F313 V313], (whole_val 283 ltac:(lia)) as [F283 V283], (whole_val 10 ltac:(lia)) as [F10 V10].
  assert (S16 : sized 30 (tiny_case 65536)). { split; [exact F16|]. rewrite V16. split; [apply inv_pow_le; lia|]. apply Rle_trans with (/ 2 ^ 0); [apply inv_pow_le; lia|rewrite pow_O, Rinv_1; apply pow_R1_Rle; lra]. }
  assert (S8 : sized 60 (tiny_case 256)). { split; [exact F8|]. rewrite V8. split; [apply inv_pow_le; lia|]. apply Rle_trans with (/ 2 ^ 0); [apply inv_pow_le; lia|rewrite pow_O, Rinv_1; apply pow_R1_Rle; lra]. }
  destruct (C102_hot_surface power_cr (proj1 C102_accurate_power_exists) (whole64 1) (whole64 45) (whole64 313) (whole64 283) (tiny_case 256) (tiny_case 65536) (tiny_case 65536) (whole64 10) (tiny_case 256)) as (n1 & n2 & h1 & h2 & E1 & E2 & E3 & E4 & _);
    auto using sized_whole; try (apply sized_whole; lia); rewrite ?V45, ?V313, ?V283; try lra.
  - rewrite V1, V8, V16, V10. unfold rayleigh. assert (E : 10 * / 2 ^ 8 * (313 - 283) * 1 ^ 3 / (/ 2 ^ 16 * / 2 ^ 16) = 10 * 30 * 2 ^ 24) by (cbn [pow]; field). rewrite E. pose proof (two_pow_le 34 98 ltac:(lia)). assert (2 ^ 34 = 1024 * 2 ^ 24) by (cbn [pow]; ring). assert (1 <= 2 ^ 24) by (apply pow_R1_Rle; lra). lra.
  - exists n1, n2, h1, h2. auto.
Qed.
(** A duct of roughness 2^-8 and a Reynolds number of 10000. *)
Example C102_rough_case : exists f, ff_tr_Haaland power_cr log_cr (whole64 10000) (tiny_case 256) (whole64 1) = Ok f /\ finite f /\ within 840 (value f) (1 / (1.8 * lg (6.9 / 10000 + Rpower (/ 256 / 3.7) 1.11)) ^ 2).
Proof.
  destruct (whole_val 10000 ltac:(lia)) as [F V], (whole_val 1 ltac:(lia)) as [F1 V1]. destruct tiny_case_value as (_ & _ & F8 & V8). destruct C102_accurate_power_exists as [PW EV].
  assert (S8 : sized 40 (tiny_case 256)). { split; [exact F8|]. rewrite V8. split; [apply inv_pow_le; lia|]. apply Rle_trans with (/ 2 ^ 0); [apply inv_pow_le; lia|rewrite pow_O, Rinv_1; apply pow_R1_Rle; lra]. }
  destruct (C102_rough_turbulent power_cr log_cr PW EV C102_accurate_log_exists (whole64 10000) (tiny_case 256) (whole64 1) F) as (f & E & G & W); [rewrite V; split; [lra|cbn [pow]; lra]|exact S8|apply sized_whole; lia|rewrite V8, V1; cbn [pow]; lra|].
  exists f. split; [exact E|]. split; [exact G|]. rewrite V, V8, V1 in W. replace (/ 2 ^ 8 / 1 / 3.7) with (/ 256 / 3.7) in W by (cbn [pow]; lra). exact W.
Qed.
Example C102_warning_cases : Haaland_warnings true (whole64 10000) (tiny_case 256) (whole64 1) = Ok [] /\ Haaland_warnings true (whole64 100) (whole64 1) (whole64 1) = Ok [RoughnessRange; ReynoldsRange].
Proof. split; vm_compute; reflexivity. Qed.
Example C102_colebrook_case : exists v, fcolebrook log_cr (tiny_case 16) (whole64 10000) (tiny_case 256) (whole64 1) = Ok v /\ finite v.
Proof.
  destruct (whole_val 10000 ltac:(lia)) as [F V], (whole_val 1 ltac:(lia)) as [F1 V1]. destruct tiny_case_value as (_ & _ & F8 & V8). destruct (tiny_value 16 4 eq_refl ltac:(lia)) as [F4 V4].
  assert (S8 : sized 40 (tiny_case 256)). { split; [exact F8|]. rewrite V8. split; [apply inv_pow_le; lia|]. apply Rle_trans with (/ 2 ^ 0); [apply inv_pow_le; lia|rewrite pow_O, Rinv_1; apply pow_R1_Rle; lra]. }
  destruct (C102_colebrook log_cr C102_accurate_log_exists (tiny_case 16) (whole64 10000) (tiny_case 256) (whole64 1) F) as (v & E & G & _); [rewrite V; split; [lra|cbn [pow]; lra]|exact S8|apply sized_whole; lia|rewrite V8, V1; cbn [pow]; lra|exact F4|rewrite V4; cbn [pow]; lra|]. eauto.
Qed.
