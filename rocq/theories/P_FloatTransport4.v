(** Natural convection from rounded properties. *)
From Verif Require Import Prelude M_Lists M_Thermochem M_Stoichiometry Spec_Stoich M_Ieee Spec_Ieee P_Ieee M_FloatCompare M_FloatMix P_FloatMix M_FloatLoan P_FloatLoan M_FloatStoich Spec_FloatStoich P_Within P_FloatReports2 P_FloatLoan2
  P_FloatStoich P_FloatStoich2 P_FloatStoich3 Properties_FloatLoan P_FloatGas M_Physical M_Transport Spec_Transport P_Transport P_Convection Properties_Transport M_FloatTransport Spec_FloatTransport P_FloatTransport P_FloatTransport2 P_FloatTransport3.
From Coq Require Import Reals Qreals List Lra Lia.
From Flocq Require Import Core BinarySingleNaN.
Import ListNotations.
Local Open Scope list_scope.
Local Open Scope R_scope.

Section pow.
Variable pow64 : float64 -> float64 -> res float64.
Hypothesis POW : accurate_power pow64.
Lemma sized_le a b x : (a <= b)%nat -> sized a x -> sized b x.
Proof. intros L [F R]. split; auto. now apply (wide_range a). Qed.
Theorem Nu_x_general L t Ts Tf beta nu alpha g : finite t -> finite Ts -> finite Tf -> sized 60 L -> sized 60 beta -> sized 30 nu -> sized 30 alpha -> sized 60 g -> / 2 ^ 60 <= value Ts - value Tf <= 2 ^ 60 ->
  let RA := rayleigh (value g) (value beta) (value Ts - value Tf) (value L) (value nu) (value alpha) in / 2 ^ 98 <= RA <= 2 ^ 98 ->
  exists ra, near 14 98 ra RA /\ forall c, fselect t ra = Ok c ->
  exists v, fNu_x pow64 L t Ts Tf beta nu alpha g = Ok v /\ near 132 300 v (nusselt c RA (value nu / value alpha)).
Proof.
  intros Ft Fs Ff SL Sb Sn Sa Sg R RA HR. destruct (Gr_ok pow64 POW L Ts Tf beta nu g SL Sb (sized_le 30 60 _ ltac:(lia) Sn) Sg Fs Ff R) as (gr & Eg & Ng).
  destruct (ndiv _ _ _ _ _ _ _ _ (near_sized _ _ Sn) (near_sized _ _ Sa) ltac:(lia) ltac:(lia) ltac:(lia)) as (Ep & Np). change (30 + 30)%nat with 60%nat in Np. set (pr := div64 nu alpha) in *.
  pose proof (nmul _ _ _ _ _ _ _ _ Ng Np ltac:(lia) ltac:(lia) ltac:(lia)) as Nr. assert (ER : grashof (value L) (value Ts) (value Tf) (value beta) (value nu) (value g) * (value nu / value alpha) = RA).
  { unfold grashof, RA, rayleigh. pose proof (ip2 30). destruct Sn as [_ [Sn _]]. destruct Sa as [_ [Sa _]]. field. lra. }
  rewrite ER in Nr. set (ra := mul64 gr pr) in *. assert (Nr' : near 14 98 ra RA) by (destruct Nr as (F & W & _); split; auto).
  exists ra. split; auto. intros c Hc. pose proof (near_pos _ _ _ _ Nr') as [PR _]. pose proof (near_pos _ _ _ _ Np) as [PP _].
  destruct (correlate_ok pow64 POW c 14 1 ra pr RA (value nu / value alpha) ltac:(lia) ltac:(lia) Nr' Np) as (v & V & E1 & E2 & N). rewrite P_Convection.correlate_ok in E2 by lra. injection E2 as <-.
  exists v. split; [|exact N]. unfold fNu_x. rewrite Eg. cbn [bind]. unfold fPr. rewrite Ep. cbn [bind]. fold pr ra. rewrite Hc. cbn [bind]. exact E1.
Qed.
Lemma chart_high t x y : 7 < x -> 7 < y -> chart t x = chart t y.
Proof. intros X Y. unfold chart. destruct (Rle_dec x 7); [lra|]. destruct (Rle_dec y 7); [lra|]. reflexivity. Qed.
Lemma within_12 n x X : (n <= 100)%nat -> 12 <= X -> within n x X -> 11 < x.
Proof.
  intros N H [_ W]. assert (G : (1 + ulp_half) ^ n <= 1 + / 100).
  { apply Rle_trans with ((1 + ulp_half) ^ 100); [apply Rle_pow; [pose proof ulp_half_pos; lra|exact N]|]. pose proof (gamma_small 100) as G. unfold gamma in G.
    replace (INR 100) with 100 in G by (rewrite INR_IZR_INZ; reflexivity). assert (100 <= 2 ^ 52) by (apply Rle_trans with (2 ^ 7); [cbn [pow]; lra|apply two_pow_le; lia]). specialize (G H0).
    assert (ulp_half <= / 2 ^ 20) by (unfold ulp_half; apply inv_pow_le; lia). assert (2 ^ 20 = 1048576) by (cbn [pow]; lra). assert (/ 2 ^ 20 <= / 1000000) by (apply Rinv_le_contravar; lra). lra. }
  destruct (Rlt_dec 11 x); auto. exfalso. pose proof (gp n) as Gp. unfold g1 in Gp. assert (x * (1 + ulp_half) ^ n <= 11 * (1 + / 100)); [|lra]. destruct (Rle_dec 0 x); [apply Rmult_le_compat; lra|nra].
Qed.
Theorem Nu_x_float L t Ts Tf beta nu alpha g : finite t -> -90 <= value t <= 90 -> finite Ts -> finite Tf -> sized 60 L -> sized 60 beta -> sized 30 nu -> sized 30 alpha -> sized 60 g -> / 2 ^ 60 <= value Ts - value Tf <= 2 ^ 60 ->
  let RA := rayleigh (value g) (value beta) (value Ts - value Tf) (value L) (value nu) (value alpha) in 12 <= RA <= 2 ^ 98 ->
  exists v, fNu_x pow64 L t Ts Tf beta nu alpha g = Ok v /\ near 132 300 v (nusselt (chart (value t) RA) RA (value nu / value alpha)).
Proof.
  intros Ft Rt Fs Ff SL Sb Sn Sa Sg R RA HR. destruct (Nu_x_general L t Ts Tf beta nu alpha g Ft Fs Ff SL Sb Sn Sa Sg R) as (ra & N & K).
  { fold RA. split; [|lra]. apply Rle_trans with (/ 2 ^ 0); [apply inv_pow_le; lia|]. rewrite pow_O, Rinv_1. lra. }
  fold RA in N, K. apply K. destruct N as (F & W & _). pose proof (within_12 14 _ _ ltac:(lia) (proj1 HR) W) as H. rewrite select_same by auto. rewrite C50_chart by (auto; intros; lra). f_equal. apply chart_high; lra.
Qed.
(** The derived numbers. *)
Lemma Nu_L_step L t Ts Tf beta nu alpha g v V : fNu_x pow64 L t Ts Tf beta nu alpha g = Ok v -> near 132 300 v V -> exists w, fNu_L pow64 L t Ts Tf beta nu alpha g = Ok w /\ near 134 310 w (V / 0.75).
Proof.
  intros E N. unfold fNu_L. rewrite E. cbn [bind]. pose proof (near_lit 75 100 (0.75) eq_refl ltac:(lra) ltac:(lia) ltac:(lia) ltac:(lra)) as L1.
  destruct (ndiv _ _ _ _ _ _ _ _ N L1 ltac:(lia) ltac:(lia) ltac:(lia)) as (-> & M). eexists. split; [reflexivity|]. exact M.
Qed.
Lemma h_x_step L t Ts Tf beta nu alpha g k v V : sized 60 L -> sized 60 k -> fNu_x pow64 L t Ts Tf beta nu alpha g = Ok v -> near 132 300 v V -> exists h, fh_x pow64 L t Ts Tf beta nu alpha g k = Ok h /\ near 134 420 h (V * value k / value L).
Proof.
  intros SL Sk E N. unfold fh_x. rewrite E. cbn [bind]. pose proof (nmul _ _ _ _ _ _ _ _ N (near_sized _ _ Sk) ltac:(lia) ltac:(lia) ltac:(lia)) as M1.
  destruct (ndiv _ _ _ _ _ _ _ _ M1 (near_sized _ _ SL) ltac:(lia) ltac:(lia) ltac:(lia)) as (-> & M). eexists. split; [reflexivity|]. exact M.
Qed.
Lemma h_L_step L t Ts Tf beta nu alpha g k v V : sized 60 L -> sized 60 k -> fNu_x pow64 L t Ts Tf beta nu alpha g = Ok v -> near 132 300 v V -> exists h, fh_L pow64 L t Ts Tf beta nu alpha g k = Ok h /\ near 136 430 h (V / 0.75 * value k / value L).
Proof.
  intros SL Sk E N. unfold fh_L. destruct (Nu_L_step _ _ _ _ _ _ _ _ _ _ E N) as (w & -> & Nw). cbn [bind]. pose proof (nmul _ _ _ _ _ _ _ _ Nw (near_sized _ _ Sk) ltac:(lia) ltac:(lia) ltac:(lia)) as M1.
  destruct (ndiv _ _ _ _ _ _ _ _ M1 (near_sized _ _ SL) ltac:(lia) ltac:(lia) ltac:(lia)) as (-> & M). eexists. split; [reflexivity|]. exact M.
Qed.
End pow.

(** * nan and infinities *)
Lemma le_nan_r x : le64 x B754_nan = false. Proof. destruct x as [| | |]; reflexivity. Qed.
Lemma lt_nan_r x : lt64 x B754_nan = false. Proof. destruct x as [| | |]; reflexivity. Qed.
Lemma le_nan_l x : le64 B754_nan x = false. Proof. reflexivity. Qed.
Lemma lt_nan_l x : lt64 B754_nan x = false. Proof. reflexivity. Qed.
Lemma above_nan m i : fabove m i B754_nan = false. Proof. unfold fabove. rewrite le_nan_r, lt_nan_r. now destruct i. Qed.
Lemma below_nan m i : fbelow m i B754_nan = false. Proof. unfold fbelow. rewrite le_nan_l, lt_nan_l. now destruct i. Qed.
Lemma filter_none {A} (p : A -> bool) l : Forall (fun x => p x = false) l -> filter p l = [].
Proof. induction 1 as [|a l E _ IH]; cbn; auto. now rewrite E. Qed.
Theorem select_nan t x : t = B754_nan \/ x = B754_nan -> fselect t x = Err IndexError.
Proof.
  intros H. unfold fselect. rewrite filter_none; auto. unfold fregions. destruct H as [-> | ->].
  - repeat (apply Forall_cons; [unfold fcontains_point; rewrite above_nan; reflexivity|]). apply Forall_nil.
  - repeat (apply Forall_cons; [unfold fcontains_point; cbn [fst fr_rmin fr_rmax]; rewrite ?above_nan, ?below_nan, ?Bool.andb_false_r; reflexivity|]). apply Forall_nil.
Qed.
Lemma above_inf m i : limit m -> fabove m i (B754_infinity false) = true.
Proof. intros M. destruct (whole_signed m M) as [F _]. unfold fabove, le64, lt64. destruct (whole64 m) as [s|s| |s k e H]; try discriminate; destruct i; reflexivity. Qed.
Lemma below_inf m i : limit m -> fbelow m i (B754_infinity false) = false.
Proof. intros M. destruct (whole_signed m M) as [F _]. unfold fbelow, le64, lt64. destruct (whole64 m) as [s|s| |s k e H]; try discriminate; destruct i; reflexivity. Qed.
Definition low_limits (r : fregion) : Prop := match fr_rmin r with Some m => (m < 12)%Z | None => True end /\ match fr_rmax r with Some m => (m < 12)%Z | None => True end.
Lemma all_low : Forall (fun rc => low_limits (fst rc)) fregions.
Proof. unfold fregions. repeat (apply Forall_cons; [unfold low_limits; cbn; lia|]). apply Forall_nil. Qed.
Theorem select_inf t : finite t -> fselect t (B754_infinity false) = fselect t (whole64 12).
Proof.
  intros T. unfold fselect. rewrite (filter_ext_Forall _ (fun rc => fcontains_point (fst rc) t (whole64 12))); auto.
  pose proof all_limits as A. pose proof all_low as B. rewrite Forall_forall in *. intros rc I. specialize (A rc I). specialize (B rc I). destruct A as (_ & _ & A1 & A2). destruct B as [B1 B2].
  destruct (whole_signed 12 ltac:(lia)) as [F V]. unfold fcontains_point. f_equal; [f_equal|].
  - destruct (fr_rmin (fst rc)) as [m|]; auto. rewrite above_inf, above_same, V by auto. apply IZR_lt in B1. unfold above. destruct (Rle_dec (IZR m) 12); [|lra]. destruct (Rlt_dec (IZR m) 12); [|lra]. now destruct (fr_rmin_incl (fst rc)).
  - destruct (fr_rmax (fst rc)) as [m|]; auto. rewrite below_inf, below_same, V by auto. apply IZR_lt in B2. unfold below. destruct (Rle_dec 12 (IZR m)); [lra|]. destruct (Rlt_dec 12 (IZR m)); [lra|]. now destruct (fr_rmax_incl (fst rc)).
Qed.

(** * The friction factor of a smooth duct *)
Lemma near_minus n a x y X Y : (n <= 300)%nat -> (a <= 900)%nat -> near n a x X -> near n a y Y -> 3 * Y <= X -> / 2 ^ a <= X - Y -> near (1 + 3 * n) a (sub64 x y) (X - Y).
Proof.
  intros N A H K XY D. pose proof (near_pos _ _ _ _ H) as [PX Px]. pose proof (near_pos _ _ _ _ K) as [PY Py]. destruct H as (Fx & Wx & Rx). destruct K as (Fy & Wy & Ry).
  assert (W3 : within (3 * n) (value x - value y) (X - Y)).
  { assert (B : g1 ^ (n + n) <= 2). { apply g_small. pose proof (le_INR (n + n) 600 ltac:(lia)) as L. replace (INR 600) with 600 in L by (rewrite INR_IZR_INZ; reflexivity). apply Rle_trans with (2 ^ 10); [cbn [pow]; lra|apply two_pow_le; lia]. }
    rewrite pow_add in B. destruct Wx as [X1 X2]. destruct Wy as [Y1 Y2]. fold g1 in X1, X2, Y1, Y2. pose proof (gp n) as G. unfold within. fold g1. replace (3 * n)%nat with (n + n + n)%nat by lia. rewrite !pow_add. set (h := g1 ^ n) in *.
    assert (P : 0 < h * h) by nra. split.
    - assert (Q : Y <= value y * h) by exact Y2. assert (M : 0 <= Y * ((h * h - 1) * (h * h - 1))) by (apply Rmult_le_pos; [lra|]; apply Rle_0_sqr).
      apply (Rmult_le_reg_r h); [lra|]. assert (E1 : value x * h <= X * h * h) by (apply Rmult_le_compat_r; lra).
      assert (E2 : X * h * h - Y <= (X - Y) * (h * h * h) * h); [|rewrite Rmult_minus_distr_r; lra].
      assert (E3 : X * (h * h * (h * h - 1)) >= 2 * Y * (h * h * (h * h - 1))). { apply Rle_ge. apply Rmult_le_compat_r; [|lra]. apply Rmult_le_pos; [lra|]. nra. }
      nra.
    - assert (E1 : X * (h * h) <= value x * (h * h * h)). { replace (value x * (h * h * h)) with (value x * h * (h * h)) by ring. apply Rmult_le_compat_r; [lra|exact X2]. }
      assert (E2 : value y * (h * h * h) <= Y * h * (h * h * h)) by (apply Rmult_le_compat_r; [nra|exact Y1]).
      assert (E3 : Y * (h * h + 1) * (h * h - 1) <= X * (h * h - 1)). { apply Rmult_le_compat_r; [nra|]. nra. }
      rewrite Rmult_minus_distr_r. nra. }
  assert (P : 0 < X - Y) by (pose proof (ip2 a); lra). assert (Pv : 0 <= value x - value y) by (left; eapply within_pos; [exact P|exact W3]).
  rewrite sub_add. pose proof (neg_value y) as V. assert (Fn : finite (neg64 y)) by now apply neg_finite.
  assert (Xb : value x <= 2 ^ S a) by (apply (near_range a n _ _ ltac:(lia) Wx Rx)).
  destruct (add_ok x (neg64 y) Fx Fn) as [F _]. { rewrite V. apply rnd_small. rewrite Rabs_pos_eq by lra. pose proof (two_pow_le (S a) 1019 ltac:(lia)). lra. }
  split; [exact F|]. split; [|lra]. pose proof (add_within x (neg64 y) F) as W. rewrite V in W. eapply within_trans; [apply W; lra|]. replace (value x + - value y) with (value x - value y) by ring. exact W3.
Qed.
Lemma lg_bounds v : 1000 <= v <= 2 ^ 100 -> 3 <= lg v <= 100.
Proof.
  intros [H K]. unfold lg. assert (L2 : 0 < ln 2) by (rewrite <- ln_1; apply ln_increasing; lra). assert (L10 : ln 2 < ln 10) by (apply ln_increasing; lra).
  assert (E1 : ln 1000 = 3 * ln 10). { replace 1000 with (10 ^ 3) by (cbn; lra). rewrite ln_pow by lra. f_equal. rewrite INR_IZR_INZ. reflexivity. }
  assert (E2 : ln (2 ^ 100) = 100 * ln 2). { rewrite ln_pow by lra. f_equal. rewrite INR_IZR_INZ. reflexivity. }
  assert (M1 : ln 1000 <= ln v). { destruct (Req_dec 1000 v) as [<- |N]; [lra|]. left. apply ln_increasing; lra. }
  assert (M2 : ln v <= ln (2 ^ 100)). { destruct (Req_dec v (2 ^ 100)) as [-> |N]; [lra|]. left. apply ln_increasing; lra. }
  split; apply (Rmult_le_reg_r (ln 10)); try lra; unfold Rdiv; rewrite Rmult_assoc, Rinv_l, Rmult_1_r by lra; lra.
Qed.
Theorem f_ts_ok pow64 log64 Re : accurate_power pow64 -> accurate_log log64 -> finite Re -> 1000 <= value Re <= 2 ^ 100 ->
  exists f, ff_ts pow64 log64 Re = Ok f /\ finite f /\ within 36 (value f) (1 / (1.82 * lg (value Re) - 1.64) ^ 2).
Proof.
  intros POW LOG F R. destruct (lg_bounds _ R) as [L1 L2]. destruct (LOG Re F ltac:(lra) ltac:(lra)) as [Fl E]. rewrite (Rabs_pos_eq (lg (value Re))) in E by lra. unfold ff_ts, flog10.
  assert (Z : le64 Re zero64 = false). { rewrite (le64_spec Re zero64 F eq_refl). rewrite zero_value. destruct (Rle_dec (value Re) 0); [lra|reflexivity]. } rewrite Z. cbn [bind].
  assert (Nl : near 3 10 (log64 Re) (lg (value Re))). { split; [exact Fl|]. split; [apply pow_within3; lra|]. apply ten_range; lra. }
  pose proof (near_lit 182 100 1.82 eq_refl ltac:(lra) ltac:(lia) ltac:(lia) ltac:(lra)) as A. pose proof (near_lit 164 100 1.64 eq_refl ltac:(lra) ltac:(lia) ltac:(lia) ltac:(lra)) as B.
  pose proof (nmul _ _ _ _ _ _ _ _ A Nl ltac:(lia) ltac:(lia) ltac:(lia)) as M.
  assert (D : near (1 + 3 * 5) 20 (sub64 (mul64 (literal64 (182 # 100)) (log64 Re)) (literal64 (164 # 100))) (1.82 * lg (value Re) - 1.64)).
  { apply near_minus; [lia|lia|exact M|eapply near_wide; [| |exact B]; lia|lra|]. pose proof (inv_pow_le 0 20 ltac:(lia)) as I. rewrite pow_O, Rinv_1 in I. lra. }
  destruct (near_square pow64 POW (1 + 3 * 5) 20 _ _ ltac:(lia) ltac:(lia) D) as (s & -> & Ns). cbn [bind].
  destruct (ndiv _ _ _ _ _ _ _ _ (near_whole 1 ltac:(lia)) Ns ltac:(lia) ltac:(lia) ltac:(lia)) as (-> & (Ff & Wf & _)). eexists. split; [reflexivity|]. split; [exact Ff|exact Wf].
Qed.

(** * The friction factor of a rough duct *)
Lemma exponent_within4 x q q' : / 2 ^ 100 <= x <= 2 ^ 100 -> Rabs (q' - q) <= 2 * ulp_half -> within 400 (Rpower x q') (Rpower x q).
Proof.
  intros X Q. set (d := (q' - q) / 4). assert (D : Rabs d <= ulp_half / 2). { unfold d, Rdiv. rewrite Rabs_mult, (Rabs_pos_eq (/ 4)) by lra. lra. }
  assert (S : forall r, within 100 (Rpower x (r + d)) (Rpower x r)). { intros r. apply exponent_within; auto. replace (r + d - r) with d by ring. exact D. }
  replace q' with (q + d + d + d + d) by (unfold d; field). change 400%nat with (100 + (100 + (100 + 100)))%nat. eapply within_trans; [apply S|]. eapply within_trans; [apply S|]. eapply within_trans; apply S.
Qed.
Lemma Rpower_within2 n a b q : 0 < a -> 0 < b -> 1 <= q <= 2 -> within n a b -> within (n + n) (Rpower a q) (Rpower b q).
Proof.
  intros A B Q W. replace (Rpower a q) with (Rpower a 1 * Rpower a (q - 1)) by (rewrite <- Rpower_plus; f_equal; ring). replace (Rpower b q) with (Rpower b 1 * Rpower b (q - 1)) by (rewrite <- Rpower_plus; f_equal; ring).
  apply within_mul; try (left; apply Rpower_pos); apply Rpower_within; auto; lra.
Qed.
Lemma Rpower_range2 a x q : 1 <= q <= 2 -> / 2 ^ a <= x <= 2 ^ a -> / 2 ^ (a + a) <= Rpower x q <= 2 ^ (a + a).
Proof. intros Q R. replace (Rpower x q) with (Rpower x 1 * Rpower x (q - 1)) by (rewrite <- Rpower_plus; f_equal; ring). apply mul_range; apply Rpower_range; auto; lra. Qed.
Lemma near_powq2 pow64 n a x X y q : accurate_power pow64 -> (n <= 250)%nat -> (a < 100)%nat -> near n a x X -> finite y -> 1 <= q <= 2 -> Rabs (value y - q) <= 2 * ulp_half -> exists z, pow64 x y = Ok z /\ near (403 + (n + n)) (a + a) z (Rpower X q).
Proof.
  intros POW N A H Fy Q D. pose proof (near_pos _ _ _ _ H) as [PX Px]. pose proof (near_value n a _ _ ltac:(lia) H) as V. destruct H as (F & W & R).
  pose proof (exponent_within4 (value x) q (value y) (wide_range (S a) 100 _ ltac:(lia) V) D) as E. pose proof (Rpower_range2 _ _ q Q V) as R1. pose proof (near_range (S a + S a) 400 _ _ ltac:(lia) E R1) as R2.
  destruct (pow_step pow64 POW (S (S a + S a)) x y ltac:(lia) F Fy Px R2) as (z & Ez & Fz & Wz). exists z. split; auto. split; auto. split; [|now apply Rpower_range2].
  replace (403 + (n + n))%nat with (3 + (400 + (n + n)))%nat by lia. eapply within_trans; [exact Wz|]. eapply within_trans; [exact E|]. apply Rpower_within2; auto.
Qed.
Lemma ln_10 : 1 < ln 10. Proof. rewrite <- (ln_exp 1). apply ln_increasing; [apply exp_pos|]. pose proof exp_le_3. lra. Qed.
Lemma ln_within n x y : 0 < x -> 0 < y -> within n x y -> ln x - ln y <= INR n * ulp_half.
Proof.
  intros X Y [W _]. assert (G : 0 < 1 + ulp_half) by (pose proof ulp_half_pos; lra). assert (L : ln x <= ln (y * (1 + ulp_half) ^ n)). { destruct (Req_dec x (y * (1 + ulp_half) ^ n)) as [<- |N]; [lra|]. left. apply ln_increasing; lra. }
  rewrite ln_mult, ln_pow in L by (auto; apply pow_lt; auto). assert (M : ln (1 + ulp_half) <= ulp_half). { pose proof (exp_ineq1_le ulp_half) as E. rewrite <- (ln_exp ulp_half) at 2. destruct (Req_dec (1 + ulp_half) (exp ulp_half)) as [-> |N]; [lra|]. left. apply ln_increasing; lra. }
  pose proof (pos_INR n). assert (INR n * ln (1 + ulp_half) <= INR n * ulp_half) by (apply Rmult_le_compat_l; lra). lra.
Qed.
(** The logarithm of a small number is well conditioned. *)
Lemma lg_within n x y : 0 < x <= / 10 -> 0 < y <= / 10 -> within n x y -> within n (- lg x) (- lg y).
Proof.
  assert (K : forall u, 0 < u <= / 10 -> 1 <= - lg u). { intros u U. pose proof ln_10. unfold lg. assert (E : ln u <= ln (/ 10)) by (destruct (Req_dec u (/ 10)) as [-> |N]; [lra|left; apply ln_increasing; lra]). rewrite ln_Rinv in E by lra.
    apply (Rmult_le_reg_r (ln 10)); [lra|]. unfold Rdiv. rewrite Ropp_mult_distr_l, Rmult_assoc, Rinv_l, Rmult_1_r by lra. lra. }
  assert (S : forall u v, 0 < u <= / 10 -> 0 < v <= / 10 -> ln u - ln v <= INR n * ulp_half -> - lg v <= - lg u * (1 + ulp_half) ^ n).
  { intros u v U V D. pose proof (K u U) as Ku. pose proof ulp_half_pos as P. pose proof (poly n ulp_half P) as B. pose proof (pos_INR n) as I. pose proof ln_10 as T.
    apply Rle_trans with (- lg u * (1 + INR n * ulp_half)); [|apply Rmult_le_compat_l; lra]. assert (E : - lg v <= - lg u + INR n * ulp_half).
    { unfold lg. apply (Rmult_le_reg_r (ln 10)); [lra|]. assert (0 <= INR n * ulp_half) by (apply Rmult_le_pos; lra). replace (- (ln v / ln 10) * ln 10) with (- ln v) by (field; lra). replace ((- (ln u / ln 10) + INR n * ulp_half) * ln 10) with (- ln u + INR n * ulp_half * ln 10) by (field; lra). nra. }
    assert (0 <= INR n * ulp_half) by (apply Rmult_le_pos; lra). nra. }
  intros X Y W. split; apply S; auto; apply ln_within; try lra; auto. now apply within_sym.
Qed.
Theorem Haaland_ok pow64 log64 Re eps D : accurate_power pow64 -> even_square pow64 (whole64 2) -> accurate_log log64 -> finite Re -> 4000 <= value Re <= 10 ^ 8 -> sized 40 eps -> sized 40 D -> value eps / value D <= 0.05 ->
  exists f, ff_tr_Haaland pow64 log64 Re eps D = Ok f /\ finite f /\ within 840 (value f) (1 / (1.8 * lg (6.9 / value Re + Rpower (value eps / value D / 3.7) 1.11)) ^ 2).
Proof.
  intros POW EV LOG F R Se SD HE. unfold ff_tr_Haaland. assert (SR : sized 27 Re). { split; [exact F|]. split; [apply Rle_trans with (/ 2 ^ 0); [apply inv_pow_le; lia|rewrite pow_O, Rinv_1; lra]|]. eapply Rle_trans; [apply R|]. cbn [pow]. lra. }
  destruct (ndiv _ _ _ _ _ _ _ _ (near_sized _ _ Se) (near_sized _ _ SD) ltac:(lia) ltac:(lia) ltac:(lia)) as (-> & N1). cbn [bind].
  pose proof (near_lit 69 10 6.9 eq_refl ltac:(lra) ltac:(lia) ltac:(lia) ltac:(lra)) as A. destruct (ndiv _ _ _ _ _ _ _ _ A (near_sized _ _ SR) ltac:(lia) ltac:(lia) ltac:(lia)) as (-> & N2). cbn [bind].
  pose proof (near_lit 37 10 3.7 eq_refl ltac:(lra) ltac:(lia) ltac:(lia) ltac:(lra)) as B. destruct (ndiv _ _ _ _ _ _ _ _ N1 B ltac:(lia) ltac:(lia) ltac:(lia)) as (-> & N3). cbn [bind].
  assert (EX : finite (literal64 (111 # 100)) /\ Rabs (value (literal64 (111 # 100)) - 1.11) <= 2 * ulp_half).
  { destruct (lit_val (111 # 100)) as (Fl & _ & _ & El & _); [cbn; lia|cbn; lia|cbn [Qnum Qden]; apply ten_range; lra|]. split; [exact Fl|]. cbn [Qnum Qden] in El. replace 1.11 with (111 / 100) by lra. pose proof ulp_half_pos. lra. }
  destruct EX as [FX EX]. destruct (near_powq2 pow64 3 90 _ _ _ 1.11 POW ltac:(lia) ltac:(lia) N3 FX ltac:(lra) EX) as (b & -> & N4). cbn [bind]. change (403 + (3 + 3))%nat with 409%nat in N4.
  set (E := value eps / value D / 3.7) in *. set (AA := 6.9 / value Re + Rpower E 1.11).
  assert (NA : near 410 181 (add64 (div64 (literal64 (69 # 10)) Re) b) AA). { apply near_add; [lia|lia| |]; [eapply near_wide; [| |exact N2]; lia|exact N4]. }
  set (x := add64 _ b) in *. pose proof (near_pos _ _ _ _ NA) as [PA Px]. pose proof (near_pos _ _ _ _ N3) as [PE _].
  assert (BA : AA <= / 30).
  { unfold AA. assert (H1 : 6.9 / value Re <= 6.9 / 4000) by (apply Rmult_le_compat_l; [lra|apply Rinv_le_contravar; lra]). assert (HE' : E <= 0.05 / 3.7) by (unfold E; apply Rmult_le_compat_r; [lra|exact HE]).
    assert (H2 : Rpower E 1.11 <= E). { replace (Rpower E 1.11) with (Rpower E 1 * Rpower E 0.11) by (rewrite <- Rpower_plus; f_equal; lra). rewrite Rpower_1 by auto. assert (Rpower E 0.11 <= 1). { unfold Rpower. rewrite <- exp_0. assert (ln E <= 0). { rewrite <- ln_1. left. apply ln_increasing; lra. } destruct (Req_dec (0.11 * ln E) 0) as [-> |N]; [lra|]. left. apply exp_increasing. lra. } nra. }
    lra. }
  destruct NA as (Fx & Wx & Rx). assert (Bx : value x <= / 10) by (destruct (within_two 410 (value x) AA ltac:(lia) ltac:(lra) Wx); lra).
  unfold flog10. assert (Z : le64 x zero64 = false). { rewrite (le64_spec x zero64 Fx eq_refl). rewrite zero_value. destruct (Rle_dec (value x) 0); [lra|reflexivity]. } rewrite Z. cbn [bind].
  destruct (LOG x Fx Px ltac:(lra)) as [Fl El]. pose proof (lg_within 410 (value x) AA (conj Px Bx) (conj PA (Rle_trans AA (/30) (/10) BA ltac:(lra))) Wx) as WL.
  assert (L1 : 1 <= - lg AA <= 1000).
  { pose proof ln_10 as T. assert (E1 : ln AA <= ln (/ 10)) by (left; apply ln_increasing; lra). rewrite ln_Rinv in E1 by lra. assert (E2 : ln (/ 2 ^ 181) <= ln AA) by (destruct (Req_dec (/ 2 ^ 181) AA) as [<- |N]; [lra|left; apply ln_increasing; [apply ip2|lra]]).
    rewrite ln_Rinv, ln_pow in E2 by (try apply p2; lra). replace (INR 181) with 181 in E2 by (rewrite INR_IZR_INZ; reflexivity). assert (L2 : ln 2 <= 1). { pose proof (exp_ineq1_le 1). rewrite <- (ln_exp 1). destruct (Req_dec 2 (exp 1)) as [-> |N]; [lra|]. left. apply ln_increasing; lra. }
    unfold lg. split; apply (Rmult_le_reg_r (ln 10)); try lra; replace (- (ln AA / ln 10) * ln 10) with (- ln AA) by (field; lra); lra. }
  assert (Lx : 0 < - lg (value x)) by (eapply within_pos; [|exact WL]; lra).
  assert (NL : near 413 10 (neg64 (log64 x)) (- lg AA)).
  { split; [now apply neg_finite|]. split; [|apply (wide_range 10); [lia|]; split; [apply Rle_trans with (/ 2 ^ 0); [apply inv_pow_le; lia|rewrite pow_O, Rinv_1; lra]|cbn [pow]; lra]].
    change 413%nat with (3 + 410)%nat. eapply within_trans; [|exact WL]. rewrite neg_value. apply pow_within3; [exact Lx|]. rewrite (Rabs_left (lg (value x))) in El by lra. replace (- value (log64 x) - - lg (value x)) with (- (value (log64 x) - lg (value x))) by ring. rewrite Rabs_Ropp. exact El. }
  pose proof (near_lit 18 10 1.8 eq_refl ltac:(lra) ltac:(lia) ltac:(lia) ltac:(lra)) as C. pose proof (nmul _ _ _ _ _ _ _ _ C NL ltac:(lia) ltac:(lia) ltac:(lia)) as M. destruct M as (Fm & Wm & Rm).
  assert (VM : finite (mul64 (literal64 (18 # 10)) (log64 x)) /\ value (mul64 (literal64 (18 # 10)) (log64 x)) = - value (mul64 (literal64 (18 # 10)) (neg64 (log64 x)))).
  { destruct (mul_finite _ _ Fm) as (Fc & _ & Vm). rewrite neg_value in Vm. replace (value (literal64 (18 # 10)) * - value (log64 x)) with (- (value (literal64 (18 # 10)) * value (log64 x))) in Vm by ring.
    rewrite round_NE_opp in Vm. destruct (mul_ok (literal64 (18 # 10)) (log64 x) Fc Fl) as [Fn Vn]; [|split; [exact Fn|rewrite Vn, Vm; ring]].
    pose proof (value_lt_max (mul64 (literal64 (18 # 10)) (neg64 (log64 x)))) as BM. rewrite Vm, Rabs_Ropp in BM. exact BM. }
  destruct VM as [Fp Vp]. rewrite EV by exact Fp.
  assert (NM : near 415 20 (neg64 (mul64 (literal64 (18 # 10)) (log64 x))) (1.8 * - lg AA)). { split; [now apply neg_finite|]. rewrite neg_value, Vp, Ropp_involutive. split; [exact Wm|exact Rm]. }
  destruct (near_square pow64 POW 415 20 _ _ ltac:(lia) ltac:(lia) NM) as (s & -> & Ns). cbn [bind].
  destruct (ndiv _ _ _ _ _ _ _ _ (near_whole 1 ltac:(lia)) Ns ltac:(lia) ltac:(lia) ltac:(lia)) as (-> & N9). eexists. split; [reflexivity|]. destruct (near_wide (S (0 + (3 + (415 + 415)))) 840 (10 + (20 + 20)) 100 _ _ ltac:(lia) ltac:(lia) N9) as (Ff & Wf & _). split; [exact Ff|].
  replace ((1.8 * lg AA) ^ 2) with ((1.8 * - lg AA) ^ 2) by ring. exact Wf.
Qed.
