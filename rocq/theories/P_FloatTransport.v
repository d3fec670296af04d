(** Powers, literals and the choice of the region. *)
From Verif Require Import Prelude M_Lists M_Thermochem M_Stoichiometry Spec_Stoich M_Ieee Spec_Ieee P_Ieee M_FloatCompare M_FloatMix P_FloatMix M_FloatLoan P_FloatLoan M_FloatStoich Spec_FloatStoich P_Within P_FloatReports2 P_FloatLoan2
  P_FloatStoich P_FloatStoich2 P_FloatStoich3 Properties_FloatLoan P_FloatGas M_Physical M_Transport M_FloatTransport Spec_FloatTransport.
From Coq Require Import Reals Qreals List Lra Lia.
From Flocq Require Import Core BinarySingleNaN.
Import ListNotations.
Local Open Scope list_scope.
Local Open Scope R_scope.

(** * Powers *)
Lemma Rpower_pos x y : 0 < Rpower x y. Proof. apply exp_pos. Qed.
Lemma pow_within3 z v : 0 < v -> Rabs (z - v) <= 2 * ulp_half * v -> within 3 z v.
Proof.
  intros V E. apply Rabs_le_inv in E. pose proof ulp_half_pos as U. assert (U1 : ulp_half <= / 8). { unfold ulp_half. apply Rle_trans with (/ 2 ^ 3); [apply inv_pow_le; lia|cbn [pow]; lra]. }
  set (u := ulp_half) in *. unfold within. fold u. assert (Hc : (1 + u) ^ 3 = 1 + 3 * u + 3 * (u * u) + u * u * u) by ring. rewrite Hc. clear Hc.
  assert (U2 : 0 <= u * u) by nra. assert (U3 : 0 <= u * u * u) by nra. split; [nra|].
  assert (Z : v * (1 - 2 * u) <= z) by lra. apply Rle_trans with (v * (1 - 2 * u) * (1 + 3 * u + 3 * (u * u) + u * u * u)); [|apply Rmult_le_compat_r; lra].
  rewrite Rmult_assoc. rewrite <- (Rmult_1_r v) at 1. apply Rmult_le_compat_l; [lra|]. assert (u * u <= u * / 8) by nra. assert (u * u * u <= u * u * / 8) by nra. assert (u * u * u * u <= u * u * u * / 8) by nra. nra.
Qed.
Lemma Rpower_within n a b q : 0 < a -> 0 < b -> 0 <= q <= 1 -> within n a b -> within n (Rpower a q) (Rpower b q).
Proof.
  assert (K : forall x y G, 0 < x -> 0 < y -> 1 <= G -> 0 <= q <= 1 -> x <= y * G -> Rpower x q <= Rpower y q * G).
  { intros x y G X Y HG Q H. apply Rle_trans with (Rpower (y * G) q); [apply Rle_Rpower_l; lra|]. rewrite <- Rpower_mult_distr by lra.
    apply Rmult_le_compat_l; [left; apply Rpower_pos|]. rewrite <- (Rpower_1 G) at 2 by lra. destruct (Req_dec G 1) as [-> |N]; [rewrite Rpower_1 by lra; unfold Rpower; rewrite ln_1, Rmult_0_r, exp_0; lra|]. apply Rle_Rpower; lra. }
  intros A B Q [H1 H2]. pose proof (gp n) as G. unfold g1 in G. split; apply K; auto.
Qed.
Lemma Rpower_range a x q : 0 <= q <= 1 -> / 2 ^ a <= x <= 2 ^ a -> / 2 ^ a <= Rpower x q <= 2 ^ a.
Proof.
  intros Q [H1 H2]. pose proof (p2 a) as P. pose proof (ip2 a) as I.
  assert (T : Rpower (2 ^ a) q <= 2 ^ a).
  { rewrite <- (Rpower_1 (2 ^ a)) at 2 by lra. assert (1 <= 2 ^ a) by (apply pow_R1_Rle; lra). destruct (Req_dec (2 ^ a) 1) as [-> |N]; [unfold Rpower; rewrite ln_1, !Rmult_0_r; lra|]. apply Rle_Rpower; lra. }
  split.
  - apply Rle_trans with (Rpower (/ 2 ^ a) q); [|apply Rle_Rpower_l; lra]. unfold Rpower in *. rewrite ln_Rinv by lra. replace (q * - ln (2 ^ a)) with (- (q * ln (2 ^ a))) by ring. rewrite exp_Ropp. apply Rinv_le_contravar; [apply exp_pos|exact T].
  - apply Rle_trans with (Rpower (2 ^ a) q); [apply Rle_Rpower_l; lra|exact T].
Qed.
Lemma exp_within n t : Rabs t <= INR n / 2 * ulp_half -> INR n * ulp_half <= 1 -> exp t <= (1 + ulp_half) ^ n.
Proof.
  intros T N. apply Rabs_le_inv in T. pose proof ulp_half_pos as U. set (s := INR n / 2 * ulp_half) in *. assert (S : 0 <= s <= / 2). { unfold s. pose proof (pos_INR n). split; [nra|lra]. }
  apply Rle_trans with (exp s). { destruct (Req_dec t s) as [-> |D]; [lra|]. left. apply exp_increasing. lra. }
  assert (E : exp s <= 1 + 2 * s).
  { assert (X : 1 - s <= exp (- s)) by (pose proof (exp_ineq1_le (- s)); lra). rewrite exp_Ropp in X. pose proof (exp_pos s) as P. apply (Rmult_le_compat_r (exp s)) in X; [|lra]. rewrite Rinv_l in X by lra. nra. }
  eapply Rle_trans; [exact E|]. replace (1 + 2 * s) with (1 + INR n * ulp_half) by (unfold s; field). apply poly. lra.
Qed.
(** A power with a slightly wrong exponent. *)
Lemma exponent_within x q q' : / 2 ^ 100 <= x <= 2 ^ 100 -> Rabs (q' - q) <= ulp_half / 2 -> within 100 (Rpower x q') (Rpower x q).
Proof.
  intros [X1 X2] Q. pose proof (ip2 100) as I. assert (Px : 0 < x) by lra. set (d := q' - q) in *. assert (E : Rpower x q' = Rpower x q * Rpower x d) by (rewrite <- Rpower_plus; f_equal; unfold d; ring).
  assert (L2 : ln 2 <= 1). { pose proof (exp_ineq1_le 1). rewrite <- (ln_exp 1). destruct (Req_dec 2 (exp 1)) as [-> |N]; [lra|]. left. apply ln_increasing; lra. }
  assert (L0 : 0 < ln 2). { rewrite <- ln_1. apply ln_increasing; lra. }
  assert (LN : ln (2 ^ 100) = 100 * ln 2). { rewrite ln_pow by lra. f_equal. rewrite INR_IZR_INZ. reflexivity. }
  assert (L : Rabs (ln x) <= 100).
  { apply Rabs_le. assert (U : ln x <= ln (2 ^ 100)). { destruct (Req_dec x (2 ^ 100)) as [-> |N]; [lra|]. left. apply ln_increasing; lra. }
    assert (D : ln (/ 2 ^ 100) <= ln x). { destruct (Req_dec (/ 2 ^ 100) x) as [<- |N]; [lra|]. left. apply ln_increasing; lra. }
    rewrite ln_Rinv in D by apply p2. lra. }
  assert (T : Rabs (d * ln x) <= INR 100 / 2 * ulp_half).
  { rewrite Rabs_mult. replace (INR 100) with 100 by (cbn; lra). apply Rle_trans with (ulp_half / 2 * 100); [|lra]. apply Rmult_le_compat; auto using Rabs_pos. }
  assert (N : INR 100 * ulp_half <= 1). { replace (INR 100) with 100 by (cbn; lra). unfold ulp_half. assert (/ 2 ^ 53 <= / 2 ^ 7) by (apply inv_pow_le; lia). assert (/ 2 ^ 7 = / 128) by (f_equal; cbn; lra). lra. }
  pose proof (Rpower_pos x q) as P. rewrite E. unfold within. split.
  - apply Rmult_le_compat_l; [lra|]. exact (exp_within 100 _ T N).
  - assert (K : Rpower x (- d) <= (1 + ulp_half) ^ 100). { apply exp_within; auto. rewrite Ropp_mult_distr_l_reverse, Rabs_Ropp. exact T. }
    assert (M : Rpower x d * Rpower x (- d) = 1) by (rewrite <- Rpower_plus, Rplus_opp_r; unfold Rpower; now rewrite Rmult_0_l, exp_0).
    rewrite Rmult_assoc. rewrite <- (Rmult_1_r (Rpower x q)) at 1. apply Rmult_le_compat_l; [lra|]. apply Rle_trans with (Rpower x d * Rpower x (- d)); [lra|]. apply Rmult_le_compat_l; [left; apply Rpower_pos|exact K].
Qed.

(** * Literals *)
Lemma whole_val z : (0 <= z <= 2 ^ 53)%Z -> finite (whole64 z) /\ value (whole64 z) = IZR z. Proof. exact (normal_whole z). Qed.
Lemma ratio_val n d : (0 < n <= 2 ^ 53)%Z -> (0 < d <= 2 ^ 53)%Z -> / 2 ^ 10 <= IZR n / IZR d <= 2 ^ 10 ->
  let x := div64 (whole64 n) (whole64 d) in
  pydiv64 (whole64 n) (whole64 d) = Ok x /\ finite x /\ value x = rnd (IZR n / IZR d) /\ within 1 (value x) (IZR n / IZR d) /\ Rabs (value x - IZR n / IZR d) <= ulp_half * (IZR n / IZR d) /\ / 2 ^ 11 <= value x <= 2 ^ 11.
Proof.
  intros N D R x. destruct (whole_val n ltac:(lia)) as [Fn Vn]. destruct (whole_val d ltac:(lia)) as [Fd Vd]. assert (D0 : 0 < IZR d) by (apply (IZR_lt 0); lia).
  pose proof (ip2 10) as I. destruct (div_step 10 (whole64 n) (whole64 d) ltac:(lia) Fn ltac:(lra)) as (F & W & P); [rewrite Vn, Vd; exact R|].
  destruct (div_ok (whole64 n) (whole64 d) Fn ltac:(lra)) as [_ V]. { rewrite Vn, Vd. apply rnd_small. rewrite Rabs_pos_eq by lra. eapply Rle_trans; [apply R|apply two_pow_le; lia]. }
  rewrite Vn, Vd in *. fold x in P, F, W, V. assert (L : / 2 ^ 1000 <= IZR n / IZR d) by (pose proof (inv_pow_le 10 1000 ltac:(lia)); lra).
  refine (conj P (conj F (conj V (conj W (conj _ (near_range 10 1 _ _ ltac:(lia) W R)))))). rewrite V. pose proof (rnd_rel (IZR n / IZR d)) as E. rewrite Rabs_pos_eq in E by lra. exact (E L).
Qed.
Lemma lit_val q : (0 < Qnum q <= 2 ^ 53)%Z -> (Zpos (Qden q) <= 2 ^ 53)%Z -> / 2 ^ 10 <= IZR (Qnum q) / IZR (Zpos (Qden q)) <= 2 ^ 10 ->
  finite (literal64 q) /\ value (literal64 q) = rnd (IZR (Qnum q) / IZR (Zpos (Qden q))) /\ within 1 (value (literal64 q)) (IZR (Qnum q) / IZR (Zpos (Qden q)))
  /\ Rabs (value (literal64 q) - IZR (Qnum q) / IZR (Zpos (Qden q))) <= ulp_half * (IZR (Qnum q) / IZR (Zpos (Qden q))) /\ / 2 ^ 11 <= value (literal64 q) <= 2 ^ 11.
Proof. intros N D R. exact (proj2 (ratio_val (Qnum q) (Zpos (Qden q)) N (conj eq_refl D) R)). Qed.
Lemma quarter_val : value (literal64 (1 # 4)) = 1 / 4.
Proof.
  destruct (lit_val (1 # 4)) as (_ & V & _); [cbn; lia|cbn; lia| |]. { cbn [Qnum Qden]. split; [apply Rle_trans with (/ 2 ^ 2); [apply inv_pow_le; lia|cbn [pow]; lra]|apply Rle_trans with 1; [lra|apply pow_R1_Rle; lra]]. }
  rewrite V. cbn [Qnum Qden]. apply round_generic; [apply valid_rnd_N|]. replace (1 / 4) with (IZR 1 * bpow radix2 (-2)) by (cbn; lra). apply multiple_format; lia.
Qed.
Lemma three_quarters_val : value (literal64 (75 # 100)) = 75 / 100.
Proof.
  destruct (lit_val (75 # 100)) as (_ & V & _); [cbn; lia|cbn; lia| |]. { cbn [Qnum Qden]. split; [apply Rle_trans with (/ 2 ^ 2); [apply inv_pow_le; lia|cbn [pow]; lra]|apply Rle_trans with 1; [lra|apply pow_R1_Rle; lra]]. }
  rewrite V. cbn [Qnum Qden]. apply round_generic; [apply valid_rnd_N|]. replace (75 / 100) with (IZR 3 * bpow radix2 (-2)) by (cbn; lra). apply multiple_format; lia.
Qed.
Lemma nine_sixteenths_val : value (div64 (whole64 9) (whole64 16)) = 9 / 16.
Proof.
  destruct (ratio_val 9 16) as (_ & _ & V & _); [lia|lia| |]. { split; [apply Rle_trans with (/ 2 ^ 2); [apply inv_pow_le; lia|cbn [pow]; lra]|apply Rle_trans with 1; [lra|apply pow_R1_Rle; lra]]. }
  rewrite V. apply round_generic; [apply valid_rnd_N|]. replace (9 / 16) with (IZR 9 * bpow radix2 (-4)) by (cbn; lra). apply multiple_format; lia.
Qed.

(** * The choice of the region *)
Lemma whole_signed z : (Z.abs z <= 2 ^ 53)%Z -> finite (whole64 z) /\ value (whole64 z) = IZR z.
Proof.
  intros H. pose proof (binary_normalize_correct 53 1024 _ _ mode_NE z 0 false) as C. change (round_mode mode_NE) with ZnearestE in C. fold (whole64 z) in C. cbv zeta in C.
  assert (V : F2R (Float radix2 z 0) = IZR z) by (unfold F2R; cbn [Fnum Fexp bpow]; ring). rewrite V in C.
  assert (E : round radix2 (FLT_exp (-1074) 53) ZnearestE (IZR z) = IZR z).
  { apply round_generic; [apply valid_rnd_N|]. replace (IZR z) with (IZR z * bpow radix2 0)%R by (cbn; ring). apply multiple_format; lia. }
  change (SpecFloat.fexp 53 1024) with (FLT_exp (-1074) 53) in C. rewrite E in C. rewrite Rlt_bool_true in C; [destruct C as (C1 & C2 & _); split; [exact C2|exact C1]|].
  rewrite <- abs_IZR. apply Rle_lt_trans with (IZR (2 ^ 53)); [now apply IZR_le|]. change (IZR (2 ^ 53)) with (bpow radix2 53). apply bpow_lt. lia.
Qed.
Definition region_of (r : fregion) : region :=
  mkregion (IZR (fr_tmin r)) (fr_tmin_incl r) (IZR (fr_tmax r)) (fr_tmax_incl r) (option_map IZR (fr_rmin r)) (fr_rmin_incl r) (option_map IZR (fr_rmax r)) (fr_rmax_incl r).
Lemma regions_same : regions = map (fun rc => (region_of (fst rc), snd rc)) fregions. Proof. reflexivity. Qed.
Definition limit (z : Z) : Prop := (Z.abs z <= 2 ^ 53)%Z.
Definition limits (r : fregion) : Prop := limit (fr_tmin r) /\ limit (fr_tmax r) /\ match fr_rmin r with Some m => limit m | None => True end /\ match fr_rmax r with Some m => limit m | None => True end.
Lemma all_limits : Forall (fun rc => limits (fst rc)) fregions.
Proof. unfold fregions. repeat (apply Forall_cons; [unfold limits, limit; cbn; lia|]). apply Forall_nil. Qed.
Lemma le64_spec x y : finite x -> finite y -> le64 x y = if Rle_dec (value x) (value y) then true else false.
Proof. intros X Y. unfold le64. rewrite (Bcompare_correct 53 1024 x y X Y). fold (value x) (value y). destruct (Rcompare_spec (value x) (value y)); destruct (Rle_dec (value x) (value y)); auto; lra. Qed.
Lemma lt64_dec x y : finite x -> finite y -> lt64 x y = if Rlt_dec (value x) (value y) then true else false.
Proof. intros X Y. unfold lt64. rewrite (Bcompare_correct 53 1024 x y X Y). fold (value x) (value y). destruct (Rcompare_spec (value x) (value y)); destruct (Rlt_dec (value x) (value y)); auto; lra. Qed.
Lemma above_same m i x : limit m -> finite x -> fabove m i x = above (IZR m) i (value x).
Proof. intros M X. destruct (whole_signed m M) as [F V]. unfold fabove, above. rewrite le64_spec, lt64_dec, V by auto. reflexivity. Qed.
Lemma below_same m i x : limit m -> finite x -> fbelow m i x = below (IZR m) i (value x).
Proof. intros M X. destruct (whole_signed m M) as [F V]. unfold fbelow, below. rewrite le64_spec, lt64_dec, V by auto. reflexivity. Qed.
Lemma contains_same r t x : limits r -> finite t -> finite x -> fcontains_point r t x = contains_point (region_of r) (value t) (value x).
Proof.
  intros (L1 & L2 & L3 & L4) T X. unfold fcontains_point, contains_point. cbn [region_of rg_tmin rg_tmin_incl rg_tmax rg_tmax_incl rg_rmin rg_rmin_incl rg_rmax rg_rmax_incl].
  rewrite (above_same (fr_tmin r)), (below_same (fr_tmax r)) by auto.
  destruct (fr_rmin r), (fr_rmax r); cbn [option_map]; rewrite ?above_same, ?below_same by auto; reflexivity.
Qed.
Lemma filter_map_f {A B} (p : B -> bool) (f : A -> B) l : filter p (map f l) = map f (filter (fun x => p (f x)) l).
Proof. induction l as [|a l IH]; cbn; auto. destruct (p (f a)); cbn; now rewrite IH. Qed.
Lemma filter_ext_Forall {A} (p q : A -> bool) l : Forall (fun x => p x = q x) l -> filter p l = filter q l.
Proof. induction 1 as [|a l E _ IH]; cbn; auto. now rewrite E, IH. Qed.
Theorem select_same t x : finite t -> finite x -> fselect t x = select (value t) (value x).
Proof.
  intros T X. unfold fselect, select. rewrite regions_same, filter_map_f. cbn [fst snd].
  rewrite (filter_ext_Forall (fun rc => fcontains_point (fst rc) t x) (fun rc => contains_point (region_of (fst rc)) (value t) (value x))).
  - destruct (filter _ fregions); reflexivity.
  - eapply Forall_impl; [|exact all_limits]. intros rc L. now apply contains_same.
Qed.
