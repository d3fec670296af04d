(** Numbers near a number without rounding: products, quotients, sums and powers, and the formulas. *)
From Verif Require Import Prelude M_Lists M_Thermochem M_Stoichiometry Spec_Stoich M_Ieee Spec_Ieee P_Ieee M_FloatCompare M_FloatMix P_FloatMix M_FloatLoan P_FloatLoan M_FloatStoich Spec_FloatStoich P_Within P_FloatReports2 P_FloatLoan2
  P_FloatStoich P_FloatStoich2 P_FloatStoich3 Properties_FloatLoan P_FloatGas M_Physical M_Transport M_FloatTransport Spec_FloatTransport P_FloatTransport.
From Coq Require Import Reals Qreals List Lra Lia.
From Flocq Require Import Core BinarySingleNaN.
Import ListNotations.
Local Open Scope list_scope.
Local Open Scope R_scope.

(** The float [x] is within n roundings of [X], which is between 2^-a and 2^a. *)
Definition near (n a : nat) (x : float64) (X : R) : Prop := finite x /\ within n (value x) X /\ / 2 ^ a <= X <= 2 ^ a.
Lemma near_pos n a x X : near n a x X -> 0 < X /\ 0 < value x.
Proof. intros (F & W & R). pose proof (ip2 a). assert (0 < X) by lra. split; auto. eapply within_pos; [|exact W]. auto. Qed.
Lemma near_sized a x : sized a x -> near 0 a x (value x).
Proof. intros [F R]. split; auto. split; auto. apply within_refl. pose proof (ip2 a). lra. Qed.
Lemma near_value n a x X : (n <= 1000)%nat -> near n a x X -> / 2 ^ S a <= value x <= 2 ^ S a.
Proof. intros N (F & W & R). exact (near_range a n _ _ N W R). Qed.
Lemma near_wide n m a b x X : (n <= m)%nat -> (a <= b)%nat -> near n a x X -> near m b x X.
Proof. intros N A H. pose proof (near_pos _ _ _ _ H) as [P Q]. destruct H as (F & W & R). split; auto. split; [apply (within_mono n); auto; lra|]. now apply (wide_range a). Qed.
Lemma near_mul n m a b x y X Y : (n <= 1000)%nat -> (m <= 1000)%nat -> (a + b + 2 <= 1000)%nat -> near n a x X -> near m b y Y -> near (S (n + m)) (a + b) (mul64 x y) (X * Y).
Proof.
  intros N M A H K. pose proof (near_pos _ _ _ _ H) as [PX Px]. pose proof (near_pos _ _ _ _ K) as [PY Py]. pose proof (near_value _ _ _ _ N H) as Vx. pose proof (near_value _ _ _ _ M K) as Vy.
  destruct H as (Fx & Wx & Rx). destruct K as (Fy & Wy & Ry). destruct (mul_step (S a + S b) x y ltac:(lia) Fx Fy (mul_range _ _ _ _ Vx Vy)) as [F W].
  split; [exact F|]. split; [|now apply mul_range]. change (S (n + m)) with (1 + (n + m))%nat. eapply within_trans; [exact W|]. apply within_mul; auto; lra.
Qed.
Lemma near_div n m a b x y X Y : (n <= 1000)%nat -> (m <= 1000)%nat -> (a + b + 2 <= 1000)%nat -> near n a x X -> near m b y Y -> pydiv64 x y = Ok (div64 x y) /\ near (S (n + m)) (a + b) (div64 x y) (X / Y).
Proof.
  intros N M A H K. pose proof (near_pos _ _ _ _ H) as [PX Px]. pose proof (near_pos _ _ _ _ K) as [PY Py]. pose proof (near_value _ _ _ _ N H) as Vx. pose proof (near_value _ _ _ _ M K) as Vy.
  destruct H as (Fx & Wx & Rx). destruct K as (Fy & Wy & Ry). destruct (div_step (S a + S b) x y ltac:(lia) Fx Py (div_range _ _ _ _ Vx Vy)) as (F & W & E).
  split; [exact E|]. split; [exact F|]. split; [|now apply div_range]. change (S (n + m)) with (1 + (n + m))%nat. eapply within_trans; [exact W|]. apply within_div; auto; lra.
Qed.
Lemma near_add n a x y X Y : (n <= 1000)%nat -> (a <= 1000)%nat -> near n a x X -> near n a y Y -> near (S n) (S a) (add64 x y) (X + Y).
Proof.
  intros N A H K. pose proof (near_pos _ _ _ _ H) as [PX Px]. pose proof (near_pos _ _ _ _ K) as [PY Py]. pose proof (near_value _ _ _ _ N H) as Vx. pose proof (near_value _ _ _ _ N K) as Vy.
  destruct H as (Fx & Wx & Rx). destruct K as (Fy & Wy & Ry).
  destruct (add_ok x y Fx Fy) as [F _]. { apply rnd_small. rewrite Rabs_pos_eq by lra. pose proof (two_pow_le (S (S a)) 1019 ltac:(lia)) as T. assert (E : 2 ^ S (S a) = 2 * 2 ^ S a) by reflexivity. lra. }
  pose proof (add_within x y F ltac:(lra)) as W. split; [exact F|]. split.
  - change (S n) with (1 + n)%nat. eapply within_trans; [exact W|]. now apply within_plus.
  - pose proof (ip2 a) as I. cbn [pow]. rewrite Rinv_mult. lra.
Qed.
Lemma near_sub a x y : (a <= 1000)%nat -> finite x -> finite y -> / 2 ^ a <= value x - value y <= 2 ^ a -> near 1 a (sub64 x y) (value x - value y).
Proof.
  intros A Fx Fy R. pose proof (ip2 a). rewrite sub_add. pose proof (neg_value y) as V. assert (Fn : finite (neg64 y)) by now apply neg_finite.
  destruct (add_ok x (neg64 y) Fx Fn) as [F _]. { rewrite V. apply rnd_small. rewrite Rabs_pos_eq by lra. pose proof (two_pow_le a 1019 ltac:(lia)). lra. }
  split; [exact F|]. split; [|exact R]. pose proof (add_within x (neg64 y) F) as W. rewrite V in W. apply W. lra.
Qed.
Lemma nmul n m a b x y X Y : near n a x X -> near m b y Y -> (n <= 1000)%nat -> (m <= 1000)%nat -> (a + b + 2 <= 1000)%nat -> near (S (n + m)) (a + b) (mul64 x y) (X * Y).
Proof. intros. now apply near_mul. Qed.
Lemma ndiv n m a b x y X Y : near n a x X -> near m b y Y -> (n <= 1000)%nat -> (m <= 1000)%nat -> (a + b + 2 <= 1000)%nat -> pydiv64 x y = Ok (div64 x y) /\ near (S (n + m)) (a + b) (div64 x y) (X / Y).
Proof. intros. now apply near_div. Qed.
(** Literals. *)
Lemma range_of a x : / 2 ^ a <= x -> x <= 2 ^ a -> / 2 ^ a <= x <= 2 ^ a. Proof. auto. Qed.
Lemma ten_range x : / 100 <= x -> x <= 100 -> / 2 ^ 10 <= x <= 2 ^ 10.
Proof. intros H K. split; [|eapply Rle_trans; [exact K|cbn [pow]; lra]]. eapply Rle_trans; [|exact H]. cbn [pow]. lra. Qed.
Lemma near_lit n d q : literal64 (n # d) = literal64 (n # d) -> IZR n / IZR (Zpos d) = q -> (0 < n <= 2 ^ 53)%Z -> (Zpos d <= 2 ^ 53)%Z -> / 100 <= q <= 100 -> near 1 10 (literal64 (n # d)) q.
Proof. intros _ <- N D R. destruct (lit_val (n # d) N D (ten_range _ (proj1 R) (proj2 R))) as (F & _ & W & _). split; auto. split; auto. apply ten_range; lra. Qed.
Lemma near_whole z : (1 <= z <= 100)%Z -> near 0 10 (whole64 z) (IZR z).
Proof. intros H. destruct (whole_val z ltac:(lia)) as [F V]. assert (1 <= IZR z <= 100) by (split; apply IZR_le; lia). apply (near_wide 0 0 10 10); auto. split; auto. rewrite V. split; [apply within_refl; lra|]. apply ten_range; lra. Qed.

Section pow.
Variable pow64 : float64 -> float64 -> res float64.
Hypothesis POW : accurate_power pow64.
Lemma pow_step a x y : (a <= 1000)%nat -> finite x -> finite y -> 0 < value x -> / 2 ^ a <= Rpower (value x) (value y) <= 2 ^ a -> exists z, pow64 x y = Ok z /\ finite z /\ within 3 (value z) (Rpower (value x) (value y)).
Proof.
  intros A X Y P R. destruct (POW x y X Y P) as (z & E & F & B); [now apply (wide_range a)|]. exists z. split; auto. split; auto. apply pow_within3; auto. apply Rpower_pos.
Qed.
Lemma near_powq n a x X y q : (n <= 500)%nat -> (a < 100)%nat -> near n a x X -> finite y -> 0 <= q <= 1 -> Rabs (value y - q) <= ulp_half / 2 -> exists z, pow64 x y = Ok z /\ near (103 + n) a z (Rpower X q).
Proof.
  intros N A H Fy Q D. pose proof (near_pos _ _ _ _ H) as [PX Px]. pose proof (near_value n a _ _ ltac:(lia) H) as V. destruct H as (F & W & R).
  pose proof (exponent_within (value x) q (value y) (wide_range (S a) 100 _ ltac:(lia) V) D) as E. pose proof (Rpower_range _ _ q Q V) as R1. pose proof (near_range (S a) 100 _ _ ltac:(lia) E R1) as R2.
  destruct (pow_step (S (S a)) x y ltac:(lia) F Fy Px R2) as (z & Ez & Fz & Wz). exists z. split; auto. split; auto. split; [|now apply Rpower_range].
  replace (103 + n)%nat with (3 + (100 + n))%nat by lia. eapply within_trans; [exact Wz|]. eapply within_trans; [exact E|]. apply Rpower_within; auto.
Qed.
Lemma near_powx n a x X y q : (n <= 500)%nat -> (a < 900)%nat -> near n a x X -> finite y -> 0 <= q <= 1 -> value y = q -> exists z, pow64 x y = Ok z /\ near (3 + n) a z (Rpower X q).
Proof.
  intros N A H Fy Q D. pose proof (near_pos _ _ _ _ H) as [PX Px]. pose proof (near_value n a _ _ ltac:(lia) H) as V. destruct H as (F & W & R).
  pose proof (Rpower_range _ _ q Q V) as R1. rewrite <- D in R1. destruct (pow_step (S a) x y ltac:(lia) F Fy Px R1) as (z & Ez & Fz & Wz). rewrite D in Wz. exists z. split; auto. split; auto. split; [|now apply Rpower_range].
  eapply within_trans; [exact Wz|]. apply Rpower_within; auto.
Qed.
Lemma near_square n a x X : (n <= 900)%nat -> (a <= 300)%nat -> near n a x X -> exists z, pow64 x (whole64 2) = Ok z /\ near (3 + (n + n)) (a + a) z (X ^ 2).
Proof.
  intros N A H. pose proof (near_pos _ _ _ _ H) as [PX Px]. pose proof (near_value n a _ _ ltac:(lia) H) as V. destruct H as (F & W & R).
  destruct (whole_val 2 ltac:(lia)) as [F2 V2]. assert (E : forall u, 0 < u -> Rpower u 2 = u * u) by (intros u U; change 2 with (INR 2); rewrite Rpower_pow by auto; cbn; ring).
  destruct (pow_step (S a + S a) x (whole64 2) ltac:(lia) F F2 Px) as (z & Ez & Fz & Wz); [rewrite V2, E by auto; now apply mul_range|]. rewrite V2, E in Wz by auto.
  exists z. split; auto. split; auto. replace (X ^ 2) with (X * X) by ring. split; [|now apply mul_range]. eapply within_trans; [exact Wz|]. apply within_mul; auto; lra.
Qed.
Lemma near_cube n a x X : (n <= 300)%nat -> (a <= 300)%nat -> near n a x X -> exists z, pow64 x (whole64 3) = Ok z /\ near (3 + (n + n + n)) (a + a + a) z (X ^ 3).
Proof.
  intros N A H. pose proof (near_pos _ _ _ _ H) as [PX Px]. pose proof (near_value n a _ _ ltac:(lia) H) as V. destruct H as (F & W & R).
  destruct (whole_val 3 ltac:(lia)) as [F2 V2]. assert (E : forall u, 0 < u -> Rpower u 3 = u * u * u) by (intros u U; replace 3 with (INR 3) by (cbn; ring); rewrite Rpower_pow by auto; cbn; ring).
  destruct (pow_step (S a + S a + S a) x (whole64 3) ltac:(lia) F F2 Px) as (z & Ez & Fz & Wz); [rewrite V2, E by auto; apply mul_range; auto; now apply mul_range|]. rewrite V2, E in Wz by auto.
  exists z. split; auto. split; auto. replace (X ^ 3) with (X * X * X) by ring. split; [|apply mul_range; auto; now apply mul_range]. eapply within_trans; [exact Wz|].
  apply within_mul; auto; try nra; apply within_mul; auto; lra.
Qed.
Theorem Gr_ok L Ts Tf beta nu g : sized 60 L -> sized 60 beta -> sized 60 nu -> sized 60 g -> finite Ts -> finite Tf -> / 2 ^ 60 <= value Ts - value Tf <= 2 ^ 60 ->
  exists v, fGr pow64 L Ts Tf beta nu g = Ok v /\ near 12 480 v (grashof (value L) (value Ts) (value Tf) (value beta) (value nu) (value g)).
Proof.
  intros SL Sb Sn Sg Fs Ff R. apply near_sized in SL, Sb, Sn, Sg. unfold fGr.
  destruct (near_cube 0 60 _ _ ltac:(lia) ltac:(lia) SL) as (c & -> & Nc). destruct (near_square 0 60 _ _ ltac:(lia) ltac:(lia) Sn) as (d & -> & Nd). cbn [bind].
  pose proof (nmul _ _ _ _ _ _ _ _ Sg Sb ltac:(lia) ltac:(lia) ltac:(lia)) as N1. pose proof (near_sub 60 Ts Tf ltac:(lia) Fs Ff R) as N2.
  pose proof (nmul _ _ _ _ _ _ _ _ N1 N2 ltac:(lia) ltac:(lia) ltac:(lia)) as N3. pose proof (nmul _ _ _ _ _ _ _ _ N3 Nc ltac:(lia) ltac:(lia) ltac:(lia)) as N4.
  destruct (ndiv _ _ _ _ _ _ _ _ N4 Nd ltac:(lia) ltac:(lia) ltac:(lia)) as (E & N5). exists (div64 (mul64 (mul64 (mul64 g beta) (sub64 Ts Tf)) c) d). split; [exact E|]. eapply near_wide; [| |exact N5]; lia.
Qed.
Theorem delta_p_ok f L D rho v : sized 100 f -> sized 100 L -> sized 100 D -> sized 100 rho -> sized 100 v ->
  exists p, fdelta_p pow64 f L D rho v = Ok p /\ finite p /\ within 8 (value p) (value f * (value L / value D) * (value rho * value v ^ 2 / 2)).
Proof.
  intros Sf SL SD Sr Sv. apply near_sized in Sf, SL, SD, Sr, Sv. unfold fdelta_p.
  destruct (ndiv _ _ _ _ _ _ _ _ SL SD ltac:(lia) ltac:(lia) ltac:(lia)) as (-> & N1). cbn [bind]. destruct (near_square 0 100 _ _ ltac:(lia) ltac:(lia) Sv) as (s & -> & Ns). cbn [bind].
  pose proof (nmul _ _ _ _ _ _ _ _ Sr Ns ltac:(lia) ltac:(lia) ltac:(lia)) as N2. destruct (ndiv _ _ _ _ _ _ _ _ N2 (near_whole 2 ltac:(lia)) ltac:(lia) ltac:(lia) ltac:(lia)) as (-> & N3). cbn [bind].
  pose proof (nmul _ _ _ _ _ _ _ _ Sf N1 ltac:(lia) ltac:(lia) ltac:(lia)) as N4. pose proof (nmul _ _ _ _ _ _ _ _ N4 N3 ltac:(lia) ltac:(lia) ltac:(lia)) as N5.
  eexists. split; [reflexivity|]. destruct N5 as (F & W & _). split; [exact F|]. exact W.
Qed.
End pow.
