From Coq Require Import Qabs Qreals.
From Verif Require Import Prelude M_Elements M_Stoichiometry Spec_Stoich P_Stoich P_Count P_Convert M_Ieee Spec_Ieee M_FloatMix M_FloatLoan M_FloatStoich Spec_FloatStoich P_Ieee P_FloatReports P_FloatReports2 P_FloatMix P_FloatLoan P_FloatLoan2 P_Within P_FloatStoich P_FloatStoich2.
From Coq Require Import Reals List Lra Lia ZArith.
From Flocq Require Import Core BinarySingleNaN.
Import ListNotations.
Local Open Scope list_scope.
Local Open Scope R_scope.

Lemma p2 n : 0 < 2 ^ n. Proof. apply pow_lt. lra. Qed.
Lemma ip2 n : 0 < / 2 ^ n. Proof. apply Rinv_0_lt_compat, p2. Qed.
Lemma ip2_add a b : / 2 ^ a * / 2 ^ b = / 2 ^ (a + b). Proof. rewrite pow_add, Rinv_mult. reflexivity. Qed.
(** within a factor of two *)
Lemma within_two n a b : (n <= 1000)%nat -> 0 <= b -> within n a b -> b / 2 <= a <= 2 * b.
Proof.
  intros N B W. assert (A := within_nonneg _ _ _ B W). destruct W as [H K]. fold g1 in *. assert (G : g1 ^ n <= 2).
  { apply g_small. apply Rle_trans with (INR 1000); [apply le_INR; lia|]. replace (INR 1000) with 1000 by (rewrite INR_IZR_INZ; reflexivity). apply Rle_trans with (2 ^ 10); [cbn; lra|apply two_pow_le; lia]. }
  pose proof (gp n). split; nra.
Qed.
Lemma mul_range a b x y : / 2 ^ a <= x <= 2 ^ a -> / 2 ^ b <= y <= 2 ^ b -> / 2 ^ (a + b) <= x * y <= 2 ^ (a + b).
Proof. intros [X1 X2] [Y1 Y2]. pose proof (ip2 a). pose proof (ip2 b). rewrite <- ip2_add, pow_add. split; apply Rmult_le_compat; lra. Qed.
Lemma inv_range b y : / 2 ^ b <= y <= 2 ^ b -> / 2 ^ b <= / y <= 2 ^ b.
Proof. intros [Y1 Y2]. pose proof (ip2 b). split; [apply Rinv_le_contravar; lra|]. rewrite <- (Rinv_inv (2 ^ b)). apply Rinv_le_contravar; lra. Qed.
Lemma div_range a b x y : / 2 ^ a <= x <= 2 ^ a -> / 2 ^ b <= y <= 2 ^ b -> / 2 ^ (a + b) <= x / y <= 2 ^ (a + b).
Proof. intros X Y. apply mul_range; auto. now apply inv_range. Qed.
Lemma near_range a n x y : (n <= 1000)%nat -> within n x y -> / 2 ^ a <= y <= 2 ^ a -> / 2 ^ (S a) <= x <= 2 ^ (S a).
Proof.
  intros N W [Y1 Y2]. pose proof (ip2 a). destruct (within_two n x y N ltac:(lra) W). cbn [pow]. rewrite Rinv_mult. lra.
Qed.
Lemma wide_range a b x : (a <= b)%nat -> / 2 ^ a <= x <= 2 ^ a -> / 2 ^ b <= x <= 2 ^ b.
Proof. intros L [X1 X2]. pose proof (inv_pow_le a b L). pose proof (two_pow_le a b L). lra. Qed.
Lemma mul_step a x y : (a <= 1000)%nat -> finite x -> finite y -> / 2 ^ a <= value x * value y <= 2 ^ a -> finite (mul64 x y) /\ within 1 (value (mul64 x y)) (value x * value y).
Proof. intros L X Y R. apply mul_within; auto. apply (wide_range a 1000) in R; [|exact L]. pose proof (two_pow_le 1000 1019 ltac:(lia)). lra. Qed.
Lemma div_step a x y : (a <= 1000)%nat -> finite x -> 0 < value y -> / 2 ^ a <= value x / value y <= 2 ^ a -> finite (div64 x y) /\ within 1 (value (div64 x y)) (value x / value y) /\ pydiv64 x y = Ok (div64 x y).
Proof.
  intros L X Y R. assert (N : value y <> 0) by lra. destruct (div_within x y X N) as [F W]; [apply (wide_range a 1000) in R; [|exact L]; pose proof (two_pow_le 1000 1019 ltac:(lia)); lra|].
  split; auto. split; auto. unfold pydiv64. now rewrite (not_zero y N).
Qed.

(** * Amounts and masses *)
Definition W (f : formula) : R := Q2R (weight (fun el => atoms el f)).
Lemma molar_range s f : proper s f -> fits f -> has_atoms f -> exists x, fmolar_mass (Some s) = Ok x /\ finite x /\ within (kinds f + 1) (value x) (W f) /\ 1 <= value x <= 2 ^ 72 /\ 0 < W f.
Proof.
  intros P T [el A]. destruct (molar_ok s f P T) as (x & E & F & Wx & B & G & _). exists x. split; auto. split; auto. split; auto.
  assert (I : In el (symbols f)) by (apply atoms_symbols; lia). destruct P as [P K]. apply K, find_element_in_table in I as [e He].
  destruct (coefficient_ok s f el (conj P K) T) as (c & C & _ & Vc). specialize (G el e c He C). rewrite Vc in G.
  assert (Ie : In e element_dictionary) by now apply find_element_some in He. destruct (el_mass_ok e Ie) as (_ & _ & _ & Be & _).
  assert (1 <= IZR (atoms el f)) by (apply IZR_le; lia). assert (1 <= rnd (value (el_mass64 e) * IZR (atoms el f))) by (rewrite <- rnd_1; apply rnd_le; nra).
  split; [lra|]. eapply within_pos; [|apply within_sym, Wx]. lra.
Qed.
Lemma molar_r s f : proper s f -> fits f -> has_atoms f -> exists x, fmolar_mass (Some s) = Ok x /\ finite x /\ within (kinds f + 1) (value x) (W f) /\ / 2 ^ 72 <= value x <= 2 ^ 72 /\ 0 < value x /\ 0 < W f.
Proof.
  intros P T A. destruct (molar_range s f P T A) as (x & E & F & Wx & B & Wp). exists x. split; auto. split; auto. split; auto. split; [|split; auto; lra]. split; [|lra].
  apply Rle_trans with (/ 2 ^ 0); [apply inv_pow_le; lia|rewrite pow_O, Rinv_1; lra].
Qed.
Theorem amount_ok s f m : proper s f -> fits f -> has_atoms f -> moderate m ->
  exists a, famount s m = Ok a /\ finite a /\ within (kinds f + 2) (value a) (value m / W f) /\ exists m', fmass s a = Ok m' /\ finite m' /\ within 2 (value m') (value m).
Proof.
  intros P T A [Fm Rm]. destruct (molar_r s f P T A) as (x & E & F & Wx & Rx & Xp & Wp). unfold famount, fmass. rewrite E. cbn [bind].
  pose proof (div_range 800 72 _ _ Rm Rx) as R. pose proof (ip2 800). destruct (div_step 872 m x ltac:(lia) Fm Xp R) as (Fa & Wa & Ea). rewrite Ea. exists (div64 m x). split; auto. split; auto. split.
  - replace (kinds f + 2)%nat with (1 + (0 + (kinds f + 1)))%nat by lia. eapply within_trans; [exact Wa|]. apply within_div; auto; try lra. apply within_refl. lra.
  - exists (mul64 (div64 m x) x). split; auto.
    assert (W1 : within 1 (value (div64 m x) * value x) (value m)).
    { replace (value m) with (value m / value x * value x) by (field; lra). replace 1%nat with (1 + 0)%nat by lia. pose proof (Rlt_le_trans _ _ _ (ip2 872) (proj1 R)). apply within_mul; auto; try lra; [eapply within_nonneg; [|exact Wa]; lra|apply within_refl; lra]. }
    destruct (mul_step 801 (div64 m x) x ltac:(lia) Fa F) as [Fb Wb]. { apply (near_range 800 1 _ (value m)); auto. lia. }
    split; auto. change 2%nat with (1 + 1)%nat. eapply within_trans; [exact Wb|exact W1].
Qed.
Theorem mass_ok' s f n : proper s f -> fits f -> has_atoms f -> moderate n ->
  exists m, fmass s n = Ok m /\ finite m /\ within (kinds f + 2) (value m) (value n * W f) /\ exists n', famount s m = Ok n' /\ finite n' /\ within 2 (value n') (value n).
Proof.
  intros P T A [Fm Rm]. destruct (molar_r s f P T A) as (x & E & F & Wx & Rx & Xp & Wp). unfold famount, fmass. rewrite E. cbn [bind].
  pose proof (mul_range 800 72 _ _ Rm Rx) as R. pose proof (ip2 800). destruct (mul_step 872 n x ltac:(lia) Fm F R) as (Fa & Wa). exists (mul64 n x). split; auto. split; auto. split.
  - replace (kinds f + 2)%nat with (1 + (0 + (kinds f + 1)))%nat by lia. eapply within_trans; [exact Wa|]. apply within_mul; auto; try lra. apply within_refl. lra.
  - pose proof (Rlt_le_trans _ _ _ (ip2 872) (proj1 R)).
    assert (W1 : within 1 (value (mul64 n x) / value x) (value n)).
    { replace (value n) with (value n * value x / value x) by (field; lra). replace 1%nat with (1 + 0)%nat by lia. apply within_div; auto; try lra; [eapply within_nonneg; [|exact Wa]; lra|apply within_refl; lra]. }
    destruct (div_step 801 (mul64 n x) x ltac:(lia) Fa Xp) as (Fb & Wb & Eb). { apply (near_range 800 1 _ (value n)); auto. lia. }
    rewrite Eb. exists (div64 (mul64 n x) x). split; auto. split; auto. change 2%nat with (1 + 1)%nat. eapply within_trans; [exact Wb|exact W1].
Qed.

(** * Mass fractions of elements *)
Lemma single_fits s : fits (single s).
Proof.
  split; [intros n []|]. intros k. unfold atoms, single, group_atoms. cbn. destruct (String.eqb _ _); lia.
Qed.
Lemma element_molar el e : find_element el = Some e -> exists x, fmolar_mass (Some el) = Ok x /\ finite x /\ value x = value (el_mass64 e).
Proof.
  intros He. assert (I : in_table el) by (apply find_element_in_table; eauto). pose proof (symbol_proper el I) as P.
  destruct (molar_ok el (single el) P (single_fits el)) as (x & E & F & _ & _ & _ & G). destruct (coefficient_ok el (single el) el P (single_fits el)) as (c & C & _ & Vc).
  exists x. split; auto. split; auto. rewrite (G el e c He C) by (unfold symbols, single; cbn; now rewrite text_str). rewrite Vc.
  replace (atoms el (single el)) with 1%Z by (unfold atoms, single, group_atoms; cbn; rewrite text_str, String.eqb_refl; reflexivity). rewrite Rmult_1_r. apply rnd_fix.
Qed.
Definition efrac (f : formula) (el : string) : R := IZR (atoms el f) * Q2R (mass_of el) / W f.
Theorem fraction_ok' s f el : proper s f -> fits f -> has_atoms f -> exists x, felement_fraction s el = Ok x /\ finite x /\ within (kinds f + 4) (value x) (efrac f el) /\ 0 <= value x <= 1 /\
  (atoms el f = 0%Z -> x = zero64) /\ (atoms el f <> 0%Z -> / 2 ^ 73 <= value x) /\ (nodup string_dec (symbols f) = [el] -> value x = 1).
Proof.
  intros P T A. destruct (coefficient_ok s f el P T) as (c & C & Fc & Vc). unfold felement_fraction. rewrite C. cbn [bind]. assert (W0 := P). destruct W0 as [Wr K].
  pose proof (atoms_nonneg el s f Wr) as N. destruct (Z.eq_dec (atoms el f) 0) as [Z0|NZ].
  - assert (is_zero64 c = true) as ->. { destruct c as [sg|sg| |sg mm ee HH]; auto; try discriminate. exfalso. rewrite Z0 in Vc. unfold value, B2R in Vc. apply eq_0_F2R in Vc. destruct sg; discriminate. }
    exists zero64. split; auto. split; [reflexivity|]. change (value zero64) with 0. unfold efrac. rewrite Z0. split; [unfold Rdiv; rewrite !Rmult_0_l; apply within_refl; lra|]. split; [lra|]. split; auto. split; [lia|].
    intros D. exfalso. destruct A as [k A]. assert (I : In k (symbols f)) by (apply atoms_symbols; lia). apply (nodup_In string_dec) in I. rewrite D in I. destruct I as [<-|[]]. lia.
  - assert (Z1 : 1 <= IZR (atoms el f)) by (apply IZR_le; lia). rewrite (not_zero c) by (rewrite Vc; lra).
    assert (Z53 : (0 <= atoms el f <= 2 ^ 53)%Z) by (split; auto; apply T).
    destruct (molar_ok s f P T) as (x & E & F & Wx & B & G & GG). destruct (molar_range s f P T A) as (x' & E' & _ & _ & Bx & Wp). rewrite E in E'. injection E' as <-.
    assert (I : In el (symbols f)) by (apply atoms_symbols; lia). apply K, find_element_in_table in I as [e He]. assert (Ie : In e element_dictionary) by now apply find_element_some in He.
    destruct (element_molar el e He) as (em & Em & Fe & Ve). rewrite E, Em. cbn [bind].
    specialize (G el e c He C). specialize (GG el e c He C). destruct (term_ok e c (atoms el f) Ie Fc Vc Z53) as (Ft & Vt & Wt & Bt).
    assert (X : finite (mul64 c em) /\ value (mul64 c em) = rnd (value (el_mass64 e) * value c)).
    { destruct (P_FloatMix.mul_ok c em Fc Fe) as [F1 V1]; [|split; auto; rewrite V1, Ve; f_equal; ring]. rewrite Ve, Vc, Rmult_comm, <- Vt. apply value_lt_max. }
    destruct X as [F1 V1]. set (t := mul64 c em) in *. assert (Vt' : value t = value (mul64 (el_mass64 e) c)) by (rewrite V1, Vt, Vc; reflexivity).
    destruct (el_mass_ok e Ie) as (_ & _ & _ & Be & Bq).
    assert (T1 : 1 <= value t) by (rewrite V1, <- rnd_1; apply rnd_le; rewrite Vc; nra). rewrite <- V1 in G. rewrite <- Vt' in Wt, Bt.
    assert (Rt : / 2 ^ 72 <= value t / value x <= 2 ^ 72).
    { split; [|apply Rle_trans with 1; [apply (Rmult_le_reg_r (value x)); [lra|]; unfold Rdiv; rewrite Rmult_assoc, Rinv_l, Rmult_1_r, Rmult_1_l by lra; exact G|apply pow_R1_Rle; lra]].
      unfold Rdiv. rewrite <- (Rmult_1_l (/ 2 ^ 72)). pose proof (ip2 72). apply Rmult_le_compat; try lra. apply Rinv_le_contravar; lra. }
    destruct (div_step 72 t x ltac:(lia) F1 ltac:(lra) Rt) as (Fd & Wd & Ed). rewrite Ed. exists (div64 t x). split; auto. split; auto.
    destruct (fraction_ok t x F1 F ltac:(lra) G ltac:(lra)) as (_ & B01 & _).
    split; [|split; [exact B01|split; [tauto|split]]].
    + replace (kinds f + 4)%nat with (1 + (2 + (kinds f + 1)))%nat by lia. eapply within_trans; [exact Wd|]. unfold efrac, mass_of. rewrite He. assert (0 <= Q2R (el_mass e) * IZR (atoms el f)) by nra. rewrite (Rmult_comm (IZR _)). apply within_div; auto; lra.
    + intros _. exact (proj1 (near_range 72 1 _ _ ltac:(lia) Wd Rt)).
    + intros D. specialize (GG D). rewrite <- V1 in GG. destruct (P_FloatMix.div_ok t x F1 ltac:(lra)) as [_ Vd].
      { rewrite GG. unfold Rdiv. rewrite Rinv_r by lra. rewrite rnd_1, Rabs_R1. change 1 with (bpow radix2 0). apply bpow_lt. lia. }
      rewrite Vd, GG. unfold Rdiv. rewrite Rinv_r by lra. apply rnd_1.
Qed.
