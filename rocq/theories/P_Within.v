From Verif Require Import Prelude M_Stoichiometry Spec_Stoich M_Ieee Spec_Ieee Spec_FloatStoich P_Ieee P_FloatReports2 P_FloatMix P_FloatLoan P_FloatLoan2.
From Coq Require Import Reals List Lra Lia ZArith.
From Flocq Require Import Core BinarySingleNaN Relative Plus_error.
Import ListNotations.
Local Open Scope R_scope.

Definition g1 : R := 1 + ulp_half.
Lemma g1_ge : 1 <= g1. Proof. unfold g1. pose proof ulp_half_pos. lra. Qed.
Lemma gp n : 1 <= g1 ^ n. Proof. apply pow_R1_Rle, g1_ge. Qed.
Lemma gpos n : 0 < g1 ^ n. Proof. pose proof (gp n). lra. Qed.
Lemma within_sym n a b : within n a b -> within n b a. Proof. unfold within. tauto. Qed.
Lemma within_refl n a : 0 <= a -> within n a a.
Proof. intros A. pose proof (gp n). fold g1. unfold within. fold g1. split; nra. Qed.
Lemma within_mono n m a b : (n <= m)%nat -> 0 <= a -> 0 <= b -> within n a b -> within m a b.
Proof.
  intros L A B [H K]. unfold within in *. fold g1 in *. assert (g1 ^ n <= g1 ^ m) by (apply Rle_pow; [apply g1_ge|exact L]). split.
  - eapply Rle_trans; [exact H|]. now apply Rmult_le_compat_l.
  - eapply Rle_trans; [exact K|]. now apply Rmult_le_compat_l.
Qed.
Lemma within_trans n m a b c : within n a b -> within m b c -> within (n + m) a c.
Proof.
  intros [H K] [H' K']. unfold within in *. fold g1 in *. rewrite pow_add. pose proof (gpos n). pose proof (gpos m). split.
  - eapply Rle_trans; [exact H|]. replace (c * (g1 ^ n * g1 ^ m)) with (c * g1 ^ m * g1 ^ n) by ring. apply Rmult_le_compat_r; lra.
  - eapply Rle_trans; [exact K'|]. replace (a * (g1 ^ n * g1 ^ m)) with (a * g1 ^ n * g1 ^ m) by ring. apply Rmult_le_compat_r; lra.
Qed.
Lemma within_mul n m a b c d : 0 <= a -> 0 <= b -> 0 <= c -> 0 <= d -> within n a b -> within m c d -> within (n + m) (a * c) (b * d).
Proof.
  intros A B C D [H K] [H' K']. unfold within in *. fold g1 in *. rewrite pow_add. split.
  - replace (b * d * (g1 ^ n * g1 ^ m)) with ((b * g1 ^ n) * (d * g1 ^ m)) by ring. now apply Rmult_le_compat.
  - replace (a * c * (g1 ^ n * g1 ^ m)) with ((a * g1 ^ n) * (c * g1 ^ m)) by ring. now apply Rmult_le_compat.
Qed.
Lemma within_inv n a b : 0 < a -> 0 < b -> within n a b -> within n (/ a) (/ b).
Proof.
  intros A B [H K]. unfold within in *. fold g1 in *. pose proof (gpos n). assert (0 < / a) by now apply Rinv_0_lt_compat. assert (0 < / b) by now apply Rinv_0_lt_compat. split.
  - apply (Rmult_le_reg_l (a * b)); [nra|]. replace (a * b * / a) with b by (field; lra). replace (a * b * (/ b * g1 ^ n)) with (a * g1 ^ n) by (field; lra). exact K.
  - apply (Rmult_le_reg_l (a * b)); [nra|]. replace (a * b * / b) with a by (field; lra). replace (a * b * (/ a * g1 ^ n)) with (b * g1 ^ n) by (field; lra). exact H.
Qed.
Lemma within_div n m a b c d : 0 <= a -> 0 <= b -> 0 < c -> 0 < d -> within n a b -> within m c d -> within (n + m) (a / c) (b / d).
Proof.
  intros A B C D H K. apply within_mul; auto; try (left; now apply Rinv_0_lt_compat). now apply within_inv.
Qed.
Lemma within_plus n a b c d : within n a b -> within n c d -> within n (a + c) (b + d).
Proof. unfold within. intros [H K] [H' K']. split; nra. Qed.
Lemma within_pos n a b : 0 < b -> within n a b -> 0 < a.
Proof. unfold within. fold g1. intros B [_ K]. pose proof (gpos n). nra. Qed.
Lemma within_nonneg n a b : 0 <= b -> within n a b -> 0 <= a.
Proof. unfold within. fold g1. intros B [_ K]. pose proof (gpos n). nra. Qed.

Lemma rnd_within1 v : / 2 ^ 1000 <= v -> within 1 (rnd v) v.
Proof.
  intros H. assert (V : 0 < v) by (eapply Rlt_le_trans; [|exact H]; apply Rinv_0_lt_compat, pow_lt; lra).
  unfold within. rewrite pow_1. pose proof (rnd_within v H) as [_ U]. split; [exact U|].
  pose proof (relative_error_N_FLT_round radix2 (-1074) 53 eq_refl (fun z => negb (Z.even z)) v) as E.
  assert (B : bpow radix2 (-1074 + 53 - 1) <= Rabs v).
  { rewrite Rabs_pos_eq by lra. eapply Rle_trans; [|exact H]. change (-1074 + 53 - 1)%Z with (- Z.of_nat 1022)%Z. rewrite bpow_neg. apply Rinv_le_contravar; [apply pow_lt; lra|]. apply Rle_pow; [lra|lia]. }
  specialize (E B). replace (/ 2 * bpow radix2 (-(53) + 1)) with ulp_half in E.
  2:{ change (-(53) + 1)%Z with (- Z.of_nat 52)%Z. rewrite bpow_neg. unfold ulp_half. replace (2 ^ 53) with (2 * 2 ^ 52) by (cbn; ring). rewrite Rinv_mult. reflexivity. }
  change (round radix2 (FLT_exp (-1074) 53)) with (round radix2 fexp64) in E.
  rewrite (Rabs_pos_eq (rnd v)) in E by (apply rnd_pos; lra). apply Rabs_le_inv in E. lra.
Qed.
Lemma add_within x y : finite (add64 x y) -> 0 <= value x + value y -> within 1 (value (add64 x y)) (value x + value y).
Proof.
  intros F P. unfold within. rewrite pow_1. pose proof (add_err x y F) as E. rewrite (Rabs_pos_eq (value x + value y)) in E by lra. apply Rabs_le_inv in E. split; [lra|].
  destruct (add_finite _ _ F) as (_ & _ & V). rewrite V.
  destruct (FLT_plus_error_N_round_ex radix2 (-1074) 53 (fun z => negb (Z.even z)) (value x) (value y) (fmt x) (fmt y)) as (eps & He & Q).
  change (round radix2 (FLT_exp (-1074) 53)) with (round radix2 fexp64) in Q. rewrite u_ro_64 in He. rewrite Q at 1.
  assert (0 <= rnd (value x + value y)) by (apply rnd_pos; lra). apply Rmult_le_compat_l; auto. apply Rabs_le_inv in He. lra.
Qed.
Lemma mul_within x y : finite x -> finite y -> / 2 ^ 1000 <= value x * value y <= 2 ^ 1019 -> finite (mul64 x y) /\ within 1 (value (mul64 x y)) (value x * value y).
Proof.
  intros X Y [L H]. assert (0 < / 2 ^ 1000) by (apply Rinv_0_lt_compat, pow_lt; lra).
  destruct (mul_ok x y X Y) as [F V]; [apply rnd_small; rewrite Rabs_pos_eq; lra|]. split; auto. rewrite V. now apply rnd_within1.
Qed.
Lemma div_within x y : finite x -> value y <> 0 -> / 2 ^ 1000 <= value x / value y <= 2 ^ 1019 -> finite (div64 x y) /\ within 1 (value (div64 x y)) (value x / value y).
Proof.
  intros X Y [L H]. assert (0 < / 2 ^ 1000) by (apply Rinv_0_lt_compat, pow_lt; lra).
  destruct (div_ok x y X Y) as [F V]; [apply rnd_small; rewrite Rabs_pos_eq; lra|]. split; auto. rewrite V. now apply rnd_within1.
Qed.
(** Sums of numbers that are not negative. *)
Lemma fold_within l : forall acc, finite acc -> 0 <= value acc -> Forall (fun x => finite x /\ 0 <= value x) l -> (value acc + exact_sum l) * g1 ^ length l <= 2 ^ 1019 ->
  let s := fold_left add64 l acc in finite s /\ within (length l) (value s) (value acc + exact_sum l).
Proof.
  induction l as [|x l IH]; intros acc F P A B; cbn [fold_left length].
  - split; auto. change (exact_sum []) with 0. rewrite Rplus_0_r. now apply within_refl.
  - apply Forall_cons_iff in A as [[Fx Px] A]. rewrite sum_cons in *. cbn [length] in B.
    assert (S0 : 0 <= exact_sum l) by (clear - A; induction A as [|y l [_ Y] _ IH]; [cbn; lra|rewrite sum_cons; lra]).
    pose proof (gp (S (length l))) as G. cbn [pow] in G, B. pose proof (gp (length l)) as G'. pose proof g1_ge as G1.
    assert (X : finite (add64 acc x) /\ value (add64 acc x) = rnd (value acc + value x)).
    { apply add_ok; auto. apply rnd_small. rewrite Rabs_pos_eq by lra. eapply Rle_trans; [|exact B]. nra. }
    destruct X as [Fa Va]. pose proof (add_within acc x Fa ltac:(lra)) as W. assert (Pa : 0 <= value (add64 acc x)) by (eapply within_nonneg; [|exact W]; lra).
    assert (W' : within 1 (value (add64 acc x) + exact_sum l) (value acc + (value x + exact_sum l))).
    { replace (value acc + (value x + exact_sum l)) with (value acc + value x + exact_sum l) by ring. apply within_plus; auto. now apply within_refl. }
    destruct (IH (add64 acc x) Fa Pa A) as [Fs Ws].
    { eapply Rle_trans; [|exact B]. destruct W' as [W' _]. rewrite pow_1 in W'. fold g1 in W'. replace ((value acc + (value x + exact_sum l)) * (g1 * g1 ^ length l)) with ((value acc + (value x + exact_sum l)) * g1 * g1 ^ length l) by ring.
      apply Rmult_le_compat_r; lra. }
    split; auto. change (S (length l)) with (1 + length l)%nat. rewrite Nat.add_comm. eapply within_trans; [exact Ws|exact W'].
Qed.
Lemma g_small n : INR n <= 2 ^ 50 -> g1 ^ n <= 2.
Proof.
  intros H. pose proof (gamma_small n) as G. unfold gamma in G. fold g1 in G. assert (INR n <= 2 ^ 52) by (eapply Rle_trans; [exact H|apply Rle_pow; [lra|lia]]).
  specialize (G H0). assert (2 * INR n * ulp_half <= 1); [|lra]. unfold ulp_half. apply (Rmult_le_reg_r (2 ^ 53)); [apply pow_lt; lra|]. rewrite Rmult_assoc, Rinv_l by (apply Rgt_not_eq, pow_lt; lra).
  rewrite Rmult_1_r, Rmult_1_l. replace (2 ^ 53) with (8 * 2 ^ 50) by (cbn; ring). assert (0 < 2 ^ 50) by (apply pow_lt; lra). lra.
Qed.
Lemma sum_within l : Forall (fun x => finite x /\ 0 <= value x) l -> INR (length l) <= 2 ^ 50 -> exact_sum l <= 2 ^ 1018 ->
  finite (sum64 l) /\ within (Nat.pred (length l)) (value (sum64 l)) (exact_sum l) /\ 0 <= value (sum64 l).
Proof.
  intros A N B. unfold sum64. destruct l as [|x l]; cbn [fold_left length Nat.pred].
  - split; [reflexivity|]. change (exact_sum []) with 0. change (value zero64) with 0. split; [apply within_refl|]; lra.
  - apply Forall_cons_iff in A as [[Fx Px] A]. destruct (add_zero_l x Fx) as [V F]. rewrite sum_cons in *. assert (Pz : 0 <= value (add64 zero64 x)) by lra.
    assert (S0 : 0 <= exact_sum l) by (clear - A; induction A as [|y l [_ Y] _ IH]; [cbn; lra|rewrite sum_cons; lra]).
    cbn [length] in N. rewrite S_INR in N. pose proof (g_small (length l) ltac:(lra)) as G. pose proof (gp (length l)) as G'.
    destruct (fold_within l (add64 zero64 x) F Pz A) as [Fs Ws].
    { rewrite V. apply Rle_trans with (2 ^ 1018 * 2); [|change 1019%nat with (S 1018); cbn [pow]; lra]. apply Rmult_le_compat; lra. }
    rewrite V in Ws. split; auto. split; auto. eapply within_nonneg; [|exact Ws]. lra.
Qed.
