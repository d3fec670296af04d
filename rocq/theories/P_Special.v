From Verif Require Import Prelude M_Float M_Ieee Spec_Ieee P_Ieee M_FloatMix P_FloatMix M_FloatCompare Spec_Special P_FloatReports.
From Verif Require Import P_FloatReports2.
From Coq Require Import Qabs Reals Qreals List Lra Lia ZArith.
From Flocq Require Import Core BinarySingleNaN.
Local Open Scope R_scope.

Lemma reading_finite x : finite x -> reading x = Fin (qval x).
Proof. destruct x; intros F; try discriminate; reflexivity. Qed.
Lemma qval_fin x : finite x -> Q2R (qval x) = value x. Proof. intros F. symmetry. now apply qval_value. Qed.
Lemma qval_pos_inf s : value (B754_infinity s) = 0. Proof. reflexivity. Qed.
Lemma Q2R_inj_c (a b : Qc) : Q2R a = Q2R b -> a = b.
Proof. intros H. apply Qc_is_canon. now apply eqR_Qeq. Qed.
Lemma is_zero_value x : finite x -> is_zero (qval x) = true <-> value x = 0.
Proof.
  intros F. unfold is_zero. rewrite (qval_value x F). unfold Qc_eq_bool. destruct (Qc_eq_dec (qval x) 0) as [E|N]; split; intros H; auto; try discriminate.
  - rewrite E. apply Q2R_0_c.
  - exfalso. apply N. apply Q2R_inj_c. now rewrite H, Q2R_0_c.
Qed.
Lemma qlt_value (a b : Qc) : qlt a b = true <-> Q2R a < Q2R b.
Proof. unfold qlt. destruct (Qclt_le_dec a b) as [L|L]; split; intros H; auto; try discriminate; [now apply Qlt_Rlt|]. apply Qle_Rle in L. lra. Qed.
Lemma finite_neg s m e H : negative (qval (B754_finite s m e H)) = s.
Proof.
  unfold negative. apply Bool.eq_iff_eq_true. rewrite qlt_value, (qval_fin (B754_finite s m e H) eq_refl), Q2R_0_c. unfold value. cbn [B2R]. destruct s; cbn [cond_Zopp]; split; intros X; auto; try discriminate.
  - now apply F2R_lt_0.
  - exfalso. assert (0 < F2R (Float radix2 (Zpos m) e)) by (now apply F2R_gt_0). lra.
Qed.
Lemma finite_nz s m e H : is_zero (qval (B754_finite s m e H)) = false.
Proof.
  apply not_true_is_false. intros E. apply is_zero_value in E; [|reflexivity]. apply F2R_neq_0 in E; [exact E|]. destruct s; discriminate.
Qed.
Lemma zero_q s : qval (B754_zero s) = 0%Qc. Proof. reflexivity. Qed.
Lemma big1024 : 2 ^ 1024 = bpow radix2 1024. Proof. change 1024%Z with (Z.of_nat 1024). now rewrite bpow_nat. Qed.

Lemma add_rounds x y : finite x -> finite y -> rounds_to (Fin (qval x + qval y)%Qc) (add64 x y).
Proof.
  intros Fx Fy B. rewrite Q2R_plus_c, !qval_fin, big1024 in * by auto. pose proof (Bplus_correct 53 1024 _ _ mode_NE x y Fx Fy) as C. fold (add64 x y) in C. cbv zeta in C. rewrite Rlt_bool_true in C by exact B. destruct C as (C1 & C2 & _). auto.
Qed.
Lemma sub_rounds x y : finite x -> finite y -> rounds_to (Fin (qval x + - qval y)%Qc) (sub64 x y).
Proof.
  intros Fx Fy B. replace (qval x + - qval y)%Qc with (qval x - qval y)%Qc in * by ring. rewrite Q2R_minus_c, !qval_fin, big1024 in * by auto. destruct (sub_ok x y Fx Fy B). auto.
Qed.
Lemma Q2R_mult_c (a b : Qc) : Q2R (a * b)%Qc = Q2R a * Q2R b.
Proof. unfold Qcmult, Q2Qc. cbn [this]. rewrite (Qeq_eqR _ _ (Qred_correct _)). apply Q2R_mult. Qed.
Lemma Q2R_div_c (a b : Qc) : b <> 0%Qc -> Q2R (a / b)%Qc = Q2R a / Q2R b.
Proof.
  intros N. assert (R : Q2R b <> 0). { intros E. apply N. apply Q2R_inj_c. now rewrite E, Q2R_0_c. }
  apply (Rmult_eq_reg_r (Q2R b)); auto. rewrite <- Q2R_mult_c. replace (a / b * b)%Qc with a by (field; auto). field. auto.
Qed.
Lemma mul_rounds x y : finite x -> finite y -> rounds_to (Fin (qval x * qval y)%Qc) (mul64 x y).
Proof. intros Fx Fy B. rewrite Q2R_mult_c, !qval_fin, big1024 in * by auto. destruct (mul_ok x y Fx Fy B). auto. Qed.
Lemma div_rounds x y : finite x -> finite y -> value y <> 0 -> rounds_to (Fin (qval x / qval y)%Qc) (div64 x y).
Proof.
  intros Fx Fy N B. rewrite Q2R_div_c, !qval_fin, big1024 in * by (auto; intros E; apply N; rewrite <- qval_fin, E by auto; apply Q2R_0_c). destruct (div_ok x y Fx N B). auto.
Qed.

Theorem add_special x y : rounds_to (fadd (reading x) (reading y)) (add64 x y).
Proof.
  destruct x as [sx|sx| |sx mx ex Hx], y as [sy|sy| |sy my ey Hy]; try exact eq_refl; try (cbn [reading fadd]; apply add_rounds; reflexivity). destruct sx, sy; exact eq_refl.
Qed.
Theorem sub_special x y : rounds_to (fsub (reading x) (reading y)) (sub64 x y).
Proof.
  destruct x as [sx|sx| |sx mx ex Hx], y as [sy|sy| |sy my ey Hy]; try exact eq_refl; try (cbn [reading fsub fopp fadd]; apply sub_rounds; reflexivity). destruct sx, sy; exact eq_refl.
Qed.
Lemma neg_rounds x : finite x -> rounds_to (Fin (- qval x)%Qc) (neg64 x).
Proof.
  intros F _. assert (E : Q2R (- qval x)%Qc = - value x).
  { rewrite <- (qval_fin x F). unfold Qcopp, Q2Qc. cbn [this]. rewrite (Qeq_eqR _ _ (Qred_correct _)). apply Q2R_opp. }
  split; [now apply neg_finite|]. rewrite E, <- neg_value. symmetry. apply rnd_fix.
Qed.
Theorem neg_special x : rounds_to (fopp (reading x)) (neg64 x).
Proof. destruct x as [s|s| |s m e H]; try exact eq_refl; cbn [reading fopp]; apply neg_rounds; reflexivity. Qed.
Theorem mul_special x y : rounds_to (fmul (reading x) (reading y)) (mul64 x y).
Proof.
  destruct x as [sx|sx| |sx mx ex Hx], y as [sy|sy| |sy my ey Hy]; try exact eq_refl; try (cbn [reading fmul]; apply mul_rounds; reflexivity); cbn [reading fmul];
    rewrite finite_nz, finite_neg; [exact eq_refl|]; cbn; now rewrite xorb_comm.
Qed.
(** A zero divisor is taken as positive. *)
Theorem div_special x y : y <> B754_zero true -> rounds_to (fdiv (reading x) (reading y)) (div64 x y).
Proof.
  intros N. destruct y as [sy|sy| |sy my ey Hy].
  - assert (sy = false) as -> by (destruct sy; congruence). change (reading (B754_zero false)) with (Fin 0). destruct x as [sx|sx| |sx mx ex Hx]; try exact eq_refl; try (destruct sx; exact eq_refl).
    cbn [reading fdiv]. change (is_zero 0) with true. rewrite finite_nz, finite_neg. cbn. now rewrite xorb_false_r.
  - destruct x as [sx|sx| |sx mx ex Hx]; try exact eq_refl; intros _; (split; [reflexivity|]); cbn [reading fdiv]; unfold nearest; rewrite Q2R_0_c, round_0 by apply valid_rnd_N; reflexivity.
  - destruct x; exact eq_refl.
  - assert (NZ : value (B754_finite sy my ey Hy) <> 0) by (apply F2R_neq_0; destruct sy; discriminate).
    destruct x as [sx|sx| |sx mx ex Hx]; cbn [reading fdiv]; rewrite ?finite_nz, ?finite_neg; try exact eq_refl; apply div_rounds; auto; reflexivity.
Qed.
Lemma lt_fin x y : finite x -> finite y -> qlt (qval x) (qval y) = lt64 x y.
Proof.
  intros Fx Fy. apply Bool.eq_iff_eq_true. rewrite qlt_value, !qval_fin by auto. unfold lt64. rewrite (Bcompare_correct 53 1024 x y Fx Fy). fold (value x) (value y).
  destruct (Rcompare_spec (value x) (value y)); split; intros; auto; try discriminate; lra.
Qed.
Lemma eq_fin x y : finite x -> finite y -> Qc_eq_bool (qval x) (qval y) = eq64 x y.
Proof.
  intros Fx Fy. apply Bool.eq_iff_eq_true. assert (E : Qc_eq_bool (qval x) (qval y) = true <-> value x = value y).
  { rewrite <- !qval_fin by auto. unfold Qc_eq_bool. destruct (Qc_eq_dec (qval x) (qval y)) as [E|N]; split; intros H; auto; try discriminate; [now rewrite E|]. exfalso. apply N. now apply Q2R_inj_c. }
  rewrite E. unfold eq64. rewrite (Bcompare_correct 53 1024 x y Fx Fy). fold (value x) (value y).
  destruct (Rcompare_spec (value x) (value y)); split; intros; auto; try discriminate; lra.
Qed.
Theorem lt_special x y : flt (reading x) (reading y) = lt64 x y.
Proof. destruct x as [sx|sx| |sx mx ex Hx], y as [sy|sy| |sy my ey Hy]; try (cbn [reading flt]; apply lt_fin; reflexivity); try reflexivity; try (destruct sx; reflexivity); try (destruct sy; reflexivity); try (destruct sx, sy; reflexivity). Qed.
Theorem eq_special x y : feq (reading x) (reading y) = eq64 x y.
Proof. destruct x as [sx|sx| |sx mx ex Hx], y as [sy|sy| |sy my ey Hy]; try (cbn [reading feq]; apply eq_fin; reflexivity); try reflexivity; try (destruct sx; reflexivity); try (destruct sy; reflexivity); try (destruct sx, sy; reflexivity). Qed.
