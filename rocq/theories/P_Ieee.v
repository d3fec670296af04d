From Verif Require Import Prelude M_Ieee Spec_Ieee.
From Coq Require Import Reals List Permutation Lra Lia ZArith.
From Flocq Require Import Core BinarySingleNaN Relative Plus_error.
Import ListNotations.
Local Open Scope R_scope.

Notation fexp64 := (SpecFloat.fexp 53 1024).
Notation rnd := (round radix2 fexp64 ZnearestE).

Lemma fmt x : generic_format radix2 (FLT_exp (-1074) 53) (value x).
Proof. apply (generic_format_B2R 53 1024). Qed.
Lemma ulp_half_pos : 0 < ulp_half.
Proof. unfold ulp_half. apply Rinv_0_lt_compat. apply pow_lt; lra. Qed.
Lemma bpow_nat n : bpow radix2 (Z.of_nat n) = 2 ^ n.
Proof. rewrite <- (IZR_Zpower radix2) by lia. rewrite pow_IZR. reflexivity. Qed.
Lemma bpow_neg n : bpow radix2 (- Z.of_nat n) = / 2 ^ n.
Proof. rewrite bpow_opp, bpow_nat. reflexivity. Qed.
Lemma u_ro_64 : u_ro radix2 53 = ulp_half.
Proof.
  unfold u_ro, ulp_half. change (-(53) + 1)%Z with (- Z.of_nat 52)%Z. rewrite bpow_neg.
  replace (2 ^ 53) with (2 * 2 ^ 52) by ring. rewrite Rinv_mult. reflexivity.
Qed.
Lemma u_small : u_ro radix2 53 / (1 + u_ro radix2 53) <= ulp_half.
Proof.
  rewrite u_ro_64. pose proof ulp_half_pos as U. apply (Rmult_le_reg_r (1 + ulp_half)); [lra|]. unfold Rdiv. rewrite Rmult_assoc, Rinv_l by lra.
  pose proof (Rmult_lt_0_compat _ _ U U). lra.
Qed.

(** a finite sum has finite terms and is the rounded sum of their values *)
Lemma add_finite x y : finite (add64 x y) -> finite x /\ finite y /\ value (add64 x y) = rnd (value x + value y).
Proof.
  intros H. assert (F : finite x /\ finite y).
  { unfold finite in *. unfold add64 in H. destruct x as [sx|sx| |sx mx ex Hx], y as [sy|sy| |sy my ey Hy]; cbn in H |- *; auto; try discriminate.
    destruct sx, sy; discriminate. }
  destruct F as [Fx Fy]. split; auto. split; auto.
  pose proof (Bplus_correct 53 1024 _ _ mode_NE x y Fx Fy) as C. fold (add64 x y) in C. destruct (Rlt_bool _ _) eqn:E; [apply C|].
  destruct C as [C _]. exfalso. unfold finite in H. rewrite <- is_finite_SF_B2SF, C in H. discriminate.
Qed.
Lemma neg_value x : value (neg64 x) = - value x. Proof. apply B2R_Bopp. Qed.
Lemma neg_finite x : finite (neg64 x) <-> finite x.
Proof. unfold finite, neg64. rewrite is_finite_Bopp. tauto. Qed.
Lemma sub_add x y : sub64 x y = add64 x (neg64 y).
Proof. unfold sub64, add64, neg64, Bminus. destruct x, y; try reflexivity. all: cbn; try (destruct s, s0; reflexivity). Qed.
Lemma add_err x y : finite (add64 x y) -> Rabs (value (add64 x y) - (value x + value y)) <= ulp_half * Rabs (value x + value y).
Proof.
  intros H. destruct (add_finite _ _ H) as (_ & _ & ->).
  destruct (FLT_plus_error_N_ex radix2 (-1074) 53 (fun z => negb (Z.even z)) (value x) (value y) (fmt x) (fmt y)) as (eps & He & E).
  change (round radix2 (FLT_exp (-1074) 53)) with (round radix2 fexp64) in E. rewrite E.
  replace ((value x + value y) * (1 + eps) - (value x + value y)) with (eps * (value x + value y)) by ring.
  rewrite Rabs_mult. apply Rmult_le_compat_r; [apply Rabs_pos|]. eapply Rle_trans; [exact He|apply u_small].
Qed.
Lemma mul_finite x y : finite (mul64 x y) -> finite x /\ finite y /\ value (mul64 x y) = rnd (value x * value y).
Proof.
  intros H. pose proof (Bmult_correct 53 1024 _ _ mode_NE x y) as C. fold (mul64 x y) in C. destruct (Rlt_bool _ _) eqn:E.
  - destruct C as (C1 & C2 & _). unfold finite in *. rewrite C2 in H. apply andb_true_iff in H. tauto.
  - exfalso. unfold finite in H. rewrite <- is_finite_SF_B2SF, C in H. discriminate.
Qed.
Lemma div_finite x y : value y <> 0 -> finite (div64 x y) -> finite x /\ value (div64 x y) = rnd (value x / value y).
Proof.
  intros N H. pose proof (Bdiv_correct 53 1024 _ _ mode_NE x y N) as C. fold (div64 x y) in C. destruct (Rlt_bool _ _) eqn:E.
  - destruct C as (C1 & C2 & _). unfold finite in *. rewrite C2 in H. auto.
  - exfalso. unfold finite in H. rewrite <- is_finite_SF_B2SF, C in H. discriminate.
Qed.
(** any rounding: relative plus absolute (underflow) error *)
Lemma rnd_err r : Rabs (rnd r - r) <= ulp_half * Rabs r + tiny.
Proof.
  destruct (relative_error_N_FLT'_ex radix2 (-1074) 53 eq_refl (fun z => negb (Z.even z)) r) as (eps & eta & He & Ht & _ & E).
  change (round radix2 (FLT_exp (-1074) 53)) with (round radix2 fexp64) in E. rewrite E.
  replace (r * (1 + eps) + eta - r) with (eps * r + eta) by ring. eapply Rle_trans; [apply Rabs_triang|]. apply Rplus_le_compat.
  - rewrite Rabs_mult. apply Rmult_le_compat_r; [apply Rabs_pos|]. eapply Rle_trans; [exact He|apply u_small].
  - eapply Rle_trans; [exact Ht|]. unfold tiny. change (-1074)%Z with (- Z.of_nat 1074)%Z. rewrite bpow_neg.
    change 1075%nat with (S 1074). rewrite <- (tech_pow_Rmult 2 1074). rewrite Rinv_mult. apply Rle_refl.
Qed.

(** * Sums *)
Lemma gamma_0 : gamma 0 = 0. Proof. unfold gamma. cbn. ring. Qed.
Lemma gamma_mono n m : (n <= m)%nat -> gamma n <= gamma m.
Proof. intros H. unfold gamma. apply Rplus_le_compat_r. apply Rle_pow; [pose proof ulp_half_pos; lra|exact H]. Qed.
Lemma gamma_pos n : 0 <= gamma n. Proof. rewrite <- gamma_0. apply gamma_mono. lia. Qed.
Lemma gamma_S n : gamma (S n) = gamma n + ulp_half * (1 + gamma n). Proof. unfold gamma. cbn. ring. Qed.

Lemma sum_cons x l : exact_sum (x :: l) = value x + exact_sum l. Proof. reflexivity. Qed.
Lemma turnover_cons x l : exact_turnover (x :: l) = Rabs (value x) + exact_turnover l. Proof. reflexivity. Qed.
Lemma exact_sum_app l m : exact_sum (l ++ m) = exact_sum l + exact_sum m.
Proof. induction l as [|x l IH]; [cbn [app]; change (exact_sum []) with 0; ring|]. cbn [app]. rewrite !sum_cons, IH. ring. Qed.
Lemma turnover_app l m : exact_turnover (l ++ m) = exact_turnover l + exact_turnover m.
Proof. induction l as [|x l IH]; [cbn [app]; change (exact_turnover []) with 0; ring|]. cbn [app]. rewrite !turnover_cons, IH. ring. Qed.
Lemma exact_sum_perm l m : Permutation l m -> exact_sum l = exact_sum m.
Proof. induction 1; rewrite ?sum_cons; try lra. Qed.
Lemma turnover_perm l m : Permutation l m -> exact_turnover l = exact_turnover m.
Proof. induction 1; rewrite ?turnover_cons; try lra. Qed.
Lemma turnover_pos l : 0 <= exact_turnover l.
Proof. induction l as [|x l IH]; [apply Rle_refl|]. rewrite turnover_cons. pose proof (Rabs_pos (value x)). lra. Qed.
Lemma sum_turnover l : Rabs (exact_sum l) <= exact_turnover l.
Proof. induction l as [|x l IH]; [cbn; rewrite Rabs_R0; lra|]. rewrite sum_cons, turnover_cons. eapply Rle_trans; [apply Rabs_triang|]. lra. Qed.

Lemma adds_finite l v : adds l v -> finite v -> Forall finite l.
Proof.
  induction 1; intros F; auto.
  - destruct (add_finite _ _ F) as (Fx & Fy & _). apply Forall_app. auto.
  - eapply Permutation_Forall; eauto.
Qed.
Lemma add_zero_l x : finite x -> value (add64 zero64 x) = value x /\ finite (add64 zero64 x).
Proof. unfold finite, add64, zero64. destruct x as [s|s| |s m e H]; cbn; try discriminate; auto. destruct s; auto. Qed.
Lemma add_zero_value x y : finite (add64 x y) -> value x = 0 -> value (add64 x y) = value y.
Proof. intros F E. destruct (add_finite _ _ F) as (_ & _ & V). rewrite V, E, Rplus_0_l. apply round_generic; [apply valid_rnd_N|apply (generic_format_B2R 53 1024)]. Qed.
Lemma add_comm_value x y : finite (add64 x y) -> finite (add64 y x) -> value (add64 x y) = value (add64 y x).
Proof. intros F G. destruct (add_finite _ _ F) as (_ & _ & V). destruct (add_finite _ _ G) as (_ & _ & W). now rewrite V, W, Rplus_comm. Qed.
Lemma adds_nil_value l v : adds l v -> finite v -> l = [] -> value v = 0.
Proof.
  induction 1; intros F E; try discriminate; auto.
  - apply app_eq_nil in E. destruct E as [-> ->]. destruct (add_finite _ _ F) as (Fx & Fy & V). rewrite V, IHadds1, IHadds2 by auto. rewrite Rplus_0_l. apply round_0. apply valid_rnd_N.
  - subst. apply Permutation_sym, Permutation_nil in H. auto.
Qed.
Theorem adds_error l v : adds l v -> finite v -> Rabs (value v - exact_sum l) <= gamma (Nat.pred (length l)) * exact_turnover l.
Proof.
  pose proof ulp_half_pos as U. induction 1 as [|x|l m x y Hl IHl Hm IHm|l m x P H IH]; intros F.
  - cbn. unfold value, zero64. cbn. replace (0 - 0) with 0 by ring. rewrite Rabs_R0. pose proof gamma_pos. rewrite gamma_0. lra.
  - rewrite sum_cons. change (exact_sum []) with 0. cbn [length Nat.pred]. replace (value x - (value x + 0)) with 0 by ring. rewrite Rabs_R0, gamma_0. lra.
  - destruct (add_finite _ _ F) as (Fx & Fy & V). specialize (IHl Fx). specialize (IHm Fy). rewrite exact_sum_app, turnover_app, app_length.
    destruct l as [|a l].
    + assert (X0 : value x = 0) by (eapply adds_nil_value; eauto). rewrite (add_zero_value _ _ F X0). cbn [exact_sum exact_turnover length Nat.add fold_right].
      rewrite !Rplus_0_l. exact IHm.
    + destruct m as [|b m].
      * assert (Y0 : value y = 0) by (eapply adds_nil_value; eauto). rewrite V, Y0, Rplus_0_r, round_generic; [|apply valid_rnd_N|apply (generic_format_B2R 53 1024)].
        change (exact_sum []) with 0. change (exact_turnover []) with 0. rewrite !Rplus_0_r, Nat.add_0_r. exact IHl.
      * set (L := a :: l) in *. set (M := b :: m) in *. set (n := Nat.pred (length L)) in *. set (k := Nat.pred (length M)) in *.
        assert (N : Nat.pred (length L + length M) = S (n + k)) by (unfold n, k, L, M; cbn; lia). rewrite N.
        set (g := gamma (n + k)). assert (Gn : gamma n <= g) by (apply gamma_mono; lia). assert (Gk : gamma k <= g) by (apply gamma_mono; lia).
        pose proof (turnover_pos L) as TL. pose proof (turnover_pos M) as TM.
        assert (A : Rabs (value x + value y - (exact_sum L + exact_sum M)) <= g * (exact_turnover L + exact_turnover M)).
        { replace (value x + value y - (exact_sum L + exact_sum M)) with ((value x - exact_sum L) + (value y - exact_sum M)) by ring.
          eapply Rle_trans; [apply Rabs_triang|]. rewrite Rmult_plus_distr_l. apply Rplus_le_compat.
          - eapply Rle_trans; [exact IHl|]. apply Rmult_le_compat_r; auto.
          - eapply Rle_trans; [exact IHm|]. apply Rmult_le_compat_r; auto. }
        assert (B : Rabs (value x + value y) <= (1 + g) * (exact_turnover L + exact_turnover M)).
        { replace (value x + value y) with ((value x + value y - (exact_sum L + exact_sum M)) + (exact_sum L + exact_sum M)) by ring.
          eapply Rle_trans; [apply Rabs_triang|]. rewrite Rmult_plus_distr_r, Rmult_1_l, Rplus_comm. apply Rplus_le_compat; auto.
          eapply Rle_trans; [apply Rabs_triang|]. apply Rplus_le_compat; apply sum_turnover. }
        replace (value (add64 x y) - (exact_sum L + exact_sum M)) with ((value (add64 x y) - (value x + value y)) + (value x + value y - (exact_sum L + exact_sum M))) by ring.
        eapply Rle_trans; [apply Rabs_triang|]. rewrite gamma_S. fold g.
        pose proof (add_err _ _ F) as E. assert (E2 : ulp_half * Rabs (value x + value y) <= ulp_half * ((1 + g) * (exact_turnover L + exact_turnover M))) by (apply Rmult_le_compat_l; lra).
        lra.
  - rewrite <- (exact_sum_perm _ _ P), <- (turnover_perm _ _ P), <- (Permutation_length P). auto.
Qed.

(** * Exact sums *)
Lemma multiple_format e k : (-1074 <= e)%Z -> (Z.abs k <= 2 ^ 53)%Z -> generic_format radix2 (FLT_exp (-1074) 53) (IZR k * bpow radix2 e).
Proof.
  intros He Hk. destruct (Z.eq_dec (Z.abs k) (2 ^ 53)) as [E|N].
  - assert (K : exists s, (k = s * 2 ^ 53)%Z /\ (Z.abs s <= 1)%Z).
    { destruct (Z.abs_eq_or_opp k) as [X|X]; rewrite X in E; [exists 1%Z|exists (-1)%Z]; lia. }
    destruct K as (s & -> & Hs). apply generic_format_FLT. exists (Float radix2 s (e + 53)).
    + unfold F2R. cbn [Fnum Fexp]. rewrite bpow_plus, mult_IZR. change (IZR (2 ^ 53)) with (bpow radix2 53). ring.
    + cbn [Fnum]. apply Z.le_lt_trans with 1%Z; [exact Hs|reflexivity].
    + cbn [Fexp]. lia.
  - apply generic_format_FLT. exists (Float radix2 k e); cbn [Fnum Fexp]; auto. change (radix2 ^ 53)%Z with (2 ^ 53)%Z. lia.
Qed.
Theorem adds_exact e l v : (-1074 <= e)%Z -> adds l v -> finite v ->
  (forall x, In x l -> exists k, value x = IZR k * bpow radix2 e) -> exact_turnover l <= bpow radix2 (53 + e) ->
  value v = exact_sum l.
Proof.
  intros He. induction 1 as [|x|l m x y Hl IHl Hm IHm|l m x P H IH]; intros F K T.
  - reflexivity.
  - rewrite sum_cons. change (exact_sum []) with 0. ring.
  - destruct (add_finite _ _ F) as (Fx & Fy & V). rewrite turnover_app in T. pose proof (turnover_pos l). pose proof (turnover_pos m).
    assert (Kl : forall z, In z l -> exists k, value z = IZR k * bpow radix2 e) by (intros; apply K, in_or_app; auto).
    assert (Km : forall z, In z m -> exists k, value z = IZR k * bpow radix2 e) by (intros; apply K, in_or_app; auto).
    rewrite V, IHl, IHm by (auto; lra). rewrite exact_sum_app.
    assert (S : forall l', (forall z, In z l' -> exists k, value z = IZR k * bpow radix2 e) -> exists k, exact_sum l' = IZR k * bpow radix2 e).
    { intros l'. induction l' as [|a l' I]; intros Q; [exists 0%Z; cbn; ring|]. destruct (Q a (or_introl eq_refl)) as [k1 E1]. destruct I as [k2 E2]; [intros; apply Q; now right|].
      exists (k1 + k2)%Z. rewrite sum_cons, E1, E2, plus_IZR. ring. }
    destruct (S (l ++ m) K) as [k Ek]. rewrite <- exact_sum_app. rewrite Ek.
    apply round_generic; [apply valid_rnd_N|]. apply multiple_format; auto.
    pose proof (sum_turnover (l ++ m)) as B. rewrite turnover_app, Ek, Rabs_mult in B. rewrite (Rabs_pos_eq (bpow radix2 e)) in B by apply bpow_ge_0.
    assert (B2 : Rabs (IZR k) * bpow radix2 e <= bpow radix2 53 * bpow radix2 e) by (rewrite <- bpow_plus; lra).
    apply Rmult_le_reg_r in B2; [|apply bpow_gt_0]. rewrite <- abs_IZR in B2. change (bpow radix2 53) with (IZR (2 ^ 53)) in B2. now apply le_IZR.
  - rewrite <- (exact_sum_perm _ _ P). apply IH; auto; [intros z Iz; apply K; eapply Permutation_in; eauto|]. rewrite (turnover_perm _ _ P). exact T.
Qed.

(** * Python's sum and += *)
Lemma fold_adds l : forall m x, adds m x -> adds (m ++ l) (fold_left add64 l x).
Proof.
  induction l as [|a l IH]; intros m x H; cbn [fold_left]; [now rewrite app_nil_r|].
  replace (m ++ a :: l) with ((m ++ [a]) ++ l) by (rewrite <- app_assoc; reflexivity). apply IH. apply adds_two; [exact H|constructor].
Qed.
Lemma sum_adds l : adds l (sum64 l).
Proof. apply (fold_adds l [] zero64). constructor. Qed.
