From Verif Require Import Prelude M_Ieee Spec_Ieee P_Ieee M_FloatMix Spec_FloatMix.
From Verif Require P_FloatReports2.
From Coq Require Import Reals List Permutation Lra Lia ZArith.
From Flocq Require Import Core BinarySingleNaN.
Import ListNotations.
Local Open Scope R_scope.

(** * Rounding *)
Lemma rnd_le a b : a <= b -> rnd a <= rnd b.
Proof. apply round_le; try apply valid_rnd_N. apply (FLT_exp_valid (-1074) 53). Qed.
Lemma rnd_fix x : rnd (value x) = value x.
Proof. apply round_generic; [apply valid_rnd_N|]. apply fmt. Qed.
Lemma rnd_0 : rnd 0 = 0. Proof. apply round_0, valid_rnd_N. Qed.
Lemma one_value : value one64 = 1. Proof. apply Bone_correct. Qed.
Lemma one_finite : finite one64. Proof. apply is_finite_Bone. Qed.
Lemma rnd_1 : rnd 1 = 1. Proof. rewrite <- one_value. apply rnd_fix. Qed.
Lemma rnd_pos a : 0 <= a -> 0 <= rnd a. Proof. intros H. rewrite <- rnd_0. now apply rnd_le. Qed.
Lemma rnd_below a x : a <= value x -> rnd a <= value x. Proof. intros H. rewrite <- (rnd_fix x). now apply rnd_le. Qed.
Lemma rnd_below_1 a : a <= 1 -> rnd a <= 1. Proof. intros H. rewrite <- rnd_1. now apply rnd_le. Qed.
Lemma value_lt_max x : Rabs (value x) < bpow radix2 1024. Proof. apply (abs_B2R_lt_emax 53 1024). Qed.
Lemma tiny_pos : 0 < tiny. Proof. unfold tiny. apply Rinv_0_lt_compat, pow_lt. lra. Qed.
Lemma u_lt_1 : ulp_half <= / 8.
Proof. unfold ulp_half. apply Rinv_le_contravar; [lra|]. replace 8 with (2 ^ 3) by ring. apply Rle_pow; [lra|lia]. Qed.

Lemma gt64_spec x y : finite x -> finite y -> gt64 x y = false <-> value x <= value y.
Proof.
  intros Fx Fy. unfold gt64. rewrite (Bcompare_correct 53 1024 x y Fx Fy). fold (value x) (value y). destruct (Rcompare_spec (value x) (value y)); split; intros; try reflexivity; try discriminate; lra.
Qed.
Lemma mul_ok x y : finite x -> finite y -> Rabs (rnd (value x * value y)) < bpow radix2 1024 -> finite (mul64 x y) /\ value (mul64 x y) = rnd (value x * value y).
Proof.
  intros Fx Fy B. pose proof (Bmult_correct 53 1024 _ _ mode_NE x y) as C. fold (mul64 x y) in C. rewrite Rlt_bool_true in C by exact B.
  destruct C as (C1 & C2 & _). split; auto. unfold finite in *. rewrite C2, Fx, Fy. reflexivity.
Qed.
Lemma div_ok x y : finite x -> value y <> 0 -> Rabs (rnd (value x / value y)) < bpow radix2 1024 -> finite (div64 x y) /\ value (div64 x y) = rnd (value x / value y).
Proof.
  intros Fx Ny B. pose proof (Bdiv_correct 53 1024 _ _ mode_NE x y Ny) as C. fold (div64 x y) in C. rewrite Rlt_bool_true in C by exact B.
  destruct C as (C1 & C2 & _). split; auto. unfold finite in *. rewrite C2. exact Fx.
Qed.
Lemma sub_ok x y : finite x -> finite y -> Rabs (rnd (value x - value y)) < bpow radix2 1024 -> finite (sub64 x y) /\ value (sub64 x y) = rnd (value x - value y).
Proof.
  intros Fx Fy B. pose proof (Bminus_correct 53 1024 _ _ mode_NE x y Fx Fy) as C. fold (sub64 x y) in C. rewrite Rlt_bool_true in C by exact B.
  destruct C as (C1 & C2 & _). split; auto.
Qed.
Lemma between_small x a b : Rabs (value a) < bpow radix2 1024 -> Rabs (value b) < bpow radix2 1024 -> value a <= x <= value b -> Rabs x < bpow radix2 1024.
Proof. intros A B H. apply Rabs_def2 in A. apply Rabs_def2 in B. apply Rabs_def1; lra. Qed.
Lemma zero_value : value zero64 = 0. Proof. reflexivity. Qed.

(** * The fraction *)
Lemma fraction_ok x t : finite x -> finite t -> 0 <= value x -> value x <= value t -> 0 < value t ->
  let f := div64 x t in finite f /\ 0 <= value f <= 1 /\ value f = rnd (value x / value t).
Proof.
  intros Fx Ft H0 H1 Hp f. assert (Q : 0 <= value x / value t <= 1).
  { split; [apply Rmult_le_pos; [lra|]; left; now apply Rinv_0_lt_compat|]. apply (Rmult_le_reg_r (value t)); auto. unfold Rdiv. rewrite Rmult_assoc, Rinv_l by lra. lra. }
  assert (B : 0 <= rnd (value x / value t) <= 1) by (split; [apply rnd_pos|apply rnd_below_1]; lra).
  destruct (div_ok x t Fx) as [F V]; [lra| |].
  - apply (between_small _ zero64 one64); [apply value_lt_max|apply value_lt_max|]. rewrite zero_value, one_value. exact B.
  - unfold f. rewrite V. auto.
Qed.
Lemma rest_ok f : finite f -> 0 <= value f <= 1 -> let r := sub64 one64 f in finite r /\ 0 <= value r <= 1 /\ Rabs (value r - (1 - value f)) <= ulp_half * (1 - value f).
Proof.
  intros Ff B r. assert (R : 0 <= rnd (value one64 - value f) <= 1).
  { rewrite one_value. split; [apply rnd_pos|apply rnd_below_1]; lra. }
  destruct (sub_ok one64 f one_finite Ff) as [F V].
  - apply (between_small _ zero64 one64); [apply value_lt_max|apply value_lt_max|]. rewrite zero_value, one_value in *. exact R.
  - fold r in F, V. split; auto. rewrite V in *. split; auto.
    assert (F' : finite (add64 one64 (neg64 f))) by (rewrite <- sub_add; exact F). pose proof (add_err _ _ F') as E. rewrite <- sub_add in E. fold r in E. rewrite V, neg_value, one_value in *.
    replace (1 + - value f) with (1 - value f) in E by ring. rewrite (Rabs_pos_eq (1 - value f)) in E by lra. exact E.
Qed.
Lemma scaled_ok m f : mass_ok m -> finite f -> 0 <= value f <= 1 ->
  finite (mul64 m f) /\ 0 <= value (mul64 m f) <= value m /\ Rabs (value (mul64 m f) - value m * value f) <= ulp_half * (value m * value f) + tiny.
Proof.
  intros [Fm Hm] Ff B. assert (P : 0 <= value m * value f <= value m).
  { split; [apply Rmult_le_pos; lra|]. rewrite <- (Rmult_1_r (value m)) at 2. apply Rmult_le_compat_l; lra. }
  assert (R : 0 <= rnd (value m * value f) <= value m).
  { split; [apply rnd_pos|apply rnd_below]; lra. }
  destruct (mul_ok m f Fm Ff) as [F V].
  - apply (between_small _ zero64 m); [apply value_lt_max|apply value_lt_max|]. rewrite zero_value. exact R.
  - split; auto. rewrite V. split; auto. pose proof (rnd_err (value m * value f)) as E. rewrite (Rabs_pos_eq (value m * value f)) in E by lra. exact E.
Qed.
Lemma split_ok m f : mass_ok m -> finite f -> 0 <= value f <= 1 -> splits m (mul64 m f) (mul64 m (sub64 one64 f)).
Proof.
  intros Hm Ff B. destruct (rest_ok f Ff B) as (Fr & Br & Er). destruct (scaled_ok m f Hm Ff B) as (F1 & B1 & E1). destruct (scaled_ok m _ Hm Fr Br) as (F2 & B2 & E2).
  destruct Hm as [Fm Hm]. split; auto. split; auto. split; auto. split; auto.
  set (r := value (sub64 one64 f)) in *. set (a := value (mul64 m f)) in *. set (b := value (mul64 m (sub64 one64 f))) in *. set (v := value m) in *. set (g := value f) in *. set (u := ulp_half) in *.
  pose proof tiny_pos as T. pose proof ulp_half_pos as U. fold u in U. pose proof u_lt_1 as U1. fold u in U1.
  replace (a + b - v) with ((a - v * g) + ((b - v * r) + v * (r - (1 - g)))) by ring.
  assert (V1 : Rabs (v * (r - (1 - g))) <= v * (u * (1 - g))) by (rewrite Rabs_mult, (Rabs_pos_eq v) by lra; apply Rmult_le_compat_l; lra).
  assert (R1 : r <= (1 + u) * (1 - g)) by (apply Rabs_le_inv in Er; lra).
  assert (V2 : u * (v * r) <= u * (v * ((1 + u) * (1 - g)))) by (apply Rmult_le_compat_l; [lra|]; apply Rmult_le_compat_l; lra).
  eapply Rle_trans; [apply Rabs_triang|]. eapply Rle_trans; [apply Rplus_le_compat_l, Rabs_triang|].
  assert (D : u * (v * g) + (u * (v * ((1 + u) * (1 - g))) + v * (u * (1 - g))) <= 3 * u * v).
  { replace (u * (v * g) + (u * (v * ((1 + u) * (1 - g))) + v * (u * (1 - g)))) with (u * v * (g + (2 + u) * (1 - g))) by ring.
    replace (3 * u * v) with (u * v * 3) by ring. apply Rmult_le_compat_l; [apply Rmult_le_pos; lra|].
    assert ((2 + u) * (1 - g) <= 3 * (1 - g)) by (apply Rmult_le_compat_r; lra). lra. }
  lra.
Qed.
Lemma split_all ms f : Forall mass_ok ms -> finite f -> 0 <= value f <= 1 -> splits_all ms (map (fun m => mul64 m f) ms) (map (fun m => mul64 m (sub64 one64 f)) ms).
Proof. intros H Ff B. induction H; cbn [map]; constructor; auto. now apply split_ok. Qed.

Theorem extract_splits total x ms t l : Forall mass_ok ms -> finite total -> 0 < value total -> finite x -> 0 <= value x ->
  extract64 total x ms = Ok (t, l) -> splits_all ms t l.
Proof.
  intros H Ft Pt Fx Px. unfold extract64. destruct (gt64 x total) eqn:G; [discriminate|]. intros E. injection E as <- <-.
  apply gt64_spec in G; auto. destruct (fraction_ok x total Fx Ft Px G Pt) as (Ff & Bf & _). now apply split_all.
Qed.
Theorem extract_guard total x ms : finite total -> finite x -> ((exists r, extract64 total x ms = Ok r) <-> value x <= value total).
Proof.
  intros Ft Fx. rewrite <- gt64_spec by auto. unfold extract64. destruct (gt64 x total); split; intros H; try discriminate; eauto. destruct H as [r H]. discriminate H.
Qed.
Theorem chem_extract_same total x ms : finite total -> 0 < value total -> chem_extract64 total x ms = extract64 total x ms.
Proof.
  intros Ft P. unfold chem_extract64, extract64. destruct (gt64 x total); auto. destruct total; try reflexivity. cbn in P. unfold value in P. cbn in P. lra.
Qed.
Theorem chem_extract_empty total x ms : value total = 0 -> finite total -> finite x -> value x <= 0 -> chem_extract64 total x ms = Err ZeroDivisionError.
Proof.
  intros Vt Ft Fx Hx. unfold chem_extract64. assert (G : gt64 x total = false) by (apply gt64_spec; auto; lra). rewrite G.
  replace (is_zero64 total) with true; auto. destruct total as [s|s| |s m e B]; try discriminate; auto. exfalso. unfold value in Vt.
  apply (F2R_neq_0 radix2 (Float radix2 (cond_Zopp s (Zpos m)) e)); [destruct s; discriminate|exact Vt].
Qed.

(** * Taking everything *)
Theorem extract_everything total ms : Forall mass_ok ms -> finite total -> 0 < value total ->
  exists t l, extract64 total total ms = Ok (t, l) /\ Forall2 (fun m y => value y = value m) ms t /\ Forall (fun y => value y = 0) l.
Proof.
  intros H Ft Pt. unfold extract64. assert (G : gt64 total total = false) by (apply gt64_spec; auto; lra). rewrite G. eexists _, _. split; [reflexivity|].
  destruct (fraction_ok total total Ft Ft) as (Ff & Bf & Vf); try lra. set (f := div64 total total) in *.
  assert (V : value f = 1) by (rewrite Vf; replace (value total / value total) with 1 by (field; lra); apply rnd_1).
  destruct (rest_ok f Ff Bf) as (Fr & Br & Er). assert (R0 : value (sub64 one64 f) = 0).
  { rewrite V in Er. replace (1 - 1) with 0 in Er by ring. rewrite Rmult_0_r, Rminus_0_r in Er. destruct (Req_dec (value (sub64 one64 f)) 0) as [|N]; auto. apply Rabs_pos_lt in N. lra. }
  split.
  - induction H as [|m ms Hm H IH]; cbn [map]; constructor; auto. destruct (scaled_ok m f Hm Ff Bf) as (F1 & _). destruct (mul_finite _ _ F1) as (_ & _ & ->). rewrite V, Rmult_1_r. apply rnd_fix.
  - induction H as [|m ms Hm H IH]; cbn [map]; constructor; auto. destruct (scaled_ok m _ Hm Fr Br) as (F1 & _). destruct (mul_finite _ _ F1) as (_ & _ & ->). rewrite R0, Rmult_0_r. apply rnd_0.
Qed.

(** * One entry *)
Theorem take_ok x m l : mass_ok m -> finite x -> 0 <= value x -> take64 x m = Ok l ->
  value x <= value m /\ finite l /\ 0 <= value l <= value m /\ Rabs (value l + value x - value m) <= ulp_half * (value m - value x).
Proof.
  intros [Fm Hm] Fx Px. unfold take64. destruct (gt64 x m) eqn:G; [discriminate|]. intros E. injection E as <-. apply gt64_spec in G; auto. split; auto.
  assert (R : 0 <= rnd (value m - value x) <= value m) by (split; [apply rnd_pos|apply rnd_below]; lra).
  destruct (sub_ok m x Fm Fx) as [F V].
  - apply (between_small _ zero64 m); [apply value_lt_max|apply value_lt_max|]. rewrite zero_value. exact R.
  - split; auto. rewrite V. split; auto. assert (F' : finite (add64 m (neg64 x))) by (rewrite <- sub_add; exact F). pose proof (add_err _ _ F') as D. rewrite <- sub_add, V, neg_value in D.
    replace (value m + - value x) with (value m - value x) in D by ring. rewrite (Rabs_pos_eq (value m - value x)) in D by lra. 
    replace (rnd (value m - value x) + value x - value m) with (rnd (value m - value x) - (value m - value x)) by ring. exact D.
Qed.
Theorem take_guard x m : finite m -> finite x -> ((exists l, take64 x m = Ok l) <-> value x <= value m).
Proof. intros Fm Fx. rewrite <- gt64_spec by auto. unfold take64. destruct (gt64 x m); split; intros H; try discriminate; eauto. destruct H as [r H]. discriminate H. Qed.

(** * Mixing *)
Lemma adds_expand l v : adds l v -> forall parts, Forall2 (fun (p : list float64) x => adds p x) parts l -> adds (concat parts) v.
Proof.
  induction 1 as [|x|l m x y Hl IHl Hm IHm|l m x P H IH]; intros parts F.
  - inversion F; subst. constructor.
  - inversion F as [|p ? ps ? Hp F']; subst. inversion F'; subst. cbn [concat]. now rewrite app_nil_r.
  - apply Forall2_app_inv_r in F. destruct F as (p1 & p2 & F1 & F2 & ->). rewrite concat_app. apply adds_two; auto.
  - assert (Q : exists parts', Permutation parts' parts /\ Forall2 (fun (p : list float64) x => adds p x) parts' l).
    { clear IH H. revert parts F. apply Permutation_sym in P. induction P as [|y l1 l2 P IH|y z l1|l1 l2 l3 P1 IH1 P2 IH2]; intros parts F.
      - exists []. inversion F; subst. split; auto.
      - inversion F as [|p ? ps ? Hp F']; subst. destruct (IH ps F') as (q & Q1 & Q2). exists (p :: q). split; auto.
      - inversion F as [|p ? ps ? Hp F']; subst. inversion F' as [|p2 ? ps2 ? Hp2 F2]; subst. exists (p2 :: p :: ps2). split; [apply perm_swap|]. repeat constructor; auto.
      - destruct (IH1 parts F) as (q & Q1 & Q2). destruct (IH2 q Q2) as (r & R1 & R2). exists r. split; auto. etransitivity; eauto. }
    destruct Q as (q & Q1 & Q2). apply (adds_order (concat q)); [|now apply IH]. clear - Q1. induction Q1; cbn [concat]; auto.
    + now apply Permutation_app_head.
    + rewrite !app_assoc. apply Permutation_app_tail, Permutation_app_comm.
    + etransitivity; eauto.
Qed.
Theorem mix_total a b v : length a = length b -> adds (mix64 a b) v -> adds (a ++ b) v.
Proof.
  intros L H. assert (E : exists parts, Forall2 (fun (p : list float64) x => adds p x) parts (mix64 a b) /\ Permutation (concat parts) (a ++ b)).
  { clear H. revert b L. induction a as [|x a IH]; intros [|y b] L; try discriminate; [exists []; split; constructor|]. destruct (IH b) as (ps & P1 & P2); [now injection L|].
    exists ([x; y] :: ps). cbn [mix64]. split.
    - constructor; auto. apply (adds_two [x] [y]); constructor.
    - cbn [concat app]. constructor. rewrite P2. apply Permutation_middle. }
  destruct E as (ps & P1 & P2). apply (adds_order (concat ps)); auto. eapply adds_expand; eauto.
Qed.
Theorem mix_mass a b v : length a = length b -> adds (mix64 a b) v -> finite v ->
  Rabs (value v - (exact_sum a + exact_sum b)) <= gamma (Nat.pred (length a + length b)) * (exact_turnover a + exact_turnover b).
Proof. intros L H F. apply mix_total in H; auto. pose proof (adds_error _ _ H F) as E. now rewrite exact_sum_app, turnover_app, app_length in E. Qed.
Theorem mix_entry a b i x y : length a = length b -> nth_error a i = Some x -> nth_error b i = Some y ->
  exists z, nth_error (mix64 a b) i = Some z /\ (finite z -> Rabs (value z - (value x + value y)) <= ulp_half * Rabs (value x + value y)).
Proof.
  revert b i. induction a as [|p a IH]; intros [|p2 b] [|i] L Ea Eb; try discriminate.
  - cbn in *. injection Ea as ->. injection Eb as ->. exists (add64 x y). split; auto. apply add_err.
  - cbn [mix64 nth_error] in *. apply IH; auto.
Qed.

(** * How much is extracted or created *)
Lemma mass_turnover ms : Forall mass_ok ms -> exact_turnover ms = exact_sum ms.
Proof. induction 1 as [|m ms [F P] H IH]; [reflexivity|]. rewrite turnover_cons, sum_cons, IH, Rabs_pos_eq; auto. Qed.
Lemma mass_sum_pos ms : Forall mass_ok ms -> 0 <= exact_sum ms.
Proof. intros H. rewrite <- mass_turnover by auto. apply turnover_pos. Qed.
(** a computed total of masses, from both sides *)
Lemma total_ratio ms t : Forall mass_ok ms -> adds ms t -> finite t -> 0 < value t -> INR (length ms) <= 2 ^ 51 ->
  let S := exact_sum ms in S <= 2 * value t /\ Rabs (S - value t) <= 4 * (INR (length ms) - 1) * ulp_half * value t.
Proof.
  intros H A F P N S. pose proof (adds_error _ _ A F) as E. rewrite (mass_turnover _ H) in E. fold S in E. pose proof (mass_sum_pos _ H) as S0. fold S in S0.
  assert (Hn : (1 <= length ms)%nat).
  { destruct ms; [|cbn; lia]. exfalso. pose proof (adds_nil_value _ _ A F eq_refl). lra. }
  assert (K : INR (Nat.pred (length ms)) = INR (length ms) - 1) by (destruct ms; [cbn in Hn; lia|]; cbn [length Nat.pred]; rewrite S_INR; ring).
  assert (G : gamma (Nat.pred (length ms)) <= 2 * (INR (length ms) - 1) * ulp_half).
  { rewrite <- K. apply P_FloatReports2.gamma_small. rewrite K. replace (2 ^ 52) with (2 * 2 ^ 51) by (cbn; ring). assert (0 < 2 ^ 51) by (apply pow_lt; lra). lra. }
  pose proof (gamma_pos (Nat.pred (length ms))) as G0. set (g := gamma (Nat.pred (length ms))) in *. set (n := INR (length ms)) in *.
  assert (N1 : 1 <= n) by (unfold n; apply (le_INR 1); exact Hn). pose proof ulp_half_pos as U.
  assert (G2 : g <= / 2).
  { eapply Rle_trans; [exact G|]. apply Rle_trans with (2 * 2 ^ 51 * ulp_half); [apply Rmult_le_compat_r; lra|]. unfold ulp_half. right. replace (2 ^ 53) with (4 * 2 ^ 51) by (cbn; ring). assert (2 ^ 51 <> 0) by (apply pow_nonzero; lra). field; auto. }
  assert (M : g * S <= / 2 * S) by (apply Rmult_le_compat_r; lra). apply Rabs_le_inv in E as E'. assert (S2 : S <= 2 * value t) by lra. split; auto.
  rewrite Rabs_minus_sym. eapply Rle_trans; [exact E|]. apply Rle_trans with (2 * (n - 1) * ulp_half * S); [apply Rmult_le_compat_r; lra|].
  replace (4 * (n - 1) * ulp_half * value t) with (2 * (n - 1) * ulp_half * (2 * value t)) by ring. apply Rmult_le_compat_l; auto. apply Rmult_le_pos; [|lra]. lra.
Qed.

Theorem extract_amount total x ms t l : Forall mass_ok ms -> adds ms total -> finite total -> 0 < value total -> finite x -> 0 <= value x -> INR (length ms) <= 2 ^ 51 ->
  extract64 total x ms = Ok (t, l) ->
  Rabs (exact_sum t - value x) <= (4 * INR (length ms) + 1) * ulp_half * value x + (INR (length ms) + 3 * value total) * tiny.
Proof.
  intros H A Ft Pt Fx Px N E. destruct (total_ratio ms total H A Ft Pt N) as [S2 SD]. set (S := exact_sum ms) in *. set (M := value total) in *. set (v := value x) in *. set (n := INR (length ms)) in *.
  assert (Xle : v <= M) by (apply (extract_guard total x ms); eauto). unfold extract64 in E. destruct (gt64 x total); [discriminate|]. injection E as <- <-.
  destruct (fraction_ok x total Fx Ft Px Xle Pt) as (Ff & Bf & Vf). set (f := div64 x total) in *. pose proof tiny_pos as T. pose proof ulp_half_pos as U. pose proof u_lt_1 as U1. set (u := ulp_half) in *. pose proof (mass_sum_pos _ H) as S0. fold S in S0.
  assert (B1 : Rabs (exact_sum (map (fun m => mul64 m f) ms) - value f * S) <= u * (value f * S) + n * tiny).
  { unfold S, n. clear - H Ff Bf U T. induction H as [|m ms Hm H IH]; [cbn [map length]; change (exact_sum []) with 0; change (INR 0) with 0; rewrite Rmult_0_r, Rminus_0_r, Rabs_R0; lra|].
    cbn [map length]. rewrite !sum_cons, S_INR. destruct (scaled_ok m f Hm Ff Bf) as (_ & _ & E). fold u in E.
    replace (value (mul64 m f) + exact_sum (map (fun m0 => mul64 m0 f) ms) - value f * (value m + exact_sum ms))
      with ((value (mul64 m f) - value m * value f) + (exact_sum (map (fun m0 => mul64 m0 f) ms) - value f * exact_sum ms)) by ring.
    eapply Rle_trans; [apply Rabs_triang|]. lra. }
  assert (B2 : Rabs (value f - v / M) <= u * (v / M) + tiny).
  { rewrite Vf. fold v M. pose proof (rnd_err (v / M)) as R. rewrite (Rabs_pos_eq (v / M)) in R; auto. apply Rmult_le_pos; auto. left; now apply Rinv_0_lt_compat. }
  assert (Q0 : 0 <= v / M) by (apply Rmult_le_pos; auto; left; now apply Rinv_0_lt_compat).
  assert (SM : v / M * S <= 2 * v).
  { replace (2 * v) with (v / M * (2 * M)) by (field; lra). apply Rmult_le_compat_l; auto. }
  assert (SM0 : 0 <= v / M * S) by (apply Rmult_le_pos; auto).
  assert (D1 : Rabs (v / M * S - v) <= 4 * (n - 1) * u * v).
  { replace (v / M * S - v) with (v / M * (S - M)) by (field; lra). rewrite Rabs_mult, (Rabs_pos_eq (v / M)) by auto.
    replace (4 * (n - 1) * u * v) with (v / M * (4 * (n - 1) * u * M)) by (field; lra). apply Rmult_le_compat_l; auto. }
  assert (D2 : Rabs (value f * S - v / M * S) <= u * (v / M * S) + S * tiny).
  { rewrite <- Rmult_minus_distr_r, Rabs_mult, (Rabs_pos_eq S) by auto. replace (u * (v / M * S) + S * tiny) with ((u * (v / M) + tiny) * S) by ring. apply Rmult_le_compat_r; auto. }
  assert (D3 : value f * S <= v / M * S + (u * (v / M * S) + S * tiny)) by (apply Rabs_le_inv in D2; lra).
  replace (exact_sum (map (fun m => mul64 m f) ms) - v) with ((exact_sum (map (fun m => mul64 m f) ms) - value f * S) + ((value f * S - v / M * S) + (v / M * S - v))) by ring.
  eapply Rle_trans; [apply Rabs_triang|]. eapply Rle_trans; [apply Rplus_le_compat_l, Rabs_triang|].
  assert (W : u * (value f * S) <= u * (2 * v + (u * (2 * v) + S * tiny))).
  { apply Rmult_le_compat_l; [lra|]. eapply Rle_trans; [exact D3|]. assert (u * (v / M * S) <= u * (2 * v)) by (apply Rmult_le_compat_l; lra). lra. }
  assert (W2 : u * (v / M * S) <= u * (2 * v)) by (apply Rmult_le_compat_l; lra).
  assert (ST : 0 <= S * tiny) by (apply Rmult_le_pos; lra). assert (UV : 0 <= u * v) by (apply Rmult_le_pos; lra).
  assert (W3 : u * (u * (2 * v)) <= / 8 * (u * (2 * v))) by (apply Rmult_le_compat_r; lra). assert (W4 : u * (S * tiny) <= / 8 * (S * tiny)) by (apply Rmult_le_compat_r; lra).
  assert (ST2 : S * tiny <= 2 * M * tiny) by (apply Rmult_le_compat_r; lra). assert (0 <= M * tiny) by (apply Rmult_le_pos; lra).
  lra.
Qed.

Theorem create_amount total mass a : Forall mass_ok a -> adds a total -> finite total -> 0 < value total -> 0 <= value mass -> INR (length a) <= 2 ^ 51 ->
  Forall finite (create64 total mass a) ->
  Rabs (exact_sum (create64 total mass a) - value mass) <= (4 * INR (length a) + 1) * ulp_half * value mass + INR (length a) * (1 + 2 / value total) * tiny.
Proof.
  intros H A Ft Pt Pm N F. destruct (total_ratio a total H A Ft Pt N) as [S2 SD]. set (S := exact_sum a) in *. set (M := value total) in *. set (v := value mass) in *. set (n := INR (length a)) in *.
  pose proof tiny_pos as T. pose proof ulp_half_pos as U. pose proof u_lt_1 as U1. set (u := ulp_half) in *. pose proof (mass_sum_pos _ H) as S0. fold S in S0.
  assert (I0 : 0 < / M) by now apply Rinv_0_lt_compat. assert (Q0 : 0 <= v / M) by (apply Rmult_le_pos; lra).
  assert (B1 : Rabs (exact_sum (create64 total mass a) - v / M * S) <= 17 / 8 * u * (v / M * S) + n * (1 + 2 / M) * tiny).
  { unfold S, n. unfold create64 in *. clear SD S2 S0 S A N n. induction H as [|m ms Hm H IH].
    - cbn [map length]; change (exact_sum []) with 0; change (INR 0) with 0; rewrite Rmult_0_r, Rminus_0_r, Rabs_R0. lra.
    - cbn [map length] in *. inversion F as [|? ? F1 F2]; subst. specialize (IH F2). rewrite !sum_cons, S_INR.
      destruct (div_finite _ total ltac:(fold M; lra) F1) as [Fp Ed]. destruct (mul_finite _ _ Fp) as (_ & _ & Ep). destruct Hm as [_ Pa].
      set (r := value m) in *. set (p := value (mul64 mass m)) in *. fold v in Ep. fold M in Ed. fold r in Ep.
      assert (VR : 0 <= v * r) by (apply Rmult_le_pos; auto).
      assert (E1 : Rabs (p - v * r) <= u * (v * r) + tiny) by (rewrite Ep; pose proof (rnd_err (v * r)) as R; rewrite (Rabs_pos_eq (v * r)) in R by auto; exact R).
      assert (P0 : 0 <= p) by (rewrite Ep; now apply rnd_pos).
      assert (PM0 : 0 <= p / M) by (apply Rmult_le_pos; lra).
      assert (E2 : Rabs (value (div64 (mul64 mass m) total) - p / M) <= u * (p / M) + tiny) by (rewrite Ed; fold p; pose proof (rnd_err (p / M)) as R; rewrite (Rabs_pos_eq (p / M)) in R by auto; exact R).
      assert (E3 : Rabs (p / M - v / M * r) <= u * (v / M * r) + tiny / M).
      { replace (p / M - v / M * r) with ((p - v * r) * / M) by (field; lra). rewrite Rabs_mult, (Rabs_pos_eq (/ M)) by lra.
        replace (u * (v / M * r) + tiny / M) with ((u * (v * r) + tiny) * / M) by (field; lra). apply Rmult_le_compat_r; lra. }
      assert (VMR : 0 <= v / M * r) by (apply Rmult_le_pos; auto). assert (UV : 0 <= u * (v / M * r)) by (apply Rmult_le_pos; lra).
      assert (TM : 0 <= tiny / M) by (apply Rmult_le_pos; lra).
      assert (PM : p / M <= v / M * r + (u * (v / M * r) + tiny / M)) by (apply Rabs_le_inv in E3; lra).
      assert (E4 : u * (p / M) <= u * (v / M * r) + / 8 * (u * (v / M * r)) + tiny / M).
      { eapply Rle_trans; [apply Rmult_le_compat_l; [lra|exact PM]|].
        assert (u * (u * (v / M * r)) <= / 8 * (u * (v / M * r))) by (apply Rmult_le_compat_r; lra). assert (u * (tiny / M) <= 1 * (tiny / M)) by (apply Rmult_le_compat_r; lra). lra. }
      replace (value (div64 (mul64 mass m) total) + exact_sum (map (fun x => div64 (mul64 mass x) total) ms) - v / M * (r + exact_sum ms))
        with ((value (div64 (mul64 mass m) total) - p / M) + ((p / M - v / M * r) + (exact_sum (map (fun x => div64 (mul64 mass x) total) ms) - v / M * exact_sum ms))) by ring.
      eapply Rle_trans; [apply Rabs_triang|]. eapply Rle_trans; [apply Rplus_le_compat_l, Rabs_triang|].
      replace ((INR (length ms) + 1) * (1 + 2 / M) * tiny) with (INR (length ms) * (1 + 2 / M) * tiny + tiny + 2 * (tiny / M)) by (field; lra). lra. }
  assert (SM : v / M * S <= 2 * v).
  { replace (2 * v) with (v / M * (2 * M)) by (field; lra). apply Rmult_le_compat_l; auto. }
  assert (D1 : Rabs (v / M * S - v) <= 4 * (n - 1) * u * v).
  { replace (v / M * S - v) with (v / M * (S - M)) by (field; lra). rewrite Rabs_mult, (Rabs_pos_eq (v / M)) by auto.
    replace (4 * (n - 1) * u * v) with (v / M * (4 * (n - 1) * u * M)) by (field; lra). apply Rmult_le_compat_l; auto. }
  replace (exact_sum (create64 total mass a) - v) with ((exact_sum (create64 total mass a) - v / M * S) + (v / M * S - v)) by ring.
  eapply Rle_trans; [apply Rabs_triang|].
  assert (W2 : u * (v / M * S) <= u * (2 * v)) by (apply Rmult_le_compat_l; lra). assert (UV : 0 <= u * v) by (apply Rmult_le_pos; lra). lra.
Qed.
Theorem assay_sum total ms : Forall mass_ok ms -> adds ms total -> finite total -> 0 < value total -> INR (length ms) <= 2 ^ 51 -> Forall finite (assay64 total ms) ->
  Forall (fun x => 0 <= value x) (assay64 total ms) /\
  Rabs (exact_sum (assay64 total ms) - 1) <= 4 * INR (length ms) * ulp_half + INR (length ms) * tiny.
Proof.
  intros H A Ft Pt N F. destruct (total_ratio ms total H A Ft Pt N) as [S2 SD]. set (S := exact_sum ms) in *. set (M := value total) in *. set (n := INR (length ms)) in *.
  pose proof tiny_pos as T. pose proof ulp_half_pos as U. pose proof u_lt_1 as U1. set (u := ulp_half) in *. pose proof (mass_sum_pos _ H) as S0. fold S in S0.
  assert (I0 : 0 < / M) by now apply Rinv_0_lt_compat.
  assert (B : Forall (fun x => 0 <= value x) (assay64 total ms) /\ Rabs (exact_sum (assay64 total ms) - S / M) <= u * (S / M) + n * tiny).
  { unfold S, n, assay64 in *. clear SD S2 S0 S A N n. induction H as [|m ms Hm H IH].
    - cbn [map length]; change (exact_sum []) with 0; change (INR 0) with 0; replace (0 / M) with 0 by (unfold Rdiv; ring). rewrite Rminus_0_r, Rabs_R0. split; [constructor|lra].
    - cbn [map length] in *. inversion F as [|? ? F1 F2]; subst. destruct (IH F2) as [I1 I2]. rewrite !sum_cons, S_INR.
      destruct (div_finite _ total ltac:(fold M; lra) F1) as [Fp Ed]. destruct Hm as [_ Pa]. fold M in Ed.
      assert (Q : 0 <= value m / M) by (apply Rmult_le_pos; lra). pose proof (rnd_err (value m / M)) as R. rewrite (Rabs_pos_eq (value m / M)) in R by auto.
      split; [constructor; auto; rewrite Ed; now apply rnd_pos|].
      replace (value (div64 m total) + exact_sum (map (fun m0 => div64 m0 total) ms) - (value m + exact_sum ms) / M)
        with ((value (div64 m total) - value m / M) + (exact_sum (map (fun m0 => div64 m0 total) ms) - exact_sum ms / M)) by (field; lra).
      eapply Rle_trans; [apply Rabs_triang|]. rewrite <- Ed in R. fold u in R. replace ((value m + exact_sum ms) / M) with (value m / M + exact_sum ms / M) by (field; lra). lra. }
  destruct B as [B1 B2]. split; auto.
  assert (SM : S / M <= 2) by (apply (Rmult_le_reg_r M); auto; unfold Rdiv; rewrite Rmult_assoc, Rinv_l by lra; lra).
  assert (D1 : Rabs (S / M - 1) <= 4 * (n - 1) * u).
  { replace (S / M - 1) with ((S - M) * / M) by (field; lra). rewrite Rabs_mult, (Rabs_pos_eq (/ M)) by lra. apply Rle_trans with (4 * (n - 1) * u * M * / M); [apply Rmult_le_compat_r; lra|]. right. field. lra. }
  replace (exact_sum (assay64 total ms) - 1) with ((exact_sum (assay64 total ms) - S / M) + (S / M - 1)) by ring. eapply Rle_trans; [apply Rabs_triang|].
  assert (u * (S / M) <= u * 2) by (apply Rmult_le_compat_l; lra). lra.
Qed.
