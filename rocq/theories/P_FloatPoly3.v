(** The shipped polynomial models in binary64: accuracy. *)
From Verif Require Import Prelude M_Lists M_Thermochem M_Ieee Spec_Ieee P_Ieee M_FloatCompare M_FloatMix P_FloatMix M_FloatLoan P_FloatLoan Spec_FloatStoich P_Within P_FloatReports2 Spec_Special Spec_Physical M_Data_Fluids M_FloatPoly Spec_FloatPoly P_FloatPoly P_FloatPoly2.
From Coq Require Import Reals Qreals List Lra Lia.
From Flocq Require Import Core BinarySingleNaN.
Import ListNotations.
Local Open Scope list_scope.
Local Open Scope R_scope.

(** ** Reading decimals *)
Lemma reads_err q x : reads q x -> Rabs (value x - Q2R q) <= ulp_half * Rabs (Q2R q) + tiny.
Proof. intros [_ ->]. apply rnd_err. Qed.
Theorem reads_exists q : Rabs (Q2R q) <= 2 ^ 1000 -> exists x, reads q x.
Proof.
  intros B. assert (G : generic_format radix2 (FLT_exp (-1074) 53) (nearest (Q2R q))) by (apply generic_format_round; typeclasses eauto).
  apply FLT_format_generic in G; [|typeclasses eauto]. destruct G as [f E M X]. pose proof (binary_normalize_correct 53 1024 _ _ mode_NE (Fnum f) (Fexp f) false) as C.
  change (round radix2 _ (round_mode mode_NE) (F2R (Float radix2 (Fnum f) (Fexp f)))) with (nearest (F2R f)) in C || idtac. destruct f as [m e]. cbn [Fnum Fexp] in *.
  assert (N : nearest (F2R (Float radix2 m e)) = nearest (Q2R q)). { rewrite <- E. unfold nearest. apply round_generic; [typeclasses eauto|]. apply generic_format_round; typeclasses eauto. }
  assert (S : Rabs (nearest (Q2R q)) < bpow radix2 1024). { apply rnd_small. eapply Rle_trans; [exact B|]. apply Rle_pow; [lra|lia]. }
  change (round_mode mode_NE) with ZnearestE in C. unfold nearest in N, S. change (SpecFloat.fexp 53 1024) with (FLT_exp (-1074) 53) in C. rewrite N in C. rewrite Rlt_bool_true in C by exact S. destruct C as (C1 & C2 & _).
  eexists. split; [exact C2|]. exact C1.
Qed.
Lemma reads_all l : (forall q, In q l -> Rabs (Q2R q) <= 2 ^ 1000) -> exists xs, Forall2 reads l xs.
Proof.
  induction l as [|q l IH]; intros H; [exists []; constructor|]. destruct (reads_exists q) as [x X]; [apply H; now left|]. destruct IH as [xs XS]; [intros; apply H; now right|]. exists (x :: xs). now constructor.
Qed.

Lemma abs_split y a : Rabs y <= a -> - a <= y <= a.
Proof. unfold Rabs. destruct (Rcase_abs y); lra. Qed.
(** ** Sums *)
Lemma f2_length {A B} (P : A -> B -> Prop) l m : Forall2 P l m -> List.length l = List.length m.
Proof. induction 1; cbn; congruence. Qed.
Lemma sum_diff qs cs x : Forall2 reads qs cs -> 0 <= x ->
  Rabs (power_sum (map value cs) x - power_sum (map Q2R qs) x) <= ulp_half * power_sum (map (fun q => Rabs (Q2R q)) qs) x + tiny * powers (List.length cs) x.
Proof.
  intros H X. unfold powers. rewrite (Rabs_right x) by lra. induction H as [|q c qs cs R H IH]; cbn [map power_sum List.length repeat]; [rewrite Rminus_0_r, Rabs_R0; lra|].
  rewrite !map_length, repeat_length. assert (L := f2_length _ _ _ H). rewrite L. pose proof (reads_err _ _ R) as E. assert (P := pow_le x (List.length cs) X). set (w := x ^ List.length cs) in *.
  replace (value c * w + power_sum (map value cs) x - (Q2R q * w + power_sum (map Q2R qs) x)) with ((value c - Q2R q) * w + (power_sum (map value cs) x - power_sum (map Q2R qs) x)) by ring.
  eapply Rle_trans; [apply Rabs_triang|]. rewrite Rabs_mult, (Rabs_right w) by lra. assert (Rabs (value c - Q2R q) * w <= (ulp_half * Rabs (Q2R q) + tiny) * w) by (apply Rmult_le_compat_r; lra). lra.
Qed.
Lemma size_diff qs cs x : Forall2 reads qs cs -> 0 <= x -> size_sum cs x <= (1 + ulp_half) * power_sum (map (fun q => Rabs (Q2R q)) qs) x + tiny * powers (List.length cs) x.
Proof.
  intros H X. unfold powers, size_sum. rewrite (Rabs_right x) by lra. induction H as [|q c qs cs R H IH]; cbn [map power_sum List.length repeat]; [lra|].
  rewrite !map_length, repeat_length. assert (L := f2_length _ _ _ H). rewrite L. pose proof (reads_err _ _ R) as E. assert (P := pow_le x (List.length cs) X). set (w := x ^ List.length cs) in *.
  assert (Z : Rabs (value c) <= (1 + ulp_half) * Rabs (Q2R q) + tiny). { replace (value c) with ((value c - Q2R q) + Q2R q) by ring. eapply Rle_trans; [apply Rabs_triang|]. lra. }
  assert (Rabs (value c) * w <= ((1 + ulp_half) * Rabs (Q2R q) + tiny) * w) by (apply Rmult_le_compat_r; lra). lra.
Qed.
Lemma power_bound cs B M : (forall c, In c cs -> c <= B) -> 0 <= B -> 1 <= M -> power_sum cs M <= INR (List.length cs) * B * M ^ List.length cs.
Proof.
  intros H B0 M1. induction cs as [|c cs IH]; [cbn; lra|]. cbn [power_sum List.length]. rewrite S_INR. cbn [pow].
  assert (C : c <= B) by (apply H; now left). assert (Q : power_sum cs M <= INR (List.length cs) * B * M ^ List.length cs) by (apply IH; intros; apply H; now right).
  set (w := M ^ List.length cs) in *. assert (W : 1 <= w) by (apply pow_R1_Rle; auto). pose proof (pos_INR (List.length cs)) as N. set (n := INR (List.length cs)) in *.
  assert (c * w <= B * (M * w)). { apply Rle_trans with (B * w); [apply Rmult_le_compat_r; lra|]. apply Rmult_le_compat_l; [auto|]. nra. }
  assert (n * B * w <= n * B * (M * w)). { apply Rmult_le_compat_l; [nra|]. nra. }
  lra.
Qed.
Lemma gamma_28 : gamma 28 <= 29 * ulp_half.
Proof.
  pose proof (gamma_inv 28) as H. replace (INR 28) with 28 in H by (cbn; lra). pose proof (gamma_pos 28). set (g := gamma 28) in *.
  assert (U : ulp_half <= / 2 ^ 20). { unfold ulp_half. apply Rinv_le_contravar; [apply pow_lt; lra|]. apply Rle_pow; [lra|lia]. }
  assert (V : / 2 ^ 20 <= / 1000000) by (apply Rinv_le_contravar; [lra|]; replace (2 ^ 20) with 1048576 by (cbn; lra); lra). pose proof ulp_half_pos. nra.
Qed.
Lemma powers_15 n x : (n <= 15)%nat -> 1 <= x <= 2000 -> powers n x <= 2 ^ 170.
Proof.
  intros N X. unfold powers. rewrite (Rabs_right x) by lra. eapply Rle_trans; [apply (power_bound _ 1 x); [intros c I; apply repeat_spec in I; lra|lra|lra]|].
  rewrite repeat_length. assert (A : INR n <= 16) by (replace 16 with (INR 16) by (cbn; lra); apply le_INR; lia). pose proof (pos_INR n).
  assert (B : x ^ n <= 2048 ^ 14 * 2048). { replace (2048 ^ 14 * 2048) with (2048 ^ 15) by (cbn [pow]; ring). apply Rle_trans with (x ^ 15); [apply Rle_pow; [lra|auto]|]. apply pow_incr. lra. }
  assert (C : 2048 ^ 14 * 2048 * 16 <= 2 ^ 170). { replace 2048 with (2 ^ 11) by (cbn; lra). replace 16 with (2 ^ 4) by (cbn; lra). rewrite <- pow_mult, <- !pow_add. apply Rle_pow; [lra|lia]. }
  assert (0 <= x ^ n) by (apply pow_le; lra). nra.
Qed.
Lemma tiny_room : tiny * 2 ^ 170 * 4 <= ulp_half * / 1000000000.
Proof.
  unfold tiny, ulp_half. apply Rle_trans with (/ 2 ^ 53 * / 2 ^ 30).
  - replace 4 with (2 ^ 2) by (cbn; lra). rewrite Rmult_assoc, <- pow_add. apply Rmult_le_reg_l with (2 ^ 1075); [apply pow_lt; lra|]. rewrite <- Rmult_assoc, Rinv_r, Rmult_1_l by (apply pow_nonzero; lra).
    rewrite <- Rinv_mult, <- pow_add. replace 1075%nat with (172 + (53 + 30 + 820))%nat by reflexivity. rewrite (pow_add 2 172), (pow_add 2 (53 + 30)). replace (2 ^ (53 + 30) * 2 ^ 820) with (2 ^ 820 * 2 ^ (53 + 30)) by ring.
    rewrite !Rmult_assoc, Rinv_r by (apply pow_nonzero; lra). rewrite Rmult_1_r. assert (1 <= 2 ^ 820) by (apply pow_R1_Rle; lra). pose proof (pow_lt 2 172 ltac:(lra)). change (170 + 2)%nat with 172%nat. nra.
  - apply Rmult_le_compat_l; [left; apply Rinv_0_lt_compat, pow_lt; lra|]. apply Rinv_le_contravar; [lra|]. replace (2 ^ 30) with 1073741824 by (cbn; lra). lra.
Qed.

(** ** The models *)
Section file.
  Variables (f : string) (p : qpoly) (cs : list float64) (lo hi T : float64).
  Hypothesis I : In (f, p) fluid_data.
  Hypothesis RM : reads_model p cs lo hi.
  Hypothesis FT : finite T.
  Hypothesis TL : value lo <= value T.
  Hypothesis TH : value T <= value hi.
  Let x := value T.

  Lemma len_cs : List.length cs = List.length (qp_coeffs p).
  Proof. destruct RM as [A _]. symmetry. exact (f2_length _ _ _ A). Qed.
  Lemma temp_range : Q2R (qp_min p) - / 1000 <= x <= Q2R (qp_max p) + / 1000 /\ 1 <= x <= 2000.
  Proof.
    destruct (simple_in _ _ I) as (_ & L & U & _). destruct RM as (_ & RL & RH). apply reads_err in RL, RH. unfold wide_lo, wide_hi in L, U. rewrite Q2R_minus in L. rewrite Q2R_plus in U. replace (Q2R (1 # 1000)) with (/ 1000) in L, U by (unfold Q2R; cbn; lra).
    assert (U2 : ulp_half <= / 2 ^ 30). { unfold ulp_half. apply Rinv_le_contravar; [apply pow_lt; lra|]. apply Rle_pow; [lra|lia]. }
    assert (V : / 2 ^ 30 <= / 1000000000) by (apply Rinv_le_contravar; [lra|]; replace (2 ^ 30) with 1073741824 by (cbn; lra); lra).
    assert (TY : tiny <= / 1000000000). { eapply Rle_trans; [|exact V]. unfold tiny. apply Rinv_le_contravar; [apply pow_lt; lra|]. apply Rle_pow; [lra|lia]. }
    assert (B : forall q, 1 <= q <= 2001 -> ulp_half * Rabs q + tiny <= / 10000). { intros q Q. rewrite Rabs_right by lra. pose proof ulp_half_pos. nra. }
    assert (MM : Q2R (qp_min p) <= 2001 /\ 0 <= Q2R (qp_max p)).
    { unfold x in *. apply abs_split in RL, RH. pose proof ulp_half_pos as P. split.
      - destruct (Rle_dec (Q2R (qp_min p)) 2001); auto. exfalso. rewrite (Rabs_right (Q2R (qp_min p))) in RL by lra. destruct (Rle_dec 0 (Q2R (qp_max p))); [rewrite (Rabs_right (Q2R (qp_max p))) in RH by lra|rewrite (Rabs_left (Q2R (qp_max p))) in RH by lra]; nra.
      - destruct (Rle_dec 0 (Q2R (qp_max p))); auto. exfalso. rewrite (Rabs_left (Q2R (qp_max p))) in RH by lra. rewrite (Rabs_right (Q2R (qp_min p))) in RL by lra. nra. }
    destruct MM as [M1 M2]. assert (BL := B (Q2R (qp_min p)) ltac:(lra)). assert (RL' := abs_split _ _ RL).
    assert (M3 : 1 <= Q2R (qp_max p)). { assert (RH' := abs_split _ _ RH). rewrite (Rabs_right (Q2R (qp_max p))) in RH' by lra. unfold x in *. destruct (Rle_dec 1 (Q2R (qp_max p))); auto. exfalso. pose proof ulp_half_pos. nra. }
    assert (BH := B (Q2R (qp_max p)) ltac:(lra)). assert (RH' := abs_split _ _ RH). unfold x. lra.
  Qed.
  Lemma file_finite : finite (polyval64 cs T).
  Proof.
    destruct temp_range as [_ X]. destruct (simple_in _ _ I) as (N & _ & _ & _ & C). pose proof len_cs as L. destruct RM as [RC _].
    apply polynomial_finite; auto.
    - clear - RC. induction RC as [|q c qs l [F _] _ IH]; constructor; auto.
    - rewrite L. apply Rle_trans with (INR 30); [apply le_INR; lia|]. replace (INR 30) with 30 by (cbn; lra). apply Rle_trans with (2 ^ 5); [cbn; lra|apply Rle_pow; [lra|lia]].
    - fold x. rewrite (Rabs_right x) by lra. rewrite Rmax_right by lra. unfold room.
      assert (CB : forall c, In c (map (fun c => 1 + Rabs (value c)) cs) -> c <= 2 ^ 30).
      { intros c Ic. apply in_map_iff in Ic. destruct Ic as (y & <- & Iy). assert (E : exists q, In q (qp_coeffs p) /\ reads q y).
        { clear - RC Iy. induction RC as [|q c qs l R _ IH]; [destruct Iy|]. destruct Iy as [->|Iy]; [exists q; split; [now left|exact R]|]. destruct (IH Iy) as (q' & A & B). exists q'. split; [now right|exact B]. }
        destruct E as (q & Iq & R). apply reads_err in R. specialize (C q Iq). pose proof u_lt_1. pose proof tiny_lt_1. pose proof ulp_half_pos. replace (2 ^ 30) with 1073741824 by (cbn; lra).
        assert (Rabs (value y) <= Rabs (value y - Q2R q) + Rabs (Q2R q)). { replace (value y) with ((value y - Q2R q) + Q2R q) at 1 by ring. apply Rabs_triang. } pose proof (Rabs_pos (Q2R q)). nra. }
      eapply Rle_trans; [apply (power_bound _ (2 ^ 30) x CB); [apply pow_le; lra|lra]|]. rewrite map_length, L. set (n := List.length (qp_coeffs p)) in *.
      assert (A : INR n <= 2 ^ 4) by (replace (2 ^ 4) with (INR 16) by (cbn; lra); apply le_INR; lia). pose proof (pos_INR n).
      assert (B : x ^ n <= 2 ^ 165). { replace (2 ^ 165) with (2048 ^ 15) by (replace 2048 with (2 ^ 11) by (cbn; lra); rewrite <- pow_mult; reflexivity). apply Rle_trans with (x ^ 15); [apply Rle_pow; [lra|auto]|]. apply pow_incr. lra. }
      assert (0 <= x ^ n) by (apply pow_le; lra). apply Rle_trans with (2 ^ 4 * 2 ^ 30 * 2 ^ 165).
      + apply Rmult_le_compat; auto. { apply Rmult_le_pos; [lra|apply pow_le; lra]. } apply Rmult_le_compat_r; [apply pow_le; lra|exact A].
      + rewrite <- !pow_add. apply Rle_pow; [lra|lia].
  Qed.
  Theorem file_error : Rabs (value (polyval64 cs T) - Psum p x) <= / 2 ^ 48 * Asum p x.
  Proof.
    destruct temp_range as [_ X]. destruct (simple_in _ _ I) as (N & _ & _ & (l & c & LC & CB) & _). pose proof len_cs as L. destruct RM as [RC _].
    assert (PE := polynomial_error cs T file_finite). cbv zeta in PE. fold x in PE. assert (SD := sum_diff _ _ x RC ltac:(lra)). assert (ZD := size_diff _ _ x RC ltac:(lra)).
    fold (Asum p x) in SD, ZD. fold (Psum p x) in SD. assert (n15 : (List.length cs <= 15)%nat) by lia. set (k := Nat.pred (List.length cs)) in *. assert (K : (2 * k <= 28)%nat) by (unfold k; lia).
    assert (G1 := gamma_mono _ _ K). assert (G2 := gamma_28). assert (G0 := gamma_pos (2 * k)). set (g := gamma (2 * k)) in *.
    assert (PW := powers_15 _ x n15 X). assert (PK : powers k x <= 2 ^ 170) by (apply powers_15; [unfold k; lia|auto]). pose proof (powers_nonneg (List.length cs) x) as P0. pose proof (powers_nonneg k x) as P1.
    assert (AL : / 1000000000 <= Asum p x).
    { unfold Asum. rewrite LC, map_app. cbn [map]. rewrite power_sum_snoc. assert (0 <= power_sum (map (fun q => Rabs (Q2R q)) l) x). { apply power_nonneg; [|lra]. intros y Iy. apply in_map_iff in Iy. destruct Iy as (z & <- & _). apply Rabs_pos. } nra. }
    set (A := Asum p x) in *. pose proof tiny_room as TR. pose proof tiny_pos as T0. pose proof ulp_half_pos as U0. set (u := ulp_half) in *. set (t := tiny) in *. set (B := 2 ^ 170) in *.
    assert (U1 : u <= / 1000). { unfold u, ulp_half. apply Rinv_le_contravar; [lra|]. apply Rle_trans with (2 ^ 10); [cbn; lra|apply Rle_pow; [lra|lia]]. }
    assert (TB : t * B * 4 <= u * A) by (eapply Rle_trans; [exact TR|]; apply Rmult_le_compat_l; lra).
    assert (T1 : t * powers (List.length cs) x <= t * B) by (apply Rmult_le_compat_l; lra). assert (T2 : t * powers k x <= t * B) by (apply Rmult_le_compat_l; lra).
    assert (g1 : g <= 29 * u) by lra. assert (gh : g <= / 2) by lra.
    assert (S1 : g * size_sum cs x <= g * ((1 + u) * A + t * B)) by (apply Rmult_le_compat_l; lra).
    assert (S2 : (1 + g) * t * powers k x <= (1 + g) * (t * B)). { rewrite Rmult_assoc. apply Rmult_le_compat_l; lra. }
    assert (tB0 : 0 <= t * B) by (apply Rmult_le_pos; [lra|apply pow_le; lra]).
    assert (S3 : g * (t * B) <= / 2 * (t * B)) by (apply Rmult_le_compat_r; lra).
    assert (S4 : g * ((1 + u) * A) <= 29 * u * ((1 + u) * A)) by (apply Rmult_le_compat_r; [apply Rmult_le_pos; lra|lra]).
    assert (S5 : u * (u * A) <= / 1000 * (u * A)) by (apply Rmult_le_compat_r; [apply Rmult_le_pos; lra|lra]).
    assert (H48 : / 2 ^ 48 = 32 * u). { unfold u, ulp_half. replace (2 ^ 53) with (2 ^ 48 * 32) by (replace 32 with (2 ^ 5) by (cbn; lra); rewrite <- pow_add; reflexivity). field. }
    rewrite H48. replace (value (polyval64 cs T) - Psum p x) with ((value (polyval64 cs T) - power_sum (map value cs) x) + (power_sum (map value cs) x - Psum p x)) by ring. eapply Rle_trans; [apply Rabs_triang|]. lra.
  Qed.
End file.
