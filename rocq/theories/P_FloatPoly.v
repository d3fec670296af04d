(** Horner's scheme in binary64. *)
From Verif Require Import Prelude M_Ieee Spec_Ieee P_Ieee M_FloatMix P_FloatMix M_FloatLoan P_FloatLoan Spec_FloatStoich P_Within Spec_Special Spec_Physical M_Data_Fluids M_FloatPoly Spec_FloatPoly.
From Coq Require Import Reals Qreals List Lra Lia.
From Flocq Require Import Core BinarySingleNaN.
Import ListNotations.
Local Open Scope list_scope.
Local Open Scope R_scope.

Lemma power_sum_snoc cs c T : power_sum (cs ++ [c]) T = power_sum cs T * T + c.
Proof. induction cs as [|d cs IH]; cbn [power_sum app List.length pow]; [lra|]. rewrite IH, app_length. cbn [List.length]. rewrite Nat.add_1_r. cbn [pow]. ring. Qed.
Lemma repeat_snoc {A} (a : A) n : repeat a (S n) = repeat a n ++ [a].
Proof. induction n as [|n IH]; [reflexivity|]. cbn [repeat app] in *. now rewrite <- IH. Qed.
Lemma powers_S n T : powers (S n) T = powers n T * Rabs T + 1.
Proof. unfold powers. rewrite repeat_snoc. apply power_sum_snoc. Qed.
Lemma powers_0 T : powers 0 T = 0. Proof. reflexivity. Qed.
Lemma size_snoc cs c T : size_sum (cs ++ [c]) T = size_sum cs T * Rabs T + Rabs (value c).
Proof. unfold size_sum. rewrite map_app. apply power_sum_snoc. Qed.
Lemma power_nonneg cs T : (forall c, In c cs -> 0 <= c) -> 0 <= T -> 0 <= power_sum cs T.
Proof. intros H P. induction cs as [|c cs IH]; cbn [power_sum]; [lra|]. assert (0 <= c) by (apply H; now left). assert (0 <= power_sum cs T) by (apply IH; intros; apply H; now right). pose proof (pow_le T (List.length cs) P). nra. Qed.
Lemma size_nonneg cs T : 0 <= size_sum cs T.
Proof. apply power_nonneg; [|apply Rabs_pos]. intros c I. apply in_map_iff in I. destruct I as (x & <- & _). apply Rabs_pos. Qed.
Lemma powers_nonneg n T : 0 <= powers n T.
Proof. apply power_nonneg; [|apply Rabs_pos]. intros c I. apply repeat_spec in I. lra. Qed.
Lemma abs_sum cs T : Rabs (power_sum (map value cs) T) <= size_sum cs T.
Proof.
  unfold size_sum. induction cs as [|c cs IH]; cbn [map power_sum]; [rewrite Rabs_R0; lra|]. eapply Rle_trans; [apply Rabs_triang|]. rewrite Rabs_mult, !map_length, <- RPow_abs. lra.
Qed.
Lemma polyval64_snoc cs c T : polyval64 (cs ++ [c]) T = add64 (mul64 (polyval64 cs T) T) c.
Proof. unfold polyval64. now rewrite fold_left_app. Qed.
Lemma gamma_SS n : 1 + gamma (S (S n)) = (1 + ulp_half) * (1 + ulp_half) * (1 + gamma n).
Proof. rewrite !gamma_S. ring. Qed.
Lemma step_math u t g P T y m y' c A G E :
  0 < u -> 0 < t -> 0 <= g -> Rabs P <= A -> 0 <= G -> Rabs (y - P) <= E -> E <= g * A + (1 + g) * t * G ->
  Rabs (m - y * T) <= u * Rabs (y * T) + t -> Rabs (y' - (m + c)) <= u * Rabs (m + c) ->
  let g' := (1 + u) * (1 + u) * (1 + g) - 1 in
  Rabs (y' - (P * T + c)) <= g' * (A * Rabs T + Rabs c) + (1 + g') * t * (G * Rabs T + 1).
Proof.
  intros U T0 G0 HP HG HE EE HM HY g'.
  assert (A0 : 0 <= A) by (pose proof (Rabs_pos P); lra). set (a := Rabs T) in *. assert (Ta : 0 <= a) by apply Rabs_pos.
  assert (E0 : 0 <= E) by (pose proof (Rabs_pos (y - P)); lra). set (cc := Rabs c) in *. assert (c0 : 0 <= cc) by apply Rabs_pos.
  assert (YT : Rabs (y * T) <= E * a + A * a).
  { rewrite Rabs_mult. fold a. rewrite <- Rmult_plus_distr_r. apply Rmult_le_compat_r; auto. replace y with ((y - P) + P) by ring. eapply Rle_trans; [apply Rabs_triang|]. lra. }
  assert (D : Rabs (m - P * T) <= u * (E * a + A * a) + t + E * a).
  { replace (m - P * T) with ((m - y * T) + (y - P) * T) by ring. eapply Rle_trans; [apply Rabs_triang|]. rewrite (Rabs_mult (y - P)). fold a.
    assert (Rabs (y - P) * a <= E * a) by (apply Rmult_le_compat_r; auto). assert (u * Rabs (y * T) <= u * (E * a + A * a)) by (apply Rmult_le_compat_l; lra). lra. }
  assert (S : Rabs (m + c) <= Rabs (m - P * T) + A * a + cc).
  { replace (m + c) with ((m - P * T) + (P * T) + c) by ring. eapply Rle_trans; [apply Rabs_triang|]. fold cc. apply Rplus_le_compat_r. eapply Rle_trans; [apply Rabs_triang|]. rewrite (Rabs_mult P). fold a. assert (Rabs P * a <= A * a) by (apply Rmult_le_compat_r; auto). lra. }
  assert (Q : Rabs (y' - (P * T + c)) <= u * (Rabs (m - P * T) + A * a + cc) + Rabs (m - P * T)).
  { replace (y' - (P * T + c)) with ((y' - (m + c)) + (m - P * T)) by ring. eapply Rle_trans; [apply Rabs_triang|]. assert (u * Rabs (m + c) <= u * (Rabs (m - P * T) + A * a + cc)) by (apply Rmult_le_compat_l; lra). lra. }
  assert (Q2 : Rabs (y' - (P * T + c)) <= (1 + u) * (u * (E * a + A * a) + t + E * a) + u * (A * a) + u * cc).
  { assert ((1 + u) * Rabs (m - P * T) <= (1 + u) * (u * (E * a + A * a) + t + E * a)) by (apply Rmult_le_compat_l; lra). lra. }
  eapply Rle_trans; [exact Q2|]. assert (EA : E * a <= (g * A + (1 + g) * t * G) * a) by (apply Rmult_le_compat_r; auto).
  assert (B : (1 + u) * (1 + u) * (E * a) <= (1 + u) * (1 + u) * ((g * A + (1 + g) * t * G) * a)) by (apply Rmult_le_compat_l; [nra|auto]).
  assert (C1 : u * cc <= g' * cc) by (apply Rmult_le_compat_r; auto; unfold g'; nra).
  assert (C2 : (1 + u) * t <= (1 + g') * t) by (apply Rmult_le_compat_r; [lra|]; unfold g'; nra).
  assert (F1 : g' * (A * a) = (1 + u) * (1 + u) * (g * A * a) + (u * u + 2 * u) * (A * a)) by (unfold g'; ring).
  assert (F2 : (1 + g') * t * (G * a) = (1 + u) * (1 + u) * ((1 + g) * t * G * a)) by (unfold g'; ring).
  replace (g' * (A * a + cc) + (1 + g') * t * (G * a + 1)) with (g' * (A * a) + g' * cc + (1 + g') * t * (G * a) + (1 + g') * t) by ring. rewrite F1, F2. lra.
Qed.
(** A multiplication by the zero that Horner's scheme starts with. *)
Lemma first_step c T : finite (add64 (mul64 zero64 T) c) -> value (add64 (mul64 zero64 T) c) = value c.
Proof.
  intros F. apply add_zero_value; auto. apply add_finite in F. destruct F as (F & _). apply mul_finite in F. destruct F as (_ & _ & ->). rewrite zero_value, Rmult_0_l. apply rnd_0.
Qed.
Theorem polynomial_error cs T : finite (polyval64 cs T) ->
  let k := Nat.pred (List.length cs) in
  Rabs (value (polyval64 cs T) - power_sum (map value cs) (value T)) <= gamma (2 * k) * size_sum cs (value T) + (1 + gamma (2 * k)) * tiny * powers k (value T).
Proof.
  induction cs as [|c cs IH] using rev_ind; intros F; cbv zeta.
  { cbn. rewrite Rminus_0_r, Rabs_R0. unfold powers. cbn. lra. }
  rewrite polyval64_snoc in *. rewrite map_app. change (map value [c]) with [value c]. rewrite power_sum_snoc, size_snoc, app_length. cbn [List.length]. rewrite Nat.add_1_r. cbn [Nat.pred].
  destruct cs as [|d cs0].
  { cbn [polyval64 fold_left] in F |- *. rewrite (first_step c T F). cbn [map power_sum List.length Nat.mul Nat.add]. rewrite gamma_0, powers_0. replace (value c - (0 * value T + value c)) with 0 by ring. rewrite Rabs_R0. lra. }
  set (cs := d :: cs0) in *. assert (Fm := proj1 (add_finite _ _ F)). assert (Ft := mul_finite _ _ Fm). destruct Ft as (Fy & FT & Em). specialize (IH Fy). cbv zeta in IH.
  assert (L : List.length cs = S (Nat.pred (List.length cs))) by (unfold cs; reflexivity). set (k := Nat.pred (List.length cs)) in *. rewrite L. replace (2 * S k)%nat with (S (S (2 * k))) by lia.
  assert (HM := rnd_err (value (polyval64 cs T) * value T)). rewrite <- Em in HM. assert (HY := add_err _ _ F).
  rewrite powers_S. replace (gamma (S (S (2 * k)))) with ((1 + ulp_half) * (1 + ulp_half) * (1 + gamma (2 * k)) - 1) by (rewrite <- gamma_SS; ring).
  exact (step_math ulp_half tiny (gamma (2 * k)) _ (value T) _ _ _ (value c) (size_sum cs (value T)) (powers k (value T)) _ ulp_half_pos tiny_pos (gamma_pos _) (abs_sum _ _) (powers_nonneg _ _) IH (Rle_refl _) HM HY).
Qed.
(** At zero: the last coefficient. *)
Theorem polynomial_at_zero cs c T : finite (polyval64 (cs ++ [c]) T) -> value T = 0 -> value (polyval64 (cs ++ [c]) T) = value c.
Proof.
  rewrite polyval64_snoc. intros F Z. apply add_zero_value; auto. apply add_finite in F. destruct F as (F & _). apply mul_finite in F. destruct F as (_ & _ & ->). rewrite Z, Rmult_0_r. apply rnd_0.
Qed.
(** A bound that keeps every step within range. *)
Definition room (cs : list float64) (M : R) : R := power_sum (map (fun c => 1 + Rabs (value c)) cs) M.
Lemma room_snoc cs c M : room (cs ++ [c]) M = room cs M * M + (1 + Rabs (value c)).
Proof. unfold room. rewrite map_app. apply power_sum_snoc. Qed.
Lemma room_nonneg cs M : 0 <= M -> 0 <= room cs M.
Proof. intros H. apply power_nonneg; auto. intros c I. apply in_map_iff in I. destruct I as (x & <- & _). pose proof (Rabs_pos (value x)). lra. Qed.
Theorem polynomial_finite cs T : finite T -> Forall finite cs -> INR (2 * List.length cs) <= 2 ^ 50 -> room cs (Rmax 1 (Rabs (value T))) <= 2 ^ 1000 -> finite (polyval64 cs T).
Proof.
  intros FT FC. set (M := Rmax 1 (Rabs (value T))). assert (M1 : 1 <= M) by apply Rmax_l. assert (MT : Rabs (value T) <= M) by apply Rmax_r.
  assert (W : INR (2 * List.length cs) <= 2 ^ 50 -> room cs M <= 2 ^ 1000 -> finite (polyval64 cs T) /\ Rabs (value (polyval64 cs T)) <= g1 ^ (2 * List.length cs) * room cs M);
    [|intros A B; exact (proj1 (W A B))].
  induction cs as [|c cs IH] using rev_ind; intros N B.
  { split; [reflexivity|]. cbn. rewrite Rabs_R0. unfold room. cbn. lra. }
  rewrite Forall_app in FC. destruct FC as [FC Fc]. inversion Fc as [|? ? Fc1 _]; subst. rewrite room_snoc in *. rewrite app_length, Nat.add_1_r in *.
  pose proof (room_nonneg cs M ltac:(lra)) as R0. pose proof (Rabs_pos (value c)) as C0.
  assert (N' : INR (2 * List.length cs) <= 2 ^ 50) by (eapply Rle_trans; [|exact N]; apply le_INR; lia).
  assert (B' : room cs M <= 2 ^ 1000) by nra. destruct (IH FC N' B') as [Fy By]. rewrite polyval64_snoc. set (y := polyval64 cs T) in *.
  set (k := (2 * List.length cs)%nat) in *. assert (G := g_small k N'). assert (Gk := gpos k). assert (G2 := g_small _ N). replace (2 * S (List.length cs))%nat with (S (S k)) in G2 |- * by (unfold k; lia).
  set (W := g1 ^ k * room cs M) in *. assert (W0 : 0 <= W) by (unfold W; apply Rmult_le_pos; lra).
  assert (WM : W * M <= 2 * 2 ^ 1000). { unfold W. rewrite Rmult_assoc. apply Rmult_le_compat; nra. }
  assert (P19 : 2 * 2 ^ 1000 * 8 <= 2 ^ 1019). { replace (2 ^ 1019) with (2 ^ 1000 * 2 ^ 19) by (rewrite <- pow_add; reflexivity). pose proof (pow_lt 2 1000 ltac:(lra)). replace (2 ^ 19) with 524288 by (cbn; lra). lra. }
  assert (P0 : 1 <= 2 ^ 1000) by (apply pow_R1_Rle; lra).
  assert (YT : Rabs (value y * value T) <= W * M). { rewrite Rabs_mult. apply Rmult_le_compat; auto using Rabs_pos. }
  destruct (mul_safe y T Fy FT) as [Fm Vm]; [lra|]. set (m := mul64 y T) in *.
  assert (T1 := tiny_lt_1). assert (U0 := ulp_half_pos). assert (U1 := u_lt_1).
  assert (BM : Rabs (value m) <= g1 * (W * M + 1)).
  { rename Vm into HM. replace (value m) with ((value m - value y * value T) + value y * value T) by ring. eapply Rle_trans; [apply Rabs_triang|]. unfold g1.
    assert (ulp_half * Rabs (value y * value T) <= ulp_half * (W * M)) by (apply Rmult_le_compat_l; lra). lra. }
  assert (MC : Rabs (value m + value c) <= g1 * (W * M + 1 + Rabs (value c))).
  { eapply Rle_trans; [apply Rabs_triang|]. unfold g1 in *. nra. }
  assert (CB : Rabs (value c) <= 2 ^ 1000) by nra. assert (G1 : g1 <= 2) by (unfold g1; lra). assert (G1p := gpos 1). rewrite pow_1 in G1p.
  assert (SF : Rabs (value m + value c) <= 2 ^ 1019).
  { eapply Rle_trans; [exact MC|]. assert (WM0 : 0 <= W * M) by (apply Rmult_le_pos; lra). assert (X : g1 * (W * M + 1 + Rabs (value c)) <= 2 * (W * M + 1 + Rabs (value c))) by (apply Rmult_le_compat_r; lra). lra. }
  destruct (add_safe m c Fm Fc1 SF) as [Fa AE]. split; [exact Fa|].
  replace (value (add64 m c)) with ((value (add64 m c) - (value m + value c)) + (value m + value c)) by ring. eapply Rle_trans; [apply Rabs_triang|].
  assert (X : ulp_half * Rabs (value m + value c) + Rabs (value m + value c) <= g1 * (g1 * (W * M + 1 + Rabs (value c)))).
  { replace (ulp_half * Rabs (value m + value c) + Rabs (value m + value c)) with (g1 * Rabs (value m + value c)) by (unfold g1; ring). apply Rmult_le_compat_l; lra. }
  assert (Y : g1 * (g1 * (W * M + 1 + Rabs (value c))) <= g1 ^ S (S k) * (room cs M * M + (1 + Rabs (value c)))).
  { cbn [pow]. rewrite !Rmult_assoc. apply Rmult_le_compat_l; [lra|]. apply Rmult_le_compat_l; [lra|]. unfold W. assert (1 <= g1 ^ k) by apply gp. nra. }
  lra.
Qed.
