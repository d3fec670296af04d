(** The shipped polynomial models in binary64: how the terms compare with their sum. *)
From Coq Require Import Qround Qabs.
From Verif Require Import Prelude M_Lists M_Thermochem M_Physical M_Data_Fluids M_Fluids Spec_Physical P_PolyZ P_Poly P_Fluids Spec_FloatPoly.
From Coq Require Import Reals Qreals Lra Lia.
Local Open Scope list_scope.
Local Open Scope R_scope.

Definition margin (f : string) : Z := Qfloor (accuracy f * inject_Z (2 ^ 48)).
Definition sizes (p : qpoly) : qpol := rev (map Qabs (qp_coeffs p)).
Definition wide_lo (p : qpoly) : Q := (qp_min p - (1 # 1000))%Q.
Definition wide_hi (p : qpoly) : Q := (qp_max p + (1 # 1000))%Q.
Definition dominated (f : string) (p : qpoly) : bool :=
  pos_on 16 (padd (pscale (inject_Z (margin f)) (rev (qp_coeffs p))) (pneg (sizes p))) (wide_lo p) (wide_hi p).
Definition simple_file (p : qpoly) : bool :=
  ((List.length (qp_coeffs p) <=? 15)%nat && Qle_bool (1 # 1) (wide_lo p) && Qle_bool (wide_hi p) (2000 # 1) &&
   match rev (qp_coeffs p) with c :: _ => Qle_bool (1 # 1000000000) (Qabs c) | [] => false end &&
   forallb (fun c => Qle_bool (Qabs c) (100000000 # 1)) (qp_coeffs p))%bool.
Lemma all_simple : forallb (fun fp => simple_file (snd fp)) fluid_data = true.
Proof. vm_compute. reflexivity. Qed.
Lemma all_dominated : forallb (fun fp => String.eqb (fst fp) "water-beta" || dominated (fst fp) (snd fp))%bool fluid_data = true.
Proof. vm_compute. reflexivity. Qed.
(** water-beta changes its sign: a bound of the terms instead. *)
Definition beta_bounded (p : qpoly) : bool := pos_on 16 (padd [2814749 # 1] (pneg (sizes p))) (wide_lo p) (wide_hi p).
Lemma beta_check : forallb (fun fp => negb (String.eqb (fst fp) "water-beta") || beta_bounded (snd fp))%bool fluid_data = true.
Proof. vm_compute. reflexivity. Qed.

Definition Asum (p : qpoly) (x : R) : R := power_sum (map (fun q => Rabs (Q2R q)) (qp_coeffs p)) x.
Definition Psum (p : qpoly) (x : R) : R := power_sum (map Q2R (qp_coeffs p)) x.
Lemma Qabs_R q : Q2R (Qabs q) = Rabs (Q2R q).
Proof.
  assert (Z : Q2R 0 = 0) by (unfold Q2R; cbn; lra). destruct (Qlt_le_dec q 0) as [H|H].
  - rewrite (Qeq_eqR _ _ (Qabs_neg q (Qlt_le_weak _ _ H))), Q2R_opp. apply Qlt_Rlt in H. rewrite Rabs_left; lra.
  - rewrite (Qeq_eqR _ _ (Qabs_pos q H)). apply Qle_Rle in H. rewrite Rabs_right; lra.
Qed.
Lemma ev_sizes p x : ev (sizes p) x = Asum p x.
Proof. unfold sizes, Asum. rewrite ev_rev, map_map. f_equal. apply map_ext. exact Qabs_R. Qed.
Lemma in_wide p x : Q2R (qp_min p) - / 1000 <= x <= Q2R (qp_max p) + / 1000 -> Q2R (wide_lo p) <= x <= Q2R (wide_hi p).
Proof. unfold wide_lo, wide_hi. rewrite Q2R_minus, Q2R_plus. replace (Q2R (1 # 1000)) with (/ 1000) by (unfold Q2R; cbn; lra). auto. Qed.
Lemma margin_le f : IZR (margin f) <= Q2R (accuracy f) * 2 ^ 48.
Proof.
  unfold margin. pose proof (Qfloor_le (accuracy f * inject_Z (2 ^ 48))) as H. apply Qle_Rle in H. rewrite Q2R_mult in H. unfold Q2R at 1 in H. cbn [Qnum Qden inject_Z] in H. rewrite Rinv_1, Rmult_1_r in H.
  replace (2 ^ 48) with (Q2R (inject_Z (2 ^ 48))); [exact H|]. unfold Q2R, inject_Z. cbn [Qnum Qden]. rewrite Rinv_1, Rmult_1_r. change (2 ^ 48)%Z with (2 ^ Z.of_nat 48)%Z. now rewrite <- pow_IZR.
Qed.
Theorem terms_bounded f p x : In (f, p) fluid_data -> f <> "water-beta"%string -> Q2R (qp_min p) - / 1000 <= x <= Q2R (qp_max p) + / 1000 -> 0 <= Psum p x -> Asum p x <= Q2R (accuracy f) * 2 ^ 48 * Psum p x.
Proof.
  intros I N X P. assert (A := proj1 (forallb_forall _ _) all_dominated _ I). cbn [fst snd] in A. apply orb_prop in A. destruct A as [A|A]; [now apply String.eqb_eq in A|].
  apply in_wide in X. unfold dominated in A. assert (B := pos_on_sound _ _ _ _ _ A X). rewrite ev_add, ev_scale, ev_neg, ev_sizes, ev_rev in B. fold (Psum p x) in B.
  replace (Q2R (inject_Z (margin f))) with (IZR (margin f)) in B by (unfold Q2R, inject_Z; cbn [Qnum Qden]; rewrite Rinv_1; ring).
  pose proof (Rmult_le_compat_r _ _ _ P (margin_le f)). lra.
Qed.
Lemma margin_nonneg f : 0 <= IZR (margin f).
Proof. unfold margin. apply IZR_le. apply (Z.le_trans _ (Qfloor 0)); [reflexivity|]. apply Qfloor_resp_le. unfold accuracy. repeat (match goal with |- context [if ?b then _ else _] => destruct b end); discriminate. Qed.
Lemma Asum_nonneg p x : 0 <= x -> 0 <= Asum p x.
Proof. intros X. unfold Asum. induction (qp_coeffs p) as [|q l IH]; cbn [map power_sum]; [lra|]. pose proof (Rabs_pos (Q2R q)). pose proof (pow_le x (List.length (map (fun q => Rabs (Q2R q)) l)) X). nra. Qed.
Theorem sum_positive f p x : In (f, p) fluid_data -> f <> "water-beta"%string -> Q2R (qp_min p) - / 1000 <= x <= Q2R (qp_max p) + / 1000 -> 0 <= x -> 0 < Psum p x.
Proof.
  intros I N X P. assert (A := proj1 (forallb_forall _ _) all_dominated _ I). cbn [fst snd] in A. apply orb_prop in A. destruct A as [A|A]; [now apply String.eqb_eq in A|].
  apply in_wide in X. unfold dominated in A. assert (B := pos_on_sound _ _ _ _ _ A X). rewrite ev_add, ev_scale, ev_neg, ev_sizes, ev_rev in B. fold (Psum p x) in B.
  replace (Q2R (inject_Z (margin f))) with (IZR (margin f)) in B by (unfold Q2R, inject_Z; cbn [Qnum Qden]; rewrite Rinv_1; ring).
  pose proof (margin_nonneg f) as M. pose proof (Asum_nonneg p x P). destruct (Rlt_dec 0 (Psum p x)); auto. exfalso. nra.
Qed.
Theorem beta_terms p x : In ("water-beta"%string, p) fluid_data -> Q2R (qp_min p) - / 1000 <= x <= Q2R (qp_max p) + / 1000 -> Asum p x <= 2814749.
Proof.
  intros I X. assert (C := proj1 (forallb_forall _ _) beta_check _ I). cbn [fst snd] in C. rewrite String.eqb_refl in C. cbn [negb orb] in C. apply in_wide in X. unfold beta_bounded in C. assert (B := pos_on_sound _ _ _ _ _ C X). rewrite ev_add, ev_neg, ev_sizes in B. cbn [ev] in B.
  replace (Q2R (2814749 # 1)) with 2814749 in B by (unfold Q2R; cbn; lra). lra.
Qed.
Lemma simple_in f p : In (f, p) fluid_data -> (List.length (qp_coeffs p) <= 15)%nat /\ 1 <= Q2R (wide_lo p) /\ Q2R (wide_hi p) <= 2000 /\
  (exists l c, qp_coeffs p = l ++ [c] /\ / 1000000000 <= Rabs (Q2R c)) /\ (forall c, In c (qp_coeffs p) -> Rabs (Q2R c) <= 100000000).
Proof.
  intros I. assert (A := proj1 (forallb_forall _ _) all_simple _ I). cbn [snd] in A. unfold simple_file in A. repeat (apply andb_prop in A; destruct A as [A ?]).
  apply Nat.leb_le in A. split; [exact A|]. rename H2 into L, H1 into U, H0 into Z, H into B. apply Qle_bool_iff, Qle_Rle in L, U.
  replace (Q2R (1 # 1)) with 1 in L by (unfold Q2R; cbn; lra). replace (Q2R (2000 # 1)) with 2000 in U by (unfold Q2R; cbn; lra). split; [exact L|]. split; [exact U|]. split.
  - destruct (rev (qp_coeffs p)) as [|c l] eqn:E; [discriminate|]. exists (rev l), c. split; [rewrite <- (rev_involutive (qp_coeffs p)), E; reflexivity|].
    apply Qle_bool_iff, Qle_Rle in Z. rewrite Qabs_R in Z. replace (Q2R (1 # 1000000000)) with (/ 1000000000) in Z by (unfold Q2R; cbn; lra). exact Z.
  - intros c Ic. assert (D := proj1 (forallb_forall _ _) B _ Ic). cbv beta in D. apply Qle_bool_iff, Qle_Rle in D. rewrite Qabs_R in D. replace (Q2R (100000000 # 1)) with 100000000 in D by (unfold Q2R; cbn; lra). exact D.
Qed.
