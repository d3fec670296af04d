From Coq Require Import Qabs Qreals.
From Verif Require Import Prelude M_Elements M_Stoichiometry Spec_Stoich P_Stoich P_Count P_Convert M_Ieee Spec_Ieee M_FloatMix M_FloatLoan M_FloatStoich Spec_FloatStoich P_Ieee P_FloatReports P_FloatReports2 P_FloatMix P_FloatLoan P_FloatLoan2 P_Within P_FloatStoich P_FloatStoich2 P_FloatStoich3 P_FloatStoich4.
From Coq Require Import Reals List Lra Lia ZArith.
From Flocq Require Import Core BinarySingleNaN.
Import ListNotations.
Local Open Scope list_scope.
Local Open Scope R_scope.

Lemma zero_mul x y : finite x -> finite y -> value x = 0 -> finite (mul64 x y) /\ value (mul64 x y) = 0.
Proof.
  intros Fx Fy Z. destruct (P_FloatMix.mul_ok x y Fx Fy) as [F V]; rewrite Z, Rmult_0_l, rnd_0 in *; [rewrite Rabs_R0; apply bpow_gt_0|]. auto.
Qed.
Lemma zero_div x y : finite x -> value y <> 0 -> value x = 0 -> finite (div64 x y) /\ value (div64 x y) = 0.
Proof.
  intros Fx Fy Z. destruct (P_FloatMix.div_ok x y Fx Fy) as [F V]; rewrite Z in *; unfold Rdiv in *; rewrite Rmult_0_l, rnd_0 in *; [rewrite Rabs_R0; apply bpow_gt_0|]. auto.
Qed.
Lemma amount_entry s f x : proper s f -> fits f -> has_atoms f -> moderate_or_zero x ->
  exists a, famount s x = Ok a /\ ranged 473 a /\ within (kinds f + 2) (value a) (value x / exact_molar f) /\ (value x <> 0 -> value a <> 0).
Proof.
  intros P T A [Fx R]. destruct (molar_r s f P T A) as (y & E & Fy & Wy & Ry & Yp & Wp). change (W f) with (exact_molar f) in *. unfold famount. rewrite E. cbn [bind]. destruct R as [Z|R].
  - unfold pydiv64. rewrite (not_zero y) by lra. destruct (zero_div x y Fx ltac:(lra) Z) as [F V]. eexists. split; [reflexivity|]. split; [split; auto|]. split; [|tauto]. rewrite V, Z. unfold Rdiv. rewrite Rmult_0_l. apply within_refl. lra.
  - pose proof (div_range 400 72 _ _ R Ry) as R'. pose proof (ip2 400). destruct (div_step 472 x y ltac:(lia) Fx Yp R') as (F & Wd & Ed). rewrite Ed. eexists. split; [reflexivity|].
    pose proof (near_range 472 1 _ _ ltac:(lia) Wd R') as R''. split; [split; auto|]. split; [|intros _; pose proof (ip2 473); lra].
    replace (kinds f + 2)%nat with (1 + (0 + (kinds f + 1)))%nat by lia. eapply within_trans; [exact Wd|]. apply within_div; auto; try lra. apply within_refl. lra.
Qed.
Lemma mass_entry s f x : proper s f -> fits f -> has_atoms f -> moderate_or_zero x ->
  exists a, fmass s x = Ok a /\ ranged 473 a /\ within (kinds f + 2) (value a) (value x * exact_molar f) /\ (value x <> 0 -> value a <> 0).
Proof.
  intros P T A [Fx R]. destruct (molar_r s f P T A) as (y & E & Fy & Wy & Ry & Yp & Wp). change (W f) with (exact_molar f) in *. unfold fmass. rewrite E. cbn [bind]. eexists. split; [reflexivity|]. destruct R as [Z|R].
  - destruct (zero_mul x y Fx Fy Z) as [F V]. split; [split; auto|]. split; [|tauto]. rewrite V, Z, Rmult_0_l. apply within_refl. lra.
  - pose proof (mul_range 400 72 _ _ R Ry) as R'. pose proof (ip2 400). destruct (mul_step 472 x y ltac:(lia) Fx Fy R') as (F & Wd).
    pose proof (near_range 472 1 _ _ ltac:(lia) Wd R') as R''. split; [split; auto|]. split; [|intros _; pose proof (ip2 473); lra].
    replace (kinds f + 2)%nat with (1 + (0 + (kinds f + 1)))%nat by lia. eapply within_trans; [exact Wd|]. apply within_mul; auto; try lra. apply within_refl. lra.
Qed.
Lemma exact_molar_pos s f : proper s f -> fits f -> has_atoms f -> 0 < exact_molar f.
Proof. intros P T A. destruct (molar_r s f P T A) as (y & E & Fy & Wy & Ry & Yp & Wp). exact Wp. Qed.

Section Entries.
  Variable op : string -> float64 -> res float64.
  Variable g : R -> R -> R.
  Hypothesis g_nonneg : forall x y, 0 <= x -> 0 < y -> 0 <= g x y.
  Hypothesis entry : forall s f x, proper s f -> fits f -> has_atoms f -> moderate_or_zero x ->
    exists a, op s x = Ok a /\ ranged 473 a /\ within (kinds f + 2) (value a) (g (value x) (exact_molar f)) /\ (value x <> 0 -> value a <> 0).
  Lemma entries K d fs : compounds K d fs -> exists ns, mapM (fun kv => do n <- op (fst kv) (snd kv); Ok (fst kv, n)) d = Ok ns /\ map fst ns = map fst d /\
      Forall (fun kv => ranged 473 (snd kv)) ns /\ Forall2 (fun x q => within (K + 2) (value (snd x)) q) ns (each g d fs) /\
      within (K + 2) (exact_sum (map snd ns)) (Rtotal (each g d fs)) /\ Forall (fun q => 0 <= q) (each g d fs) /\
      ((exists kv, In kv d /\ value (snd kv) <> 0) -> exists kv, In kv ns /\ value (snd kv) <> 0).
  Proof.
    induction 1 as [|[k x] f d fs (P & T & A & L & M) H IH].
    - exists []. split; [reflexivity|]. split; auto. split; [constructor|]. split; [constructor|]. split; [apply within_refl; cbn; lra|]. split; [constructor|]. intros (kv & [] & _).
    - destruct IH as (ns & E & Kn & R & W2 & Ws & N & X). cbn [fst snd] in *. destruct (entry k f x P T A M) as (a & Ea & Ra & Wa & Za).
      pose proof (exact_molar_pos k f P T A) as Mp. assert (Gp : 0 <= g (value x) (exact_molar f)). { apply g_nonneg; auto. destruct M as [_ [->|M]]; [lra|]. pose proof (ip2 400). lra. }
      assert (Wk : within (K + 2) (value a) (g (value x) (exact_molar f))). { apply (within_mono (kinds f + 2)); auto; [lia|]. eapply ranged_nonneg, Ra. }
      cbn [mapM fst snd]. rewrite Ea. cbn [bind]. rewrite E. cbn [bind]. eexists. split; [reflexivity|]. cbn [map fst snd]. rewrite Kn. split; auto. split; [constructor; auto|]. split; [constructor; auto|].
      split; [rewrite P_Ieee.sum_cons; cbn [each combine map Rtotal fold_right fst snd]; now apply within_plus|]. split; [constructor; auto|].
      intros (kv & [<-|I] & V).
      + exists (k, a). split; [now left|]. now apply Za.
      + destruct X as (kv' & I' & V'); [eauto|]. exists kv'. split; auto. now right.
  Qed.
  Theorem entry_fractions K d fs : compounds K d fs -> INR (length d) <= 2 ^ 50 -> (exists kv, In kv d /\ value (snd kv) <> 0) ->
    exists xs, (do ns <- mapM (fun kv => do n <- op (fst kv) (snd kv); Ok (fst kv, n)) d; ffractions ns) = Ok xs /\ map fst xs = map fst d /\
      Forall (fun kv => finite (snd kv) /\ 0 <= value (snd kv) <= 1) xs /\ within (length d) (exact_sum (map snd xs)) 1 /\
      Forall2 (fun x q => within (length d + 2 * (K + 2)) (value (snd x)) (q / Rtotal (each g d fs))) xs (each g d fs).
  Proof.
    intros C L N. destruct (entries K d fs C) as (ns & E & Kn & R & W2 & Ws & Nn & X). specialize (X N). rewrite E. cbn [bind].
    assert (Ln : length ns = length d) by (rewrite <- (map_length fst ns), Kn, map_length; reflexivity).
    destruct (ffractions_ok ns 473 ltac:(lia) R) as (xs & Ex & Kx & B & S & F); auto; [now rewrite Ln|]. exists xs. split; auto. split; [now rewrite Kx|]. split; auto. rewrite Ln in S, F. split; auto.
    assert (Sp : 0 < exact_sum (map snd ns)).
    { destruct X as (kv & I & V). clear -R I V. induction R as [|y ns Ry R IH]; [destruct I|]. cbn [map]. rewrite P_Ieee.sum_cons. assert (0 <= exact_sum (map snd ns)). { clear -R. induction R as [|y ns Ry R IH]; [cbn; lra|]. cbn [map]. rewrite P_Ieee.sum_cons. pose proof (ranged_nonneg _ _ Ry). lra. }
      pose proof (ranged_nonneg _ _ Ry). destruct I as [->|I]; [lra|]. specialize (IH I). lra. }
    assert (Tp : 0 < Rtotal (each g d fs)) by (eapply within_pos; [|apply within_sym, Ws]; lra).
    assert (Wt : within (K + 2) (/ exact_sum (map snd ns)) (/ Rtotal (each g d fs))) by (apply within_inv; auto).
    assert (It : 0 < / Rtotal (each g d fs)) by now apply Rinv_0_lt_compat.
    assert (Is : 0 < / exact_sum (map snd ns)) by now apply Rinv_0_lt_compat.
    unfold Rdiv in *. revert F Wt Is It. generalize (/ exact_sum (map snd ns)) as s. generalize (/ Rtotal (each g d fs)) as t. generalize (length d) as n. intros n t s F Wt Is It. revert F.
    clear -R Nn W2 Wt It Is. revert xs R Nn. induction W2 as [|x q ns qs Wn W2 IH]; intros xs R Nn F; inversion F; subst; [constructor|].
    apply Forall_cons_iff in R as [Rn R]. apply Forall_cons_iff in Nn as [Qn Nn]. constructor; [|apply IH; auto].
    eapply within_trans; [eassumption|]. replace (2 * (K + 2))%nat with (K + 2 + (K + 2))%nat by lia. apply within_mul; auto; try lra. eapply ranged_nonneg, Rn.
  Qed.
End Entries.
Theorem amount_fractions_ok K d fs : compounds K d fs -> INR (length d) <= 2 ^ 50 -> (exists kv, In kv d /\ value (snd kv) <> 0) ->
  exists xs, famount_fractions d = Ok xs /\ map fst xs = map fst d /\
    Forall (fun kv => finite (snd kv) /\ 0 <= value (snd kv) <= 1) xs /\ within (length d) (exact_sum (map snd xs)) 1 /\
    Forall2 (fun x q => within (length d + 2 * (K + 2)) (value (snd x)) (q / Rtotal (each Rdiv d fs))) xs (each Rdiv d fs).
Proof.
  apply (entry_fractions famount Rdiv); [|exact amount_entry]. intros x y X Y. apply Rmult_le_pos; auto. left. now apply Rinv_0_lt_compat.
Qed.
Theorem mass_fractions_ok K d fs : compounds K d fs -> INR (length d) <= 2 ^ 50 -> (exists kv, In kv d /\ value (snd kv) <> 0) ->
  exists xs, fmass_fractions d = Ok xs /\ map fst xs = map fst d /\
    Forall (fun kv => finite (snd kv) /\ 0 <= value (snd kv) <= 1) xs /\ within (length d) (exact_sum (map snd xs)) 1 /\
    Forall2 (fun x q => within (length d + 2 * (K + 2)) (value (snd x)) (q / Rtotal (each Rmult d fs))) xs (each Rmult d fs).
Proof. apply (entry_fractions fmass Rmult); [|exact mass_entry]. intros x y X Y. nra. Qed.

(** * The specification's exact values *)
Lemma efrac_exact s f el : proper s f -> efrac f el = exact_fraction f el.
Proof.
  intros [Wr K]. unfold efrac, exact_fraction. change (exact_molar f) with (W f). destruct (Z.eq_dec (atoms el f) 0) as [-> |N]; [unfold Rdiv; now rewrite !Rmult_0_l|].
  rewrite mass_of_weight; [reflexivity|]. apply K. apply atoms_symbols. pose proof (atoms_nonneg el s f Wr). lia.
Qed.

