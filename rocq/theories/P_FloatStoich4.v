From Coq Require Import Qabs Qreals.
From Verif Require Import Prelude M_Elements M_Stoichiometry Spec_Stoich P_Stoich P_Count P_Convert P_Ledger M_Ieee Spec_Ieee M_FloatMix M_FloatLoan M_FloatStoich Spec_FloatStoich P_Ieee P_FloatReports P_FloatReports2 P_FloatMix P_FloatLoan P_FloatLoan2 P_Within P_FloatStoich P_FloatStoich2 P_FloatStoich3.
From Coq Require Import Reals List Lra Lia ZArith.
From Flocq Require Import Core BinarySingleNaN.
Import ListNotations.
Local Open Scope list_scope.
Local Open Scope R_scope.

(** * Conversion on an element *)
Lemma ratio_ok m s t : finite m -> finite s -> finite t -> / 2 ^ 900 <= value m <= 2 ^ 900 -> / 2 ^ 73 <= value s <= 1 -> / 2 ^ 73 <= value t <= 1 ->
  exists y, pydiv64 (mul64 m s) t = Ok y /\ finite y /\ within 2 (value y) (value m * value s / value t).
Proof.
  intros Fm Fs Ft Rm Rs Rt. assert (O : 1 <= 2 ^ 73) by (apply pow_R1_Rle; lra). assert (Rs' : / 2 ^ 73 <= value s <= 2 ^ 73) by lra. assert (Rt' : / 2 ^ 73 <= value t <= 2 ^ 73) by lra. pose proof (ip2 73). pose proof (ip2 900).
  pose proof (mul_range 900 73 _ _ Rm Rs') as R1. destruct (mul_step 973 m s ltac:(lia) Fm Fs R1) as [F1 W1].
  assert (P : 0 < value m * value s) by nra. assert (P1 := within_pos _ _ _ P W1).
  assert (R2 : / 2 ^ 975 <= value (mul64 m s) / value t <= 2 ^ 975).
  { assert (R2 : / 2 ^ 974 <= value (mul64 m s)) by exact (proj1 (near_range 973 1 _ _ ltac:(lia) W1 R1)).
    assert (U2 : value (mul64 m s) <= 2 ^ 901). { destruct (within_two 1 _ _ ltac:(lia) (Rlt_le _ _ P) W1) as [_ U]. eapply Rle_trans; [exact U|]. change (2 ^ 901) with (2 * 2 ^ 900). nra. }
    unfold Rdiv. split.
    - eapply Rle_trans; [apply (inv_pow_le 974 975); lia|]. eapply Rle_trans; [exact R2|]. rewrite <- (Rmult_1_r (value (mul64 m s))) at 1. apply Rmult_le_compat_l; [lra|]. rewrite <- Rinv_1. apply Rinv_le_contravar; lra.
    - apply Rle_trans with (2 ^ 901 * 2 ^ 73); [|rewrite <- pow_add; apply two_pow_le; lia]. apply Rmult_le_compat; try lra; [left; apply Rinv_0_lt_compat; lra|]. apply inv_range, Rt'. }
  destruct (div_step 975 (mul64 m s) t ltac:(lia) F1 ltac:(lra) R2) as (F2 & W2 & E). exists (div64 (mul64 m s) t). split; auto. split; auto.
  change 2%nat with (1 + (1 + 0))%nat. eapply within_trans; [exact W2|]. apply within_div; auto; try lra. apply within_refl. lra.
Qed.
Lemma moderate_wide m : moderate m -> finite m /\ / 2 ^ 900 <= value m <= 2 ^ 900 /\ 0 < value m.
Proof. intros [F R]. split; auto. split; [apply (wide_range 800); auto; lia|]. pose proof (ip2 800). lra. Qed.
Lemma nonzero_zero : is_zero64 zero64 = true. Proof. reflexivity. Qed.
Theorem convert_ok' m a fa b fb el : proper a fa -> fits fa -> has_atoms fa -> proper b fb -> fits fb -> has_atoms fb -> moderate m -> atoms el fa <> 0%Z -> atoms el fb <> 0%Z ->
  exists y, fconvert m a b el = Ok y /\ finite y /\ within (kinds fa + kinds fb + 10) (value y) (value m * efrac fa el / efrac fb el) /\
    exists m', fconvert y b a el = Ok m' /\ finite m' /\ within 4 (value m') (value m).
Proof.
  intros Pa Ta Aa Pb Tb Ab M Na Nb. destruct (moderate_wide m M) as (Fm & Rm & Pm).
  destruct (fraction_ok' a fa el Pa Ta Aa) as (s & Es & Fs & Ws & Bs & _ & Ls & _). specialize (Ls Na).
  destruct (fraction_ok' b fb el Pb Tb Ab) as (t & Et & Ft & Wt & Bt & _ & Lt & _). specialize (Lt Nb). pose proof (ip2 73) as I73.
  unfold fconvert. rewrite Es, Et. cbn [bind]. rewrite (not_zero t) by lra. rewrite (not_zero s) by lra.
  destruct (ratio_ok m s t Fm Fs Ft Rm ltac:(lra) ltac:(lra)) as (y & Ey & Fy & Wy). exists y. split; auto. split; auto.
  assert (Ea : 0 < efrac fa el) by (eapply within_pos; [|apply within_sym, Ws]; lra). assert (Eb : 0 < efrac fb el) by (eapply within_pos; [|apply within_sym, Wt]; lra).
  assert (Q : 0 < value m * value s / value t) by (apply Rmult_lt_0_compat; [nra|apply Rinv_0_lt_compat; lra]).
  split.
  - replace (kinds fa + kinds fb + 10)%nat with (2 + (0 + (kinds fa + 4) + (kinds fb + 4)))%nat by lia. eapply within_trans; [exact Wy|].
    apply within_div; auto; try lra; try nra. apply within_mul; auto; try lra. apply within_refl. lra.
  - assert (Ry : / 2 ^ 900 <= value y <= 2 ^ 900).
    { apply (wide_range 875); [lia|]. apply (near_range 874 2 _ (value m * value s / value t)); [lia|exact Wy|].
      assert (O : 1 <= 2 ^ 73) by (apply pow_R1_Rle; lra). destruct M as [_ M]. apply (wide_range (800 + 73) 874); [lia|]. pose proof (ip2 800). pose proof (p2 800). unfold Rdiv. split.
      - rewrite <- ip2_add. assert (/ value t >= 1) by (apply Rle_ge; rewrite <- Rinv_1; apply Rinv_le_contravar; lra). apply Rle_trans with (value m * value s); [apply Rmult_le_compat; lra|]. assert (0 <= value m * value s) by nra. nra.
      - rewrite pow_add. assert (/ value t <= 2 ^ 73) by (rewrite <- (Rinv_inv (2 ^ 73)); apply Rinv_le_contravar; lra). assert (0 < / value t) by (apply Rinv_0_lt_compat; lra). apply Rmult_le_compat; try lra; nra. }
    destruct (ratio_ok y t s Fy Ft Fs Ry ltac:(lra) ltac:(lra)) as (m' & Em & Fm' & Wm). exists m'. split; auto. split; auto. change 4%nat with (2 + (2 + 0 + 0))%nat. eapply within_trans; [exact Wm|].
    assert (Yp : 0 < value y) by (eapply within_pos; [|exact Wy]; lra).
    replace (value m) with (value m * value s / value t * value t / value s) by (field; lra). apply within_div; try lra; try nra; [apply within_mul; try lra; auto|]; apply within_refl; lra.
Qed.
Theorem convert_absent_ok m a fa b fb el : proper a fa -> fits fa -> has_atoms fa -> proper b fb -> fits fb -> has_atoms fb -> finite m ->
  (atoms el fb = 0%Z -> fconvert m a b el = Ok zero64) /\ (atoms el fa = 0%Z -> atoms el fb <> 0%Z -> exists y, fconvert m a b el = Ok y /\ finite y /\ value y = 0).
Proof.
  intros Pa Ta Aa Pb Tb Ab Fm.
  destruct (fraction_ok' a fa el Pa Ta Aa) as (s & Es & Fs & _ & _ & Zs & _). destruct (fraction_ok' b fb el Pb Tb Ab) as (t & Et & Ft & _ & Bt & Zt & Lt & _). unfold fconvert. rewrite Es, Et. cbn [bind]. split.
  - intros N. rewrite (Zt N). reflexivity.
  - intros N N'. rewrite (Zs N). specialize (Lt N'). pose proof (ip2 73). rewrite (not_zero t) by lra. unfold pydiv64. rewrite (not_zero t) by lra. eexists. split; [reflexivity|].
    destruct (P_FloatMix.mul_ok m zero64 Fm eq_refl) as [F1 V1]. { change (value zero64) with 0. rewrite Rmult_0_r, rnd_0, Rabs_R0. apply bpow_gt_0. }
    change (value zero64) with 0 in V1. rewrite Rmult_0_r, rnd_0 in V1.
    destruct (P_FloatMix.div_ok (mul64 m zero64) t F1 ltac:(lra)) as [F2 V2]. { rewrite V1. unfold Rdiv. rewrite Rmult_0_l, rnd_0, Rabs_R0. apply bpow_gt_0. }
    rewrite V1 in V2. unfold Rdiv in V2. rewrite Rmult_0_l, rnd_0 in V2. auto.
Qed.

(** * The fractions of all elements *)
Lemma Q2R_sum_c l : Q2R (Qcsum l) = fold_right (fun (x : Qc) a => Q2R x + a) 0 l.
Proof. induction l as [|x l IH]; [apply Q2R_0_c|]. rewrite Qcsum_cons, Q2R_plus_c, IH. reflexivity. Qed.
Lemma Q2R_div_c (a b : Qc) : b <> 0%Qc -> Q2R (a / b)%Qc = Q2R a / Q2R b.
Proof.
  intros N. unfold Qcdiv. rewrite Q2R_mult_c. unfold Rdiv. f_equal. unfold Qcinv. cbn [this Q2Qc]. rewrite (Qeq_eqR _ _ (Qred_correct _)). apply Q2R_inv. intros E. apply N, Qc_is_canon. exact E.
Qed.
Theorem fractions_sum s f els : proper s f -> fits f -> has_atoms f -> NoDup els -> (forall k, In k els -> in_table k) -> (forall k, In k (symbols f) -> In k els) ->
  exists xs, felement_fractions s els = Ok xs /\ length xs = length els /\ Forall (fun x => finite x /\ 0 <= value x <= 1) xs /\ within (kinds f + 4) (exact_sum xs) 1.
Proof.
  intros P T A D I C.
  assert (E : fold_right (fun k a => efrac f k + a) 0 els = 1).
  { destruct (emfs_sum s f els P A D I C) as (qs & Q & S). assert (R : fold_right (fun (x : Qc) a => Q2R x + a) 0 qs = 1) by (rewrite <- Q2R_sum_c, S; apply RMicromega.Q2R_1). rewrite <- R. clear -Q P A I.
    unfold element_mass_fractions in Q. revert qs Q. induction els as [|k els IH]; intros qs Q; cbn [mapM] in Q; [injection Q as <-; reflexivity|].
    rewrite (emf_proper _ _ _ P A) in Q. cbn [bind] in Q. destruct (mapM (element_mass_fraction s) els) as [r|]; cbn [bind] in Q; [|discriminate]. injection Q as <-. cbn [fold_right]. rewrite (IH (fun j J => I j (or_intror J)) r eq_refl). f_equal.
    unfold efrac, W. rewrite Q2R_div_c by (now apply (molar_neq _ _ P)). now rewrite Q2R_mult_c, Q2R_qZ. }
  assert (G : exists xs, felement_fractions s els = Ok xs /\ length xs = length els /\ Forall (fun x => finite x /\ 0 <= value x <= 1) xs /\ within (kinds f + 4) (exact_sum xs) (fold_right (fun k a => efrac f k + a) 0 els)); [|now rewrite E in G].
  clear E D C. unfold felement_fractions. induction els as [|k els IH]; cbn [mapM fold_right].
  - exists []. split; auto. split; auto. split; [constructor|]. apply within_refl. cbn. lra.
  - destruct IH as (xs & Ex & L & F & Wx). { intros j J. apply I. now right. }
    destruct (fraction_ok' s f k P T A) as (x & E & Fx & Wk & B & _). rewrite E. cbn [bind]. rewrite Ex. cbn [bind]. exists (x :: xs). split; auto. split; [cbn; lia|]. split; [constructor; auto|]. rewrite sum_cons. now apply within_plus.
Qed.

(** * Fractions of a dictionary *)
Definition ranged (a : nat) (x : float64) : Prop := finite x /\ (value x = 0 \/ / 2 ^ a <= value x <= 2 ^ a).
Lemma ranged_nonneg a x : ranged a x -> 0 <= value x. Proof. intros [_ [->|H]]; [lra|]. pose proof (ip2 a). lra. Qed.
Theorem ffractions_ok (d : fpydict) a : (a <= 473)%nat -> Forall (fun kv => ranged a (snd kv)) d -> INR (length d) <= 2 ^ 50 -> (exists kv, In kv d /\ value (snd kv) <> 0) ->
  exists xs, ffractions d = Ok xs /\ map fst xs = map fst d /\ Forall (fun kv => finite (snd kv) /\ 0 <= value (snd kv) <= 1) xs /\
    within (length d) (exact_sum (map snd xs)) 1 /\
    Forall2 (fun x kv => within (length d) (value (snd x)) (value (snd kv) / exact_sum (map snd d))) xs d.
Proof.
  intros La R N (kv & Ikv & NZ). unfold ffractions. set (l := map snd d). set (T := sum64 l).
  assert (A : Forall (fun x => finite x /\ 0 <= value x) l). { unfold l. apply Forall_map. eapply Forall_impl; [|exact R]. intros x Hx. split; [apply Hx|eapply ranged_nonneg, Hx]. }
  assert (Ll : length l = length d) by apply map_length.
  assert (B : exact_sum l <= 2 ^ (a + 50)).
  { apply Rle_trans with (INR (length d) * 2 ^ a); [|rewrite pow_add; rewrite (Rmult_comm (2 ^ a)); apply Rmult_le_compat_r; [left; apply p2|exact N]]. unfold l. clear -R. induction R as [|x d [_ H] _ IH]; [cbn; lra|]. cbn [map length]. rewrite sum_cons, S_INR. pose proof (p2 a). destruct H as [H|H]; lra. }
  destruct (sum_within l A) as (FT & WT & PT). { now rewrite Ll. } { eapply Rle_trans; [exact B|]. apply two_pow_le. lia. }
  fold T in FT, WT, PT. assert (G : forall x, In x l -> value x <= value T).
  { unfold T, sum64 in *. destruct (fold_ge l zero64 FT) as [_ H]; [change (value zero64) with 0; lra|eapply Forall_impl; [|exact A]; intros x Hx; apply Hx|]. rewrite Forall_forall in H. auto. }
  assert (Rk : / 2 ^ a <= value (snd kv)). { rewrite Forall_forall in R. destruct (R kv Ikv) as [_ [H|H]]; [tauto|lra]. }
  assert (LT : / 2 ^ a <= value T) by (eapply Rle_trans; [exact Rk|]; apply G, in_map, Ikv). pose proof (ip2 a) as Pa.
  assert (UT : value T <= 2 ^ (a + 51)). { destruct WT as [WT _]. fold g1 in WT. assert (g1 ^ Nat.pred (length l) <= 2). { apply g_small. rewrite Ll. eapply Rle_trans; [|exact N]. apply le_INR. lia. }
    assert (0 <= exact_sum l). { clear -A. induction A as [|x l [_ X] _ IH]; [cbn; lra|rewrite sum_cons; lra]. } pose proof (gp (Nat.pred (length l))). eapply Rle_trans; [exact WT|]. replace (a + 51)%nat with (S (a + 50)) by lia. cbn [pow]. rewrite Rmult_comm. apply Rmult_le_compat; lra. }
  assert (Sp : 0 < exact_sum l). { eapply within_pos; [|apply within_sym, WT]. lra. }
  assert (Len : (1 <= length d)%nat) by (destruct d; [destruct Ikv|cbn; lia]).
  assert (F : forall x, ranged a x -> value x <= value T -> exists y, pydiv64 x T = Ok y /\ finite y /\ 0 <= value y <= 1 /\ within 1 (value y) (value x / value T)).
  { intros x [Fx Hx] Lx. unfold pydiv64. rewrite (not_zero T) by lra. exists (div64 x T). split; auto. destruct (fraction_ok x T Fx FT) as (Fy & By & Vy); try lra. split; auto. split; auto.
    destruct Hx as [Hx|Hx].
    - rewrite Vy, Hx. unfold Rdiv. rewrite !Rmult_0_l, rnd_0. apply within_refl. lra.
    - rewrite Vy. apply rnd_within1. apply Rle_trans with (/ 2 ^ (a + (a + 51))); [apply inv_pow_le; lia|]. rewrite <- ip2_add. pose proof (ip2 (a + 51)). unfold Rdiv. apply Rmult_le_compat; try lra. apply Rinv_le_contravar; lra. }
  assert (X : exists xs, mapM (fun kv : string * float64 => do x <- pydiv64 (snd kv) T; Ok (fst kv, x)) d = Ok xs /\ map fst xs = map fst d /\ Forall (fun kv => finite (snd kv) /\ 0 <= value (snd kv) <= 1) xs /\
     within 1 (exact_sum (map snd xs)) (exact_sum l / value T) /\ Forall2 (fun x kv => within 1 (value (snd x)) (value (snd kv) / value T)) xs d).
  { unfold l in G |- *. clearbody T. clear -R F G LT Pa. revert G. induction R as [|[k x] d Rx R IH]; intros G.
    - exists []. split; [reflexivity|]. split; auto. split; [constructor|]. split; [|constructor]. cbn. unfold Rdiv. rewrite Rmult_0_l. apply within_refl. lra.
    - destruct IH as (xs & E & M & B & S & P). { intros y Y. apply G. now right. } cbn [snd] in Rx. destruct (F x Rx) as (y & Ey & Fy & By & Wy). { apply G. now left. }
      cbn [mapM fst snd]. rewrite Ey. cbn [bind]. rewrite E. cbn [bind]. eexists. split; [reflexivity|]. cbn [map fst snd]. rewrite M. split; auto. split; [constructor; auto|]. split; [|constructor; auto].
      rewrite !sum_cons. unfold Rdiv. rewrite Rmult_plus_distr_r. now apply within_plus. }
  destruct X as (xs & E & M & Bx & S & P). exists xs. split; auto. split; auto. split; auto. rewrite Ll in WT.
  assert (Wi : within (Nat.pred (length d)) (/ value T) (/ exact_sum l)) by (apply within_inv; auto; lra).
  split.
  - replace (length d) with (1 + (0 + Nat.pred (length d)))%nat by lia. eapply within_trans; [exact S|]. replace 1 with (exact_sum l * / exact_sum l) by (apply Rinv_r; lra). apply within_mul; auto; try (left; apply Rinv_0_lt_compat; lra); try lra. apply within_refl. lra.
  - clearbody T. clearbody l. clear -P Wi Len R Sp LT Pa. assert (Q : forall x kv, within 1 (value (snd x)) (value (snd kv) / value T) -> ranged a (snd kv) -> within (length d) (value (snd (x : string * float64))) (value (snd (kv : string * float64)) / exact_sum l)).
    { intros x kv H Rk. replace (length d) with (1 + (0 + Nat.pred (length d)))%nat by lia. eapply within_trans; [exact H|]. pose proof (ranged_nonneg _ _ Rk). apply within_mul; auto; try (left; apply Rinv_0_lt_compat; lra). now apply within_refl. }
    revert Q. generalize (length d) as n. intros n Q. clear Len Wi. induction P as [|x kv xs d H P IH]; [constructor|]. apply Forall_cons_iff in R as [Rk R]. constructor; auto.
Qed.
