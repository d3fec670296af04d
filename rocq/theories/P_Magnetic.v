From Verif Require Import Prelude M_Stoichiometry M_Thermochem Spec_Thermo P_Thermo.
From Coq Require Import Reals Permutation Sorted Lra.
From Coquelicot Require Import Coquelicot.
Local Open Scope R_scope.

(** The two branches of the magnetic functions. *)
Definition L (m : magnetic) := R_gas * ln (beta0_mag m + 1).
Definition Hlo m T := L m * T * ((- A_mag m / (T / Tc_mag m) + B_mag m * ((T / Tc_mag m)^3 / 2 + (T / Tc_mag m)^9 / 15 + (T / Tc_mag m)^15 / 40)) / D_mag m).
Definition Hhi m T := L m * T * (- ((/(T / Tc_mag m))^5 / 2 + (/(T / Tc_mag m))^15 / 21 + (/(T / Tc_mag m))^25 / 60) / D_mag m).
Definition Slo m T := - L m * (1 - (B_mag m * (2 * (T / Tc_mag m)^3 / 3 + 2 * (T / Tc_mag m)^9 / 27 + 2 * (T / Tc_mag m)^15 / 75)) / D_mag m).
Definition Shi m T := - L m * ((2 * (/(T / Tc_mag m))^5 / 5 + 2 * (/(T / Tc_mag m))^15 / 45 + 2 * (/(T / Tc_mag m))^25 / 125) / D_mag m).
Definition Clo m T := L m * ((B_mag m * (2 * (T / Tc_mag m)^3 + 2 * (T / Tc_mag m)^9 / 3 + 2 * (T / Tc_mag m)^15 / 5)) / D_mag m).
Definition Chi m T := L m * ((2 * (/(T / Tc_mag m))^5 + 2 * (/(T / Tc_mag m))^15 / 3 + 2 * (/(T / Tc_mag m))^25 / 5) / D_mag m).

Definition good_mag (m : magnetic) := 0 < Tc_mag m /\ p_mag m <> 0 /\ D_mag m <> 0.

Section Mag.
Variable p : phase.
Variable m : magnetic.
Hypothesis Hm : ph_mag p = Some m.
Hypothesis Hg : good_mag m.

Lemma tau_le T : T / Tc_mag m <= 1 <-> T <= Tc_mag m.
Proof.
  destruct Hg as (Hc & _). split; intros H.
  - apply (Rmult_le_compat_r (Tc_mag m)) in H; [|lra]. unfold Rdiv in H. rewrite Rmult_assoc, Rinv_l in H; lra.
  - apply (Rmult_le_reg_r (Tc_mag m)); auto. unfold Rdiv. rewrite Rmult_assoc, Rinv_l; lra.
Qed.
Lemma H_lo T : T <= Tc_mag m -> H_mag p T = Hlo m T.
Proof. intros H. unfold H_mag. rewrite Hm. cbv zeta. apply tau_le in H. destruct (Rle_dec _ 1); [|tauto]. unfold Hlo, L. ring. Qed.
Lemma H_hi T : Tc_mag m < T -> H_mag p T = Hhi m T.
Proof. intros H. unfold H_mag. rewrite Hm. cbv zeta. destruct (Rle_dec _ 1) as [X|]; [apply tau_le in X; lra|]. unfold Hhi, L. ring. Qed.
Lemma S_lo T : T <= Tc_mag m -> S_mag p T = Slo m T.
Proof. intros H. unfold S_mag. rewrite Hm. cbv zeta. apply tau_le in H. destruct (Rle_dec _ 1); [|tauto]. unfold Slo, L. ring. Qed.
Lemma S_hi T : Tc_mag m < T -> S_mag p T = Shi m T.
Proof. intros H. unfold S_mag. rewrite Hm. cbv zeta. destruct (Rle_dec _ 1) as [X|]; [apply tau_le in X; lra|]. unfold Shi, L. ring. Qed.
Lemma C_lo T : T <= Tc_mag m -> Cp_mag p T = Clo m T.
Proof. intros H. unfold Cp_mag. rewrite Hm. cbv zeta. apply tau_le in H. destruct (Rle_dec _ 1); [|tauto]. unfold Clo, L. ring. Qed.
Lemma C_hi T : Tc_mag m < T -> Cp_mag p T = Chi m T.
Proof. intros H. unfold Cp_mag. rewrite Hm. cbv zeta. destruct (Rle_dec _ 1) as [X|]; [apply tau_le in X; lra|]. unfold Chi, L. ring. Qed.

Lemma Hlo_deriv T : 0 < T -> derivable_pt_lim (Hlo m) T (Clo m T).
Proof.
  destruct Hg as (Hc & Hp & HD). intros HT. apply is_derive_Reals. unfold Hlo, Clo. set (A := A_mag m). set (B := B_mag m). set (D := D_mag m) in *. set (K := L m). set (Tc := Tc_mag m) in *.
  auto_derive; [repeat split; auto; try lra; apply Rgt_not_eq, Rmult_lt_0_compat; auto; now apply Rinv_0_lt_compat|]. field. repeat split; lra.
Qed.
Lemma Hhi_deriv T : 0 < T -> derivable_pt_lim (Hhi m) T (Chi m T).
Proof.
  destruct Hg as (Hc & Hp & HD). intros HT. apply is_derive_Reals. unfold Hhi, Chi. set (D := D_mag m) in *. set (K := L m). set (Tc := Tc_mag m) in *.
  auto_derive; [repeat split; auto; try lra; apply Rgt_not_eq, Rmult_lt_0_compat; auto; now apply Rinv_0_lt_compat|]. field. repeat split; lra.
Qed.
Lemma Slo_deriv T : 0 < T -> derivable_pt_lim (Slo m) T (Clo m T / T).
Proof.
  destruct Hg as (Hc & Hp & HD). intros HT. apply is_derive_Reals. unfold Slo, Clo. set (B := B_mag m). set (D := D_mag m) in *. set (K := L m). set (Tc := Tc_mag m) in *.
  auto_derive; [repeat split; auto; lra|]. field. repeat split; lra.
Qed.
Lemma Shi_deriv T : 0 < T -> derivable_pt_lim (Shi m) T (Chi m T / T).
Proof.
  destruct Hg as (Hc & Hp & HD). intros HT. apply is_derive_Reals. unfold Shi, Chi. set (D := D_mag m) in *. set (K := L m). set (Tc := Tc_mag m) in *.
  auto_derive; [repeat split; auto; try lra; apply Rgt_not_eq, Rmult_lt_0_compat; auto; now apply Rinv_0_lt_compat|]. field. repeat split; lra.
Qed.

Lemma deriv_locally_above (f g : R -> R) x l b : b < x -> (forall t, b < t -> f t = g t) -> derivable_pt_lim g x l -> derivable_pt_lim f x l.
Proof.
  intros Hx E D. apply is_derive_Reals. apply is_derive_Reals in D. apply (is_derive_ext_loc g); auto.
  exists (mkposreal (x - b) ltac:(lra)). intros y Hy. symmetry. apply E. unfold ball in Hy. cbn in Hy. unfold AbsRing_ball, abs, minus, plus, opp in Hy. cbn in Hy.
  apply Rabs_def2 in Hy. lra.
Qed.

Lemma H_mag_deriv T : 0 < T -> T <> Tc_mag m -> derivable_pt_lim (H_mag p) T (Cp_mag p T).
Proof.
  intros HT N. destruct (Rlt_dec T (Tc_mag m)).
  - rewrite C_lo by lra. apply (deriv_locally _ (Hlo m) T _ (Tc_mag m)); auto; [intros; apply H_lo; lra|]. now apply Hlo_deriv.
  - rewrite C_hi by lra. apply (deriv_locally_above _ (Hhi m) T _ (Tc_mag m)); [lra|intros; apply H_hi; lra|]. now apply Hhi_deriv.
Qed.
Lemma S_mag_deriv T : 0 < T -> T <> Tc_mag m -> derivable_pt_lim (S_mag p) T (Cp_mag p T / T).
Proof.
  intros HT N. destruct (Rlt_dec T (Tc_mag m)).
  - rewrite C_lo by lra. apply (deriv_locally _ (Slo m) T _ (Tc_mag m)); auto; [intros; apply S_lo; lra|]. now apply Slo_deriv.
  - rewrite C_hi by lra. apply (deriv_locally_above _ (Shi m) T _ (Tc_mag m)); [lra|intros; apply S_hi; lra|]. now apply Shi_deriv.
Qed.
Lemma tau_1 : Tc_mag m / Tc_mag m = 1. Proof. destruct Hg. field. lra. Qed.
Lemma H_match : Hlo m (Tc_mag m) = Hhi m (Tc_mag m).
Proof. destruct Hg as (Hc & Hp & HD). unfold Hlo, Hhi. rewrite tau_1. rewrite Rinv_1, !pow1. unfold A_mag, B_mag. field. split; auto. Qed.
Lemma S_match : Slo m (Tc_mag m) = Shi m (Tc_mag m).
Proof.
  destruct Hg as (Hc & Hp & HD). unfold Slo, Shi. rewrite tau_1. rewrite Rinv_1, !pow1.
  assert (E : D_mag m = B_mag m * (2 * 1 / 3 + 2 * 1 / 27 + 2 * 1 / 75) + (2 * 1 / 5 + 2 * 1 / 45 + 2 * 1 / 125)) by (unfold D_mag, B_mag; field; auto).
  replace (1 - B_mag m * (2 * 1 / 3 + 2 * 1 / 27 + 2 * 1 / 75) / D_mag m) with ((D_mag m - B_mag m * (2 * 1 / 3 + 2 * 1 / 27 + 2 * 1 / 75)) / D_mag m) by (field; auto).
  rewrite E at 1. f_equal. f_equal. ring.
Qed.

(** A function glued from two differentiable branches that agree at the joint is continuous there. *)
Lemma glue (f g h : R -> R) c : (forall t, t <= c -> f t = g t) -> (forall t, c < t -> f t = h t) -> g c = h c ->
  continuity_pt g c -> continuity_pt h c -> continuity_pt f c.
Proof.
  intros Hf Hh E Cg Ch eps Heps. destruct (Cg eps Heps) as (d1 & P1 & Q1), (Ch eps Heps) as (d2 & P2 & Q2).
  exists (Rmin d1 d2). split; [apply Rmin_glb_lt; auto|]. intros x [Dx Hx]. rewrite (Hf c) by lra. destruct (Rle_dec x c).
  - rewrite Hf by auto. apply Q1. split; auto. eapply Rlt_le_trans; [exact Hx|apply Rmin_l].
  - rewrite Hh, E by lra. apply Q2. split; auto. eapply Rlt_le_trans; [exact Hx|apply Rmin_r].
Qed.
Lemma dlim_cont (f : R -> R) x l : derivable_pt_lim f x l -> continuity_pt f x.
Proof. intros H. apply derivable_continuous_pt. now exists l. Qed.
Lemma H_mag_continuous T : 0 < T -> continuity_pt (H_mag p) T.
Proof.
  intros HT. destruct (Req_EM_T T (Tc_mag m)) as [->|N]; [|eapply dlim_cont, H_mag_deriv; eauto].
  apply (glue _ (Hlo m) (Hhi m)); [apply H_lo|apply H_hi|apply H_match|eapply dlim_cont, Hlo_deriv; auto|eapply dlim_cont, Hhi_deriv; auto].
Qed.
Lemma S_mag_continuous T : 0 < T -> continuity_pt (S_mag p) T.
Proof.
  intros HT. destruct (Req_EM_T T (Tc_mag m)) as [->|N]; [|eapply dlim_cont, S_mag_deriv; eauto].
  apply (glue _ (Slo m) (Shi m)); [apply S_lo|apply S_hi|apply S_match|eapply dlim_cont, Slo_deriv; auto|eapply dlim_cont, Shi_deriv; auto].
Qed.
Lemma G_mag_HS T : 0 < T -> G_mag p T = H_mag p T - T * S_mag p T.
Proof. intros HT. apply G_mag_split. rewrite Hm. destruct Hg as (?&?&?). repeat split; auto. Qed.
Lemma G_mag_continuous T : 0 < T -> continuity_pt (G_mag p) T.
Proof.
  intros HT. apply (continuity_pt_ext_loc (fun t => H_mag p t - t * S_mag p t)).
  - apply (filter_imp (fun t => 0 < t)); [|now apply locally_pos]. intros t Ht. symmetry. now apply G_mag_HS.
  - apply continuity_pt_minus; [now apply H_mag_continuous|]. apply continuity_pt_mult; [apply derivable_continuous_pt, derivable_pt_id|now apply S_mag_continuous].
Qed.
Lemma G_mag_deriv T : 0 < T -> T <> Tc_mag m -> derivable_pt_lim (G_mag p) T (- S_mag p T).
Proof.
  intros HT N. apply is_derive_Reals. apply (is_derive_ext_loc (fun t => H_mag p t - t * S_mag p t)).
  - apply (filter_imp (fun t => 0 < t)); [|now apply locally_pos]. intros t Ht. symmetry. now apply G_mag_HS.
  - apply is_derive_Reals. apply (dlim_eq _ _ (Cp_mag p T - (1 * S_mag p T + T * (Cp_mag p T / T)))); [field; lra|].
    apply (derivable_pt_lim_minus (H_mag p) (fun t => t * S_mag p t)); [now apply H_mag_deriv|].
    apply (derivable_pt_lim_mult (fun t => t) (S_mag p)); [apply derivable_pt_lim_id|now apply S_mag_deriv].
Qed.
End Mag.

(** * Gibbs energy of regular phases: dG/dT = -S *)
Lemma regular_G p T : regular p -> 0 < T -> exists h s, phase_H p T = Ok h /\ phase_S p T = Ok s /\ phase_G p T = Ok (h - T * s).
Proof.
  intros Rg HT. destruct (regular_H _ _ Rg HT) as (h & E1 & _), (regular_S _ _ Rg HT) as (s & E2 & _). exists h, s. repeat split; auto.
  rewrite phase_G_eq; [now rewrite E1, E2|]. destruct Rg as [-> _]. exact I.
Qed.
Lemma regular_G_deriv p T : regular p -> 0 < T -> ~ In T (map fst (ph_records p)) ->
  derivable_pt_lim (fun t => value (phase_G p t)) T (- value (phase_S p T)).
Proof.
  intros Rg HT N. pose proof (regular_Cp_continuous _ _ Rg HT N) as C. apply is_derive_Reals.
  apply (is_derive_ext_loc (fun t => value (phase_H p t) - t * value (phase_S p t))).
  - apply (filter_imp (fun t => 0 < t)); [|now apply locally_pos]. intros t Ht. destruct (regular_G _ _ Rg Ht) as (h & s & -> & -> & ->). reflexivity.
  - apply is_derive_Reals. apply (dlim_eq _ _ (value (phase_Cp p T) - (1 * value (phase_S p T) + T * (value (phase_Cp p T) / T)))); [field; lra|].
    apply (derivable_pt_lim_minus (fun t => value (phase_H p t)) (fun t => t * value (phase_S p t))); [now apply regular_H_deriv|].
    apply (derivable_pt_lim_mult (fun t => t) (fun t => value (phase_S p t))); [apply derivable_pt_lim_id|now apply regular_S_deriv].
Qed.

Lemma highest_last p : regular p -> forall t, highest p t <-> t = last_key T_ref (sorted_records p).
Proof.
  intros Rg. destruct (regular_sorted _ Rg) as (M & N & C). destruct (last_record_key _ N) as (rl & _ & I).
  assert (P : forall u, In u (map fst (ph_records p)) <-> In u (map fst (sorted_records p))).
  { intros u. split; intros H; (eapply Permutation_in; [|exact H]); apply Permutation_map; [|symmetry]; apply sorted_perm. }
  assert (Mx : forall l t0, contiguous t0 l -> forall u, In u (map fst l) -> u <= last_key t0 l).
  { clear. induction l as [|[k r] l IH]; intros t0 C u; [intros []|]. unfold last_key. cbn [map fst In]. rewrite last_cons. destruct C as (_ & _ & _ & C).
    intros [<-|H]; [now apply (last_key_ge l)|]. now apply (IH k). }
  assert (HL : highest p (last_key T_ref (sorted_records p))).
  { split; [apply P; apply (in_map fst) in I; exact I|]. intros u Hu. apply (Mx _ T_ref C). now apply P. }
  intros t. split; [|now intros ->]. intros [H1 H2]. apply Rle_antisym; [now apply HL|apply H2, HL].
Qed.
Lemma regular_Cp_above p t0 T : regular p -> highest p t0 -> t0 <= T -> phase_Cp p T = phase_Cp p t0.
Proof.
  intros Rg Hh HT. apply (highest_last _ Rg) in Hh. subst t0. destruct (regular_Cp_last _ Rg) as (c & E1 & E2). now rewrite E1, E2.
Qed.

Lemma RInt_same (f : R -> R) (a u : R) : is_RInt f a a u -> u = 0.
Proof.
  intros H. pose proof (is_RInt_unique (V:=R_CompleteNormedModule) f a a u H) as E.
  pose proof (is_RInt_unique (V:=R_CompleteNormedModule) f a a _ (@is_RInt_point R_NormedModule f a)) as E'. rewrite E' in E. symmetry. exact E.
Qed.
Lemma regular_anchor p : regular p -> phase_H p T_ref = Ok (ph_DHref p) /\ phase_S p T_ref = Ok (ph_Sref p).
Proof.
  intros Rg. pose proof T_ref_pos as TP. destruct (regular_H _ _ Rg TP) as (h & E1 & I1), (regular_S _ _ Rg TP) as (s & E2 & I2).
  rewrite E1, E2. apply RInt_same in I1. apply RInt_same in I2. split; f_equal; lra.
Qed.

(** * Phases with magnetic data, in terms of the same phase without *)
Lemma sorted_without p : sorted_records (without_magnetism p) = sorted_records p. Proof. reflexivity. Qed.
Lemma last_without p : last_record (without_magnetism p) = last_record p. Proof. reflexivity. Qed.
Lemma Cp_without p T c : phase_Cp (without_magnetism p) T = Ok c -> phase_Cp p T = Ok (c + Cp_mag p T).
Proof.
  unfold phase_Cp. rewrite sorted_without, last_without. replace (Cp_mag (without_magnetism p) T) with 0 by reflexivity.
  destruct (find_record T (sorted_records p)); [intros [= <-]; f_equal; ring|]. destruct (last_record p); cbn [bind]; [|discriminate]. intros [= <-]. f_equal. ring.
Qed.
Lemma accumulate_flag f T l : forall t0 a, contiguous t0 l -> fst (accumulate f T l a) = true <-> l <> nil /\ T <= last_key t0 l.
Proof.
  induction l as [|[k r] l IH]; intros t0 a C; cbn [accumulate].
  - cbn. split; [discriminate|intros [H _]; congruence].
  - destruct C as (_ & _ & C3 & C4). unfold last_key. cbn [map fst]. rewrite last_cons. fold (last_key k l). pose proof (last_key_ge _ _ C4). destruct (Rle_dec T k).
    + cbn. split; auto. intros _. split; [discriminate|lra].
    + rewrite (IH k) by auto. split; [intros [_ X]; split; [discriminate|auto]|]. intros [_ X]. split; auto. intros ->. cbn in X. lra.
Qed.
Lemma magnetic_H p m T t0 : magnetic_regular p m -> highest p t0 ->
  exists h, phase_H (without_magnetism p) T = Ok h /\
    phase_H p T = Ok (h + H_mag p T + (if Rle_dec T t0 then 0 else Cp_mag p t0 * (T - t0))).
Proof.
  intros (Hm & _ & _ & _ & Rg) Hh. destruct (regular_sorted _ Rg) as (_ & N & C). apply (highest_last _ Rg) in Hh. rewrite sorted_without in *.
  unfold phase_H. rewrite sorted_without, last_without. replace (H_mag (without_magnetism p) T) with 0 by reflexivity. cbn [ph_DHref without_magnetism].
  set (x := accumulate _ _ _ _). pose proof (accumulate_flag (fun r => cp_H r T) T (sorted_records p) T_ref (ph_DHref p) C) as Fl. fold x in Fl.
  destruct (fst x) eqn:E.
  - apply proj1 in Fl. destruct (Fl eq_refl) as [_ Hle]. eexists. split; [reflexivity|]. destruct (Rle_dec T t0); [|lra]. f_equal. ring.
  - assert (Hgt : ~ T <= t0) by (intros X; assert (false = true) by (apply Fl; split; [auto|lra]); discriminate).
    destruct (Rle_dec T t0); [tauto|]. destruct (last_record_key _ N) as (rl & -> & _). cbn [bind fst]. rewrite <- Hh.
    destruct (regular_Cp_last _ Rg) as (c & E1 & _). rewrite sorted_without, <- Hh in E1. rewrite (Cp_without _ _ _ E1), E1. cbn [bind]. eexists. split; [reflexivity|]. f_equal. ring.
Qed.
Lemma magnetic_S p m T t0 : magnetic_regular p m -> highest p t0 ->
  exists s, phase_S (without_magnetism p) T = Ok s /\
    phase_S p T = Ok (s + S_mag p T + (if Rle_dec T t0 then 0 else Cp_mag p t0 * ln (T / t0))).
Proof.
  intros (Hm & _ & _ & _ & Rg) Hh. destruct (regular_sorted _ Rg) as (_ & N & C). apply (highest_last _ Rg) in Hh. rewrite sorted_without in *.
  unfold phase_S. rewrite sorted_without, last_without. replace (S_mag (without_magnetism p) T) with 0 by reflexivity. cbn [ph_Sref without_magnetism].
  set (x := accumulate _ _ _ _). pose proof (accumulate_flag (fun r => cp_S r T) T (sorted_records p) T_ref (ph_Sref p) C) as Fl. fold x in Fl.
  destruct (fst x) eqn:E.
  - apply proj1 in Fl. destruct (Fl eq_refl) as [_ Hle]. eexists. split; [reflexivity|]. destruct (Rle_dec T t0); [|lra]. f_equal. ring.
  - assert (Hgt : ~ T <= t0) by (intros X; assert (false = true) by (apply Fl; split; [auto|lra]); discriminate).
    destruct (Rle_dec T t0); [tauto|]. destruct (last_record_key _ N) as (rl & -> & _). cbn [bind fst]. rewrite <- Hh.
    destruct (regular_Cp_last _ Rg) as (c & E1 & _). rewrite sorted_without, <- Hh in E1. rewrite (Cp_without _ _ _ E1), E1. cbn [bind]. eexists. split; [reflexivity|]. f_equal. ring.
Qed.
Lemma highest_In p t : highest p t -> In t (map fst (ph_records p)). Proof. now intros [H _]. Qed.
Lemma magnetic_Cp p m T : magnetic_regular p m -> exists c, phase_Cp (without_magnetism p) T = Ok c /\ phase_Cp p T = Ok (c + Cp_mag p T).
Proof.
  intros (_ & _ & _ & _ & Rg). destruct (regular_Cp _ Rg) as (rl & _ & _ & E). eexists. split; [apply E|]. now apply Cp_without.
Qed.

Lemma magnetic_H_deriv p m T t0 : magnetic_regular p m -> highest p t0 -> 0 < T -> ~ In T (map fst (ph_records p)) -> T <> Tc_mag m ->
  derivable_pt_lim (fun t => value (phase_H p t)) T (value (phase_Cp p T) + (if Rle_dec T t0 then 0 else Cp_mag p t0)).
Proof.
  intros Mr Hh HT N NC. pose proof Mr as (Hm & Hc & Hp & HD & Rg).
  destruct (magnetic_Cp _ _ T Mr) as (c & E1 & E2). rewrite E2. cbn [value].
  assert (D0 : derivable_pt_lim (fun t => value (phase_H (without_magnetism p) t)) T c).
  { replace c with (value (phase_Cp (without_magnetism p) T)) by now rewrite E1. apply regular_H_deriv; auto. now apply regular_Cp_continuous. }
  assert (D1 : derivable_pt_lim (H_mag p) T (Cp_mag p T)) by (eapply H_mag_deriv; eauto; repeat split; auto).
  assert (NT : T <> t0) by (intros ->; apply N, highest_In; auto).
  destruct (Rle_dec T t0).
  - apply (deriv_locally _ (fun t => value (phase_H (without_magnetism p) t) + H_mag p t) T _ t0); [lra| |].
    + intros t Ht. destruct (magnetic_H _ _ t t0 Mr Hh) as (h & Eh & ->). rewrite Eh. cbn [value]. destruct (Rle_dec t t0); lra.
    + rewrite Rplus_0_r. now apply (derivable_pt_lim_plus (fun t => value (phase_H (without_magnetism p) t))).
  - apply (deriv_locally_above _ (fun t => value (phase_H (without_magnetism p) t) + H_mag p t + Cp_mag p t0 * (t - t0)) T _ t0); [lra| |].
    + intros t Ht. destruct (magnetic_H _ _ t t0 Mr Hh) as (h & Eh & ->). rewrite Eh. cbn [value]. destruct (Rle_dec t t0); lra.
    + apply (derivable_pt_lim_plus (fun t => value (phase_H (without_magnetism p) t) + H_mag p t)); [now apply (derivable_pt_lim_plus (fun t => value (phase_H (without_magnetism p) t)))|].
      apply is_derive_Reals. auto_derive; auto. ring.
Qed.
Lemma magnetic_S_deriv p m T t0 : magnetic_regular p m -> highest p t0 -> 0 < T -> ~ In T (map fst (ph_records p)) -> T <> Tc_mag m ->
  derivable_pt_lim (fun t => value (phase_S p t)) T ((value (phase_Cp p T) + (if Rle_dec T t0 then 0 else Cp_mag p t0)) / T).
Proof.
  intros Mr Hh HT N NC. pose proof Mr as (Hm & Hc & Hp & HD & Rg).
  destruct (magnetic_Cp _ _ T Mr) as (c & E1 & E2). rewrite E2. cbn [value].
  assert (D0 : derivable_pt_lim (fun t => value (phase_S (without_magnetism p) t)) T (c / T)).
  { replace c with (value (phase_Cp (without_magnetism p) T)) by now rewrite E1. apply regular_S_deriv; auto. now apply regular_Cp_continuous. }
  assert (D1 : derivable_pt_lim (S_mag p) T (Cp_mag p T / T)) by (eapply S_mag_deriv; eauto; repeat split; auto).
  assert (NT : T <> t0) by (intros ->; apply N, highest_In; auto).
  destruct (Rle_dec T t0).
  - apply (deriv_locally _ (fun t => value (phase_S (without_magnetism p) t) + S_mag p t) T _ t0); [lra| |].
    + intros t Ht. destruct (magnetic_S _ _ t t0 Mr Hh) as (h & Eh & ->). rewrite Eh. cbn [value]. destruct (Rle_dec t t0); lra.
    + apply (dlim_eq _ _ (c / T + Cp_mag p T / T)); [field; lra|]. now apply (derivable_pt_lim_plus (fun t => value (phase_S (without_magnetism p) t))).
  - assert (Ht0 : 0 < t0).
    { destruct (regular_sorted _ Rg) as (_ & Ne & C). apply (highest_last _ Rg) in Hh. subst t0. pose proof (last_key_ge _ _ C). pose proof T_ref_pos. lra. }
    apply (deriv_locally_above _ (fun t => value (phase_S (without_magnetism p) t) + S_mag p t + Cp_mag p t0 * ln (t / t0)) T _ t0); [lra| |].
    + intros t Ht. destruct (magnetic_S _ _ t t0 Mr Hh) as (h & Eh & ->). rewrite Eh. cbn [value]. destruct (Rle_dec t t0); lra.
    + apply (dlim_eq _ _ (c / T + Cp_mag p T / T + Cp_mag p t0 * / T)); [field; lra|].
      apply (derivable_pt_lim_plus (fun t => value (phase_S (without_magnetism p) t) + S_mag p t)); [now apply (derivable_pt_lim_plus (fun t => value (phase_S (without_magnetism p) t)))|].
      apply is_derive_Reals. auto_derive; [apply Rdiv_lt_0_compat; lra|field; lra].
Qed.

(** * Which record *)
Lemma find_record_In l : forall t0 T k r, contiguous t0 l -> In (k, r) l -> cr_Tmin r <= T < k -> find_record T l = Some r.
Proof.
  induction l as [|[k' r'] l IH]; intros t0 T k r C; [intros []|]. destruct C as (C1 & C2 & C3 & C4). cbn [find_record]. intros [[= <- <-]|I] HT.
  - destruct (Rlt_dec T k'); [auto|lra].
  - assert (k' <= cr_Tmin r).
    { clear -C4 I. revert k' C4. induction l as [|[a b] l IH]; intros k' C; [destruct I|]. destruct C as (C1 & C2 & C3 & C4). destruct I as [[= <- <-]|I]; [lra|].
      specialize (IH I _ C4). lra. }
    destruct (Rlt_dec T k'); [lra|]. eapply IH; eauto.
Qed.
Lemma In_sorted p x : In x (ph_records p) <-> In x (sorted_records p).
Proof. split; apply Permutation_in; [|symmetry]; apply sorted_perm. Qed.
Lemma regular_Cp_record p T k r : regular p -> In (k, r) (ph_records p) -> cr_Tmin r <= T < k -> phase_Cp p T = Ok (polynomial (cr_terms r) T).
Proof.
  intros Rg I HT. destruct (regular_sorted _ Rg) as (M & N & C). apply In_sorted in I. unfold phase_Cp. rewrite (find_record_In _ _ _ _ _ C I HT).
  unfold Cp_mag. rewrite M, cp_Cp_sum. f_equal. ring.
Qed.
Lemma contiguous_key_unique l : forall t0 k r r', contiguous t0 l -> In (k, r) l -> In (k, r') l -> r = r'.
Proof.
  induction l as [|[k' r0] l IH]; intros t0 k r r' C; [intros []|]. destruct C as (C1 & C2 & C3 & C4).
  assert (X : forall x, In (k', x) l -> False).
  { intros x I. pose proof (contiguous_sorted _ _ C4) as [_ F]. rewrite List.Forall_forall in F. specialize (F _ I). cbn in F. lra. }
  intros [[= <- <-]|I] [[= <-]|J]; auto; try (exfalso; eapply X; eassumption). eapply IH; eauto.
Qed.
Lemma regular_Cp_highest p t0 r T : regular p -> highest p t0 -> In (t0, r) (ph_records p) -> t0 <= T -> phase_Cp p T = Ok (polynomial (cr_terms r) t0).
Proof.
  intros Rg Hh I HT. destruct (regular_sorted _ Rg) as (M & N & C). pose proof Hh as Hh'. apply (highest_last _ Rg) in Hh. subst t0. unfold phase_Cp. rewrite (find_record_none _ _ _ C HT).
  destruct (last_record_key _ N) as (rl & -> & J). cbn [bind fst snd]. apply In_sorted in I. rewrite (contiguous_key_unique _ _ _ _ _ C J I).
  unfold Cp_mag. rewrite M, cp_Cp_sum. f_equal. ring.
Qed.
Lemma magnetic_above p m T t0 : magnetic_regular p m -> highest p t0 -> t0 < T -> T <> Tc_mag m ->
  derivable_pt_lim (fun t => value (phase_H p t)) T (value (phase_Cp p T) + Cp_mag p t0) /\
  derivable_pt_lim (fun t => value (phase_S p t)) T ((value (phase_Cp p T) + Cp_mag p t0) / T).
Proof.
  intros Mr Hh HT NC. pose proof Mr as (_ & _ & _ & _ & Rg). assert (Ht0 : 0 < t0).
  { destruct (regular_sorted _ Rg) as (_ & Ne & C). assert (H' : highest (without_magnetism p) t0) by exact Hh. apply (highest_last _ Rg) in H'. subst t0.
    pose proof (last_key_ge _ _ C). pose proof T_ref_pos. rewrite sorted_without in *. lra. }
  assert (N : ~ In T (map fst (ph_records p))) by (intros I; destruct Hh as [_ Hh]; specialize (Hh _ I); lra).
  pose proof (magnetic_H_deriv p m T t0 Mr Hh ltac:(lra) N NC) as D1. pose proof (magnetic_S_deriv p m T t0 Mr Hh ltac:(lra) N NC) as D2.
  destruct (Rle_dec T t0); [lra|]. auto.
Qed.

(** A concrete ferromagnetic phase. *)
Definition iron_mag : magnetic := mkmag 1043 2 (2 / 5).
Definition iron_like : phase := mkphase 0 27 ((1000, mkcp (29815 / 100) 1000 ((25, 0) :: nil)) :: nil) (Some iron_mag).
Lemma iron_mag_good : 0 < Tc_mag iron_mag /\ p_mag iron_mag <> 0 /\ D_mag iron_mag <> 0.
Proof. unfold D_mag, iron_mag; cbn. repeat split; lra. Qed.
Lemma iron_like_regular : magnetic_regular iron_like iron_mag /\ highest iron_like 1000.
Proof.
  split.
  - split; [reflexivity|]. destruct iron_mag_good as (A & B & C). repeat split; auto. cbn. eexists. split; [apply Permutation_refl|]. split; [discriminate|]. cbn. unfold T_ref. repeat split; lra.
  - split; cbn; [auto|]. intros u [<-|[]]. lra.
Qed.
Lemma iron_Cp_mag : 0 < Cp_mag iron_like 1000.
Proof.
  unfold Cp_mag, iron_like. cbn [ph_mag Tc_mag iron_mag beta0_mag]. cbv zeta. destruct (Rle_dec (1000 / 1043) 1); [|lra].
  assert (0 < ln (2 + 1)) by (rewrite <- ln_1; apply ln_increasing; lra). assert (0 < R_gas) by (unfold R_gas; lra).
  apply Rmult_lt_0_compat; [now apply Rmult_lt_0_compat|]. apply Rdiv_lt_0_compat.
  - apply Rmult_lt_0_compat; [unfold B_mag; cbn; lra|]. assert (X : 0 < 1000 / 1043) by lra. pose proof (pow_lt _ 3 X). pose proof (pow_lt _ 9 X). pose proof (pow_lt _ 15 X). lra.
  - unfold D_mag. cbn. lra.
Qed.
Lemma extrapolation_refuted :
  ~ (forall p m T t0, magnetic_regular p m -> highest p t0 -> t0 < T -> T <> Tc_mag m ->
       derivable_pt_lim (fun t => value (phase_H p t)) T (value (phase_Cp p T))).
Proof.
  intros H. destruct iron_like_regular as [A B]. assert (N : 2000 <> Tc_mag iron_mag) by (cbn; lra).
  pose proof (H _ _ 2000 1000 A B ltac:(lra) N) as D1. destruct (magnetic_above _ _ 2000 1000 A B ltac:(lra) N) as [D2 _].
  pose proof (uniqueness_limite _ _ _ _ D1 D2) as E. pose proof iron_Cp_mag. lra.
Qed.
