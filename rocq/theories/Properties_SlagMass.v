(** C48: slag viscosity from a composition by mass. *)
From Verif Require Import Prelude M_Lists M_Stoichiometry M_Thermochem M_ThermoMat M_Coals M_Physical Spec_Stoich P_Text P_Stoich P_Count P_Convert.
From Verif Require Import Spec_Physical P_Content P_Poly P_Physical P_Slag.
From Verif Require Import Properties_Slag Properties_Stoich.
From Coq Require Import Reals Qreals Lra Lia.
Local Open Scope list_scope.
Local Open Scope R_scope.

(** The amounts (kmol) of the masses (kg) [y]: same compounds in the same order, each mass
    over the compound's molar mass, the sum of atomic masses of its formula. *)
Definition amounts_of (y : pydict) (n : list (string * R)) : Prop :=
  Forall2 (fun ym na => fst na = fst ym /\ exists f, proper (fst ym) f /\ has_atoms f /\
    snd na = Q2R (this (snd ym)) / Q2R (this (weight (fun s => atoms s f)))) y n.

Lemma Q2R_this_mult a b : Q2R (this (a * b)%Qc) = Q2R (this a) * Q2R (this b).
Proof. cbn [Qcmult Q2Qc this]. erewrite Qeq_eqR; [|apply Qred_correct]. apply Q2R_mult. Qed.
Lemma Q2R_this_plus a b : Q2R (this (a + b)%Qc) = Q2R (this a) + Q2R (this b).
Proof. cbn [Qcplus Q2Qc this]. erewrite Qeq_eqR; [|apply Qred_correct]. apply Q2R_plus. Qed.
Lemma Q2R_this_0 (a : Qc) : Q2R (this a) = 0 -> a = 0%Qc.
Proof. intros H. apply Qc_is_canon. apply eqR_Qeq. rewrite H. unfold Q2R. cbn. lra. Qed.
Lemma Q2R_this_inv (a : Qc) : a <> 0%Qc -> Q2R (this (/ a)%Qc) = / Q2R (this a).
Proof.
  intros N. apply (Rmult_eq_reg_l (Q2R (this a))); [|intros E; apply N; now apply Q2R_this_0].
  rewrite <- Q2R_this_mult. rewrite Qcmult_inv_r by auto. rewrite Rinv_r; [|intros E; apply N; now apply Q2R_this_0]. unfold Q2R. cbn. lra.
Qed.
Lemma Q2R_this_div (a b : Qc) : b <> 0%Qc -> Q2R (this (a / b)%Qc) = Q2R (this a) / Q2R (this b).
Proof. intros N. unfold Qcdiv. rewrite Q2R_this_mult, Q2R_this_inv; auto. Qed.

Lemma to_R_scale k d : to_R (scale_dict k d) = times (Q2R (this k)) (to_R d).
Proof. unfold to_R, scale_dict, times. rewrite !map_map. apply map_ext. intros [c v]. cbn [fst snd]. now rewrite Q2R_this_mult. Qed.
Lemma total_to_R d : Spec_Physical.total snd (to_R d) = Q2R (this (Spec_Stoich.total d)).
Proof.
  induction d as [|[c v] d IH].
  - change (0 = Q2R 0%Q). unfold Q2R. cbn [Qnum Qden]. lra.
  - change (Q2R (this v) + Spec_Physical.total snd (to_R d) = Q2R (this (v + Spec_Stoich.total d)%Qc)). rewrite IH. now rewrite Q2R_this_plus.
Qed.
Lemma amounts_of_good y n : amounts_of y n -> good_keys y.
Proof. intros H c x I. induction H as [|[c1 m1] b y n H _ IH]; [destruct I|]. destruct I as [[= -> ->]|I]; auto. destruct H as (_ & f & P & A & _). eauto. Qed.
Lemma amounts_of_amounts y n : amounts_of y n -> exists d, amounts y = Ok d /\ n = to_R d.
Proof.
  intros H. eexists. split; [apply amounts_good; eapply amounts_of_good; eauto|].
  unfold to_R. rewrite map_map. cbn [fst snd]. induction H as [|[c m] [c' a] y n H _ IH]; auto. cbn [map fst snd]. destruct H as (E & f & P & A & V). cbn [fst snd] in *. subst c' a.
  rewrite <- IH. f_equal. f_equal. unfold molar. rewrite (molar_mass_proper _ _ P). rewrite Q2R_this_div; auto. apply q_pos_neq. eapply molar_pos; eauto.
Qed.

(** Urbain's viscosity of a composition by mass is that of the amounts in it. *)
Theorem C48_urbain_mass : forall T y n, amounts_of y n -> urbain_y T y = urbain T n.
Proof.
  intros T y n H. destruct (amounts_of_amounts y n H) as (d & E & ->). unfold urbain_y, amount_fractions. rewrite E. cbn [bind].
  destruct (Qc_eq_dec (Spec_Stoich.total d) 0%Qc) as [Z|Z].
  - destruct d as [|a d]; [reflexivity|]. rewrite fractions_zero by (auto; discriminate). cbn [bind]. rewrite urbain_unfold, shares_0; auto; [discriminate|]. rewrite total_to_R, Z. unfold Q2R. cbn. lra.
  - rewrite fractions_ok by auto. cbn [bind]. rewrite normalised_scale, to_R_scale. apply urbain_times. rewrite Q2R_this_inv by auto. apply Rinv_neq_0_compat. intros X. apply Z. now apply Q2R_this_0.
Qed.
Print Assumptions C48_urbain_mass.
(** So is Riboud's, for masses whose amounts do not cancel out. *)
Theorem C48_riboud_mass : forall T y n, amounts_of y n -> Spec_Physical.total snd n <> 0 -> riboud_y T y = snd (riboud T n).
Proof.
  intros T y n H N. destruct (amounts_of_amounts y n H) as (d & E & ->). unfold riboud_y, amount_fractions. rewrite E. cbn [bind].
  assert (Z : Spec_Stoich.total d <> 0%Qc). { intros Z. apply N. rewrite total_to_R, Z. unfold Q2R. cbn. lra. }
  rewrite fractions_ok by auto. cbn [bind]. rewrite normalised_scale, to_R_scale. apply riboud_times. rewrite Q2R_this_inv by auto. apply Rinv_neq_0_compat. intros X. apply Z. now apply Q2R_this_0.
Qed.
Print Assumptions C48_riboud_mass.
(** Masses per kg or per 100 kg: the same viscosity (or error), whatever the names. *)
Theorem C48_mass_scale : forall k T y, k <> 0%Qc -> urbain_y T (scale_dict k y) = urbain_y T y /\ riboud_y T (scale_dict k y) = riboud_y T y.
Proof. intros k T y K. unfold urbain_y, riboud_y. now rewrite amount_fractions_scale. Qed.
Print Assumptions C48_mass_scale.


(** A case: 0.4 kg SiO2 with 0.6 kg CaO have a viscosity at 1800 K in both models, and
    the hypotheses above hold of them. *)
Definition lime_slag : pydict := [("SiO2"%string, Q2Qc (4 # 10)); ("CaO"%string, Q2Qc (6 # 10))].
Lemma lime_slag_amounts : exists a b, 0 < a /\ 0 < b /\ amounts_of lime_slag [("SiO2"%string, a); ("CaO"%string, b)].
Proof.
  assert (W : forall c f, proper c f -> has_atoms f -> 0 < Q2R (this (weight (fun s => atoms s f)))).
  { intros c f P A. pose proof (molar_pos c f P A) as X. rewrite <- RMicromega.Q2R_0. apply Qlt_Rlt. exact X. }
  destruct (check "SiO2") as [f|] eqn:E; [|vm_compute in E; discriminate]. destruct (check "CaO") as [g|] eqn:E'; [|vm_compute in E'; discriminate].
  assert (P1 := check_proper _ _ E). assert (P2 := check_proper _ _ E').
  assert (A1 : has_atoms f). { vm_compute in E. injection E as <-. exists "O"%string. vm_compute. reflexivity. }
  assert (A2 : has_atoms g). { vm_compute in E'. injection E' as <-. exists "O"%string. vm_compute. reflexivity. }
  do 2 eexists. split; [|split]; cycle 2.
  - constructor; [|constructor; [|constructor]]; (split; [reflexivity|]); [exists f|exists g]; (split; [assumption|]); (split; [assumption|]); reflexivity.
  - apply Rdiv_lt_0_compat; [unfold Q2R; cbn; lra|eapply W; eauto].
  - apply Rdiv_lt_0_compat; [unfold Q2R; cbn; lra|eapply W; eauto].
Qed.
Example C48_mass_case : exists n u v, amounts_of lime_slag n /\ urbain_y 1800 lime_slag = Ok u /\ Spec_Physical.total snd n <> 0 /\ riboud_y 1800 lime_slag = Ok v /\ 0 < u /\ 0 < v.
Proof.
  destruct lime_slag_amounts as (a & b & A & B & H). eexists. 
  assert (N : Spec_Physical.total snd [("SiO2"%string, a); ("CaO"%string, b)] <> 0) by (cbn [Spec_Physical.total snd]; lra).
  rewrite (C48_urbain_mass _ _ _ H), (C48_riboud_mass _ _ _ H N).
  destruct (C48_urbain_defined [("SiO2"%string, a); ("CaO"%string, b)] 1800 "CaO" b) as [u U]; [intros c x [[= <- <-]|[[= <- <-]|[]]]; lra|repeat constructor; cbn; intuition discriminate|cbn; tauto|cbn; tauto|lra|lra|].
  assert (V : exists v, snd (riboud 1800 [("SiO2"%string, a); ("CaO"%string, b)]) = Ok v).
  { rewrite riboud_ok; [unfold riboud_of; rewrite rdiv_ok by lra; eexists; reflexivity|]. unfold riboud_prepare, double_cation. cbn [lookup String.eqb Ascii.eqb Bool.eqb]. unfold riboud_all, riboud_cao, riboud_na2o. cbn [app Spec_Physical.total]. unfold get0. cbn [lookup String.eqb Ascii.eqb Bool.eqb]. lra. }
  destruct V as [v V]. exists u, v. split; [exact H|]. split; auto. split; auto. split; auto. split; eapply (C48_positive _ 1800); eauto; lra.
Qed.
