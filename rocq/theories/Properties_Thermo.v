(** Thermochemistry: C33-C36, C58, C59. *)
From Verif Require Import Prelude M_Elements M_Stoichiometry Spec_Stoich M_Thermochem Spec_Thermo P_Thermo P_Magnetic P_ThermoApi P_Count M_Data M_Data_Rao M_Data_Nist P_Data.
From Coq Require Import Qabs Reals Qreals Permutation Lra.
From Coquelicot Require Import Coquelicot.
Local Open Scope R_scope.

(** * C33: enthalpy and entropy of one record *)
Theorem C33_heat_capacity : forall r T, cp_Cp r T = polynomial (cr_terms r) T.
Proof. exact cp_Cp_sum. Qed.
Print Assumptions C33_heat_capacity.
Theorem C33_enthalpy_derivative : forall r T, 0 < cr_Tmin r -> 0 < T < cr_Tmax r ->
  derivable_pt_lim (cp_H r) T (polynomial (cr_terms r) T).
Proof. intros r T H1 H2. rewrite <- cp_Cp_sum. now apply cp_H_deriv. Qed.
Print Assumptions C33_enthalpy_derivative.
Theorem C33_entropy_derivative : forall r T, 0 < cr_Tmin r -> 0 < T < cr_Tmax r ->
  derivable_pt_lim (cp_S r) T (polynomial (cr_terms r) T / T).
Proof. intros r T H1 H2. rewrite <- cp_Cp_sum. now apply cp_S_deriv. Qed.
Print Assumptions C33_entropy_derivative.
Theorem C33_zero_at_lower_bound : forall r, 0 < cr_Tmin r <= cr_Tmax r -> cp_H r (cr_Tmin r) = 0 /\ cp_S r (cr_Tmin r) = 0.
Proof. intros r H. split; [now apply cp_H_Tmin|now apply cp_S_Tmin]. Qed.
Print Assumptions C33_zero_at_lower_bound.
Theorem C33_constant_above : forall r T, cr_Tmax r <= T -> cp_H r T = cp_H r (cr_Tmax r) /\ cp_S r T = cp_S r (cr_Tmax r).
Proof. intros r T H. split; [now apply cp_H_ge|now apply cp_S_ge]. Qed.
Print Assumptions C33_constant_above.
Theorem C33_integral : forall r T, 0 < cr_Tmin r <= cr_Tmax r -> 0 < T <= cr_Tmax r ->
  is_RInt (polynomial (cr_terms r)) (cr_Tmin r) T (cp_H r T) /\
  is_RInt (fun t => polynomial (cr_terms r) t / t) (cr_Tmin r) T (cp_S r T).
Proof.
  intros r T H1 H2. split.
  - apply (is_RInt_ext (cp_Cp r)); [intros; apply cp_Cp_sum|]. now apply H_RInt.
  - apply (is_RInt_ext (fun t => cp_Cp r t / t)); [intros; f_equal; apply cp_Cp_sum|]. now apply S_RInt.
Qed.
Print Assumptions C33_integral.
(** A record with exponents 0, 1, -1 and -2. *)
Definition example_record : cprecord := mkcp (29815 / 100) 1000 ((20, 0) :: (1 / 100, 1) :: (5, -1) :: (-300000, -2) :: nil).
Example C33_example : 0 < cr_Tmin example_record <= cr_Tmax example_record /\ 0 < 500 < cr_Tmax example_record.
Proof. cbn. lra. Qed.

(** * C34: enthalpy and entropy of a phase *)
Theorem C34_anchored : forall p, regular p -> phase_H p T_ref = Ok (ph_DHref p) /\ phase_S p T_ref = Ok (ph_Sref p).
Proof. exact regular_anchor. Qed.
Print Assumptions C34_anchored.

(** A phase without records has no heat capacity, enthalpy or entropy. *)
Theorem C34_no_records : forall p T, ph_records p = [] -> phase_Cp p T = Err ValueError /\ phase_H p T = Err ValueError /\ phase_S p T = Err ValueError /\ phase_G p T = Err ValueError.
Proof. intros [h s rs mag] T H. cbn [ph_records] in H. subst rs. repeat split. Qed.
Print Assumptions C34_no_records.
Theorem C34_enthalpy_integral : forall p T, regular p -> 0 < T ->
  exists h, phase_H p T = Ok h /\ is_RInt (fun t => value (phase_Cp p t)) T_ref T (h - ph_DHref p).
Proof. exact regular_H. Qed.
Print Assumptions C34_enthalpy_integral.
Theorem C34_entropy_integral : forall p T, regular p -> 0 < T ->
  exists s, phase_S p T = Ok s /\ is_RInt (fun t => value (phase_Cp p t) / t) T_ref T (s - ph_Sref p).
Proof. exact regular_S. Qed.
Print Assumptions C34_entropy_integral.
Theorem C34_continuous : forall p T, regular p -> 0 < T ->
  continuity_pt (fun t => value (phase_H p t)) T /\ continuity_pt (fun t => value (phase_S p t)) T.
Proof. intros p T R H. split; [now apply regular_H_continuous|now apply regular_S_continuous]. Qed.
Print Assumptions C34_continuous.
Theorem C34_derivative : forall p T, regular p -> 0 < T -> ~ In T (map fst (ph_records p)) ->
  derivable_pt_lim (fun t => value (phase_H p t)) T (value (phase_Cp p T)) /\
  derivable_pt_lim (fun t => value (phase_S p t)) T (value (phase_Cp p T) / T).
Proof. intros p T R H N. pose proof (regular_Cp_continuous _ _ R H N). split; [now apply regular_H_deriv|now apply regular_S_deriv]. Qed.
Print Assumptions C34_derivative.
(** Which heat capacity: that of the record whose range contains T; above the highest record, its end value. *)
Theorem C34_heat_capacity : forall p T k r, regular p -> In (k, r) (ph_records p) -> cr_Tmin r <= T < k ->
  phase_Cp p T = Ok (polynomial (cr_terms r) T).
Proof. exact regular_Cp_record. Qed.
Print Assumptions C34_heat_capacity.
Theorem C34_constant_heat_capacity_above : forall p t0 r T, regular p -> highest p t0 -> In (t0, r) (ph_records p) -> t0 <= T ->
  phase_Cp p T = Ok (polynomial (cr_terms r) t0).
Proof. exact regular_Cp_highest. Qed.
Print Assumptions C34_constant_heat_capacity_above.

(** With magnetic data: correct up to the highest record ... *)
Theorem C34_magnetic_derivative : forall p m T t0, magnetic_regular p m -> highest p t0 ->
  0 < T < t0 -> ~ In T (map fst (ph_records p)) -> T <> Tc_mag m ->
  derivable_pt_lim (fun t => value (phase_H p t)) T (value (phase_Cp p T)) /\
  derivable_pt_lim (fun t => value (phase_S p t)) T (value (phase_Cp p T) / T).
Proof.
  intros p m T t0 Mr Hh HT N NC. pose proof (magnetic_H_deriv p m T t0 Mr Hh ltac:(lra) N NC) as D1. pose proof (magnetic_S_deriv p m T t0 Mr Hh ltac:(lra) N NC) as D2.
  destruct (Rle_dec T t0); [|lra]. rewrite Rplus_0_r in D1, D2. auto.
Qed.
Print Assumptions C34_magnetic_derivative.
(** ... but above it the magnetic heat capacity at the end of the last record is counted once more. *)
Theorem C34_magnetic_extrapolation : forall p m T t0, magnetic_regular p m -> highest p t0 -> t0 < T -> T <> Tc_mag m ->
  derivable_pt_lim (fun t => value (phase_H p t)) T (value (phase_Cp p T) + Cp_mag p t0) /\
  derivable_pt_lim (fun t => value (phase_S p t)) T ((value (phase_Cp p T) + Cp_mag p t0) / T).
Proof. exact magnetic_above. Qed.
Print Assumptions C34_magnetic_extrapolation.
Example C34_iron_like : magnetic_regular iron_like iron_mag /\ highest iron_like 1000.
Proof. exact iron_like_regular. Qed.
Theorem C34_magnetic_extrapolation_refuted :
  ~ (forall p m T t0, magnetic_regular p m -> highest p t0 -> t0 < T -> T <> Tc_mag m ->
       derivable_pt_lim (fun t => value (phase_H p t)) T (value (phase_Cp p T))).
Proof. exact extrapolation_refuted. Qed.
Print Assumptions C34_magnetic_extrapolation_refuted.

(** A phase with two records given in the wrong order. *)
Definition example_phase : phase :=
  mkphase (-1000) 30 ((2000, mkcp 1000 2000 ((25, 0) :: nil)) :: (1000, example_record) :: nil) None.
Example C34_example : regular example_phase /\ highest example_phase 2000.
Proof.
  split.
  - split; [reflexivity|]. eexists. split; [apply perm_swap|]. split; [discriminate|]. cbn. unfold T_ref. repeat split; lra.
  - split; cbn; [auto|]. intros u [<-|[<-|[]]]; lra.
Qed.

(** * C35: Gibbs energy *)
Theorem C35_gibbs : forall p T, ph_mag p = None ->
  phase_G p T = do h <- phase_H p T; do s <- phase_S p T; Ok (h - T * s).
Proof. intros p T H. apply phase_G_eq. now rewrite H. Qed.
Print Assumptions C35_gibbs.
Theorem C35_gibbs_magnetic : forall p m T, ph_mag p = Some m -> 0 < T -> 0 < Tc_mag m -> p_mag m <> 0 -> D_mag m <> 0 ->
  phase_G p T = do h <- phase_H p T; do s <- phase_S p T; Ok (h - T * s).
Proof. intros p m T H H1 H2 H3 H4. apply phase_G_eq. now rewrite H. Qed.
Print Assumptions C35_gibbs_magnetic.
Theorem C35_defined : forall p T, regular p -> 0 < T ->
  exists h s, phase_H p T = Ok h /\ phase_S p T = Ok s /\ phase_G p T = Ok (h - T * s).
Proof. exact regular_G. Qed.
Print Assumptions C35_defined.
Theorem C35_derivative : forall p T, regular p -> 0 < T -> ~ In T (map fst (ph_records p)) ->
  derivable_pt_lim (fun t => value (phase_G p t)) T (- value (phase_S p T)).
Proof. exact regular_G_deriv. Qed.
Print Assumptions C35_derivative.
(** The magnetic contributions are consistent with one another and continuous at the critical temperature. *)
Theorem C35_magnetic_derivatives : forall p m T, ph_mag p = Some m -> 0 < Tc_mag m -> p_mag m <> 0 -> D_mag m <> 0 ->
  0 < T -> T <> Tc_mag m ->
  derivable_pt_lim (H_mag p) T (Cp_mag p T) /\ derivable_pt_lim (S_mag p) T (Cp_mag p T / T) /\ derivable_pt_lim (G_mag p) T (- S_mag p T).
Proof.
  intros p m T H H1 H2 H3 HT N. assert (good_mag m) by (repeat split; auto). split; [|split].
  - eapply H_mag_deriv; eauto.
  - eapply S_mag_deriv; eauto.
  - eapply G_mag_deriv; eauto.
Qed.
Print Assumptions C35_magnetic_derivatives.
Theorem C35_magnetic_continuous : forall p m T, ph_mag p = Some m -> 0 < Tc_mag m -> p_mag m <> 0 -> D_mag m <> 0 -> 0 < T ->
  continuity_pt (H_mag p) T /\ continuity_pt (S_mag p) T /\ continuity_pt (G_mag p) T.
Proof.
  intros p m T H H1 H2 H3 HT. assert (good_mag m) by (repeat split; auto). split; [|split].
  - eapply H_mag_continuous; eauto.
  - eapply S_mag_continuous; eauto.
  - eapply G_mag_continuous; eauto.
Qed.
Print Assumptions C35_magnetic_continuous.

(** The magnetic entropy rises by R ln(beta0 + 1) from absolute zero: this is
    missing at 0 K and at high temperatures at most (Tc / T)^5 / (2 D) of it. *)
Theorem C35_magnetic_entropy : forall p m, ph_mag p = Some m -> 0 < Tc_mag m ->
  S_mag p 0 = - (8.314462618 * ln (beta0_mag m + 1)) /\
  (0 <= beta0_mag m -> 0 < D_mag m -> forall T, Tc_mag m < T -> - (8.314462618 * ln (beta0_mag m + 1) * ((Tc_mag m / T) ^ 5 / (2 * D_mag m))) <= S_mag p T <= 0).
Proof.
  intros p m H Tc. assert (RG : R_gas = 8.314462618) by (unfold R_gas; lra). unfold S_mag. rewrite H, RG. split.
  - replace (0 / Tc_mag m) with 0 by (field; lra). destruct (Rle_dec 0 1); [|lra]. unfold Rdiv. ring.
  - intros B D T HT. assert (LN : 0 <= ln (beta0_mag m + 1)) by (rewrite <- ln_1; destruct (Req_dec (beta0_mag m) 0) as [-> |]; [rewrite Rplus_0_l; lra|left; apply ln_increasing; lra]).
    destruct (Rle_dec (T / Tc_mag m) 1) as [L|L]. { exfalso. apply (Rmult_le_compat_r (Tc_mag m)) in L; [|lra]. replace (T / Tc_mag m * Tc_mag m) with T in L by (field; lra). lra. }
    replace (/ (T / Tc_mag m)) with (Tc_mag m / T) by (field; lra). set (u := Tc_mag m / T).
    assert (U : 0 < u <= 1). { unfold u. split; [apply Rdiv_lt_0_compat; lra|]. apply (Rmult_le_reg_r T); [lra|]. replace (Tc_mag m / T * T) with (Tc_mag m) by (field; lra). lra. }
    assert (P : forall n, 0 < u ^ n <= 1). { intros n. induction n as [|n IH]; cbn [pow]; [lra|]. split; [apply Rmult_lt_0_compat; lra|]. replace 1 with (1 * 1) by ring. apply Rmult_le_compat; lra. }
    assert (U15 : u ^ 15 <= u ^ 5). { replace (u ^ 15) with (u ^ 5 * u ^ 10) by ring. rewrite <- (Rmult_1_r (u ^ 5)) at 2. apply Rmult_le_compat_l; [left; apply P|apply P]. }
    assert (U25 : u ^ 25 <= u ^ 5). { replace (u ^ 25) with (u ^ 5 * u ^ 20) by ring. rewrite <- (Rmult_1_r (u ^ 5)) at 2. apply Rmult_le_compat_l; [left; apply P|apply P]. }
    pose proof (P 5%nat). pose proof (P 15%nat). pose proof (P 25%nat). set (s := 2 * u ^ 5 / 5 + 2 * u ^ 15 / 45 + 2 * u ^ 25 / 125) in *. assert (S0 : 0 <= s <= u ^ 5 / 2) by (unfold s; lra).
    assert (I : 0 < / D_mag m) by now apply Rinv_0_lt_compat. assert (S1 : 0 <= s / D_mag m <= u ^ 5 / (2 * D_mag m)).
    { replace (u ^ 5 / (2 * D_mag m)) with (u ^ 5 / 2 * / D_mag m) by (field; lra). unfold Rdiv at 1 2. split; [apply Rmult_le_pos; lra|]. apply Rmult_le_compat_r; lra. }
    assert (K : 0 <= 8.314462618 * ln (beta0_mag m + 1)) by (apply Rmult_le_pos; lra). set (K0 := 8.314462618 * ln (beta0_mag m + 1)) in *.
    replace (- (8.314462618) * ln (beta0_mag m + 1) * (s / D_mag m)) with (- (K0 * (s / D_mag m))) by (unfold K0; ring). split.
    + apply Ropp_le_contravar. apply Rmult_le_compat_l; lra.
    + assert (0 <= K0 * (s / D_mag m)) by (apply Rmult_le_pos; lra). lra.
Qed.
Print Assumptions C35_magnetic_entropy.
(** No phase with magnetic data can be constructed. *)
Theorem C35_magnetic_constructor_refuted : forall DHref Sref records m, new_phase DHref Sref records (Some m) = Err TypeError.
Proof. reflexivity. Qed.
Print Assumptions C35_magnetic_constructor_refuted.
Example C35_example : ph_mag iron_like = Some iron_mag /\ 0 < Tc_mag iron_mag /\ p_mag iron_mag <> 0 /\ D_mag iron_mag <> 0.
Proof. split; [reflexivity|apply iron_mag_good]. Qed.

(** * C36: the module functions *)
Definition is_thermo_function (f : database -> string -> R -> R -> res R) (g : phase -> R -> res R) : Prop :=
  (f = thermo_Cp /\ g = phase_Cp) \/ (f = thermo_H /\ g = phase_H) \/ (f = thermo_S /\ g = phase_S) \/ (f = thermo_G /\ g = phase_G).
Lemma is_thermo f g : is_thermo_function f g -> f = thermo g.
Proof. intros [[-> ->]|[[-> ->]|[[-> ->]|[-> ->]]]]; reflexivity. Qed.
Theorem C36_linear_in_mass : forall f g, is_thermo_function f g -> forall db cs T mass v,
  f db cs T 1 = Ok v -> f db cs T mass = Ok (mass * v).
Proof. intros f g H. rewrite (is_thermo f g H). apply thermo_linear. Qed.
Print Assumptions C36_linear_in_mass.
Theorem C36_same_error : forall f g, is_thermo_function f g -> forall db cs T m1 m2 e, f db cs T m1 = Err e -> f db cs T m2 = Err e.
Proof. intros f g H. rewrite (is_thermo f g H). apply thermo_error. Qed.
Print Assumptions C36_same_error.
(** The value: for "formula[phase]", T in degrees Celsius; J/mol are converted to kWh and kg. *)
Theorem C36_value : forall f g, is_thermo_function f g -> forall db fo ph c p T v mass,
  no_bracket fo -> no_bracket ph -> lookup (str_of fo) db = Some c -> lookup (str_of ph) (tc_phases c) = Some p -> tc_molar_mass c <> 0 ->
  g p (T + 273.15) = Ok v ->
  f db (str_of (fo ++ text_of "[" ++ ph ++ text_of "]"))%list T mass = Ok (v / (3600 * 1000) / tc_molar_mass c * mass).
Proof.
  intros f g H db fo ph c p T v mass F P L1 L2 N E. rewrite (is_thermo f g H).
  replace (3600 * 1000) with 3600000 by lra. apply (thermo_value g db _ (str_of fo) (str_of ph) c p T v mass); auto.
  exact (split_ok fo ph F P).
Qed.
Print Assumptions C36_value.
Theorem C36_no_phase : forall f g, is_thermo_function f g -> forall db cs T mass,
  ~ In "["%char cs -> f db (str_of cs) T mass = Err IndexError.
Proof. intros f g H db cs T mass N. rewrite (is_thermo f g H). unfold thermo. now rewrite split_missing. Qed.
Print Assumptions C36_no_phase.
Theorem C36_unknown_compound : forall f g, is_thermo_function f g -> forall db fo ph T mass,
  no_bracket fo -> no_bracket ph -> lookup (str_of fo) db = None ->
  f db (str_of (fo ++ text_of "[" ++ ph ++ text_of "]"))%list T mass = Err KeyError.
Proof.
  intros f g H db fo ph T mass F P L. rewrite (is_thermo f g H). unfold thermo. change (text_of "[") with (cons "["%char nil). change (text_of "]") with (cons "]"%char nil).
  rewrite (split_ok fo ph F P). cbn [bind fst]. now rewrite L.
Qed.
Print Assumptions C36_unknown_compound.
Theorem C36_unknown_phase : forall f g, is_thermo_function f g -> forall db fo ph c T mass,
  no_bracket fo -> no_bracket ph -> lookup (str_of fo) db = Some c -> lookup (str_of ph) (tc_phases c) = None ->
  f db (str_of (fo ++ text_of "[" ++ ph ++ text_of "]"))%list T mass = Err PyException.
Proof.
  intros f g H db fo ph c T mass F P L1 L2. rewrite (is_thermo f g H). unfold thermo. change (text_of "[") with (cons "["%char nil). change (text_of "]") with (cons "]"%char nil).
  rewrite (split_ok fo ph F P). cbn [bind fst snd]. rewrite L1. unfold compound_of. now rewrite L2.
Qed.
Print Assumptions C36_unknown_phase.
(** A compound made from its formula uses the molar mass of the formula. *)
Theorem C36_molar_mass : forall fo f ph, proper fo f -> exists c, new_compound fo ph = Ok c /\ thermo_molar_mass fo = Ok (tc_molar_mass c) /\ 1000 * tc_molar_mass c = Q2R (this (weight (fun e => atoms e f))).
Proof.
  intros fo f ph H. unfold new_compound, thermo_molar_mass. rewrite (molar_mass_proper _ _ H). cbn [bind]. eexists. split; [reflexivity|]. split; [reflexivity|]. cbn. field.
Qed.
Print Assumptions C36_molar_mass.
Example C36_example : exists c p, lookup "Fe2O3" rao = Some c /\ lookup "Salpha" (tc_phases c) = Some p /\ no_bracket (text_of "Fe2O3") /\ no_bracket (text_of "Salpha").
Proof.
  destruct (lookup_phase rao_data "Fe2O3" "Salpha") as [qp|] eqn:E; [|vm_compute in E; discriminate]. destruct (lookup_phase_ok _ _ _ _ E) as (c & I1 & I2).
  exists c, (read_phase qp). split; auto. split; auto. unfold no_bracket. cbn. repeat split; intros H; repeat (destruct H as [H|H]; [discriminate|]); auto.
Qed.

(** * C58: the shipped default database *)
Theorem C58_regular : forall fo ph c p, in_database rao fo ph c p -> regular p.
Proof. exact rao_regular. Qed.
Print Assumptions C58_regular.
Theorem C58_reference_values : forall fo ph c p, in_database rao fo ph c p ->
  phase_H p 298.15 = Ok (ph_DHref p) /\ phase_S p 298.15 = Ok (ph_Sref p).
Proof. intros fo ph c p I. replace 298.15 with T_ref by (unfold T_ref; lra). apply regular_anchor. eapply rao_regular; eauto. Qed.
Print Assumptions C58_reference_values.
Theorem C58_calculus : forall fo ph c p T, in_database rao fo ph c p -> 0 < T ->
  exists h s, phase_H p T = Ok h /\ phase_S p T = Ok s /\ phase_G p T = Ok (h - T * s) /\
    is_RInt (fun t => value (phase_Cp p t)) 298.15 T (h - ph_DHref p) /\
    is_RInt (fun t => value (phase_Cp p t) / t) 298.15 T (s - ph_Sref p).
Proof.
  intros fo ph c p T I HT. replace 298.15 with T_ref by (unfold T_ref; lra). apply rao_regular in I. destruct (regular_G _ _ I HT) as (h & s & E1 & E2 & E3). exists h, s.
  destruct (regular_H _ _ I HT) as (h' & E1' & I1), (regular_S _ _ I HT) as (s' & E2' & I2). rewrite E1 in E1'. rewrite E2 in E2'. inversion E1'; inversion E2'; subst. auto.
Qed.
Print Assumptions C58_calculus.
Theorem C58_molar_masses : forall fo c, lookup fo rao = Some c ->
  0 < tc_molar_mass c /\ exists m, thermo_molar_mass fo = Ok m /\ Rabs (tc_molar_mass c - m) <= 1 / 10 ^ 15.
Proof. exact rao_molar_mass. Qed.
Print Assumptions C58_molar_masses.
Theorem C58_formulas : NoDup (map fst rao) /\ length rao = 81%nat /\ forall fo c, lookup fo rao = Some c -> tc_formula c = fo.
Proof.
  split; [|split; [reflexivity|exact lookup_formula]]. assert (E : map fst rao = map qc_formula rao_data) by (unfold rao, load_data; now rewrite map_map).
  rewrite E. apply NoDup_strings. vm_compute. reflexivity.
Qed.
Print Assumptions C58_formulas.
(** The other shipped data set is not anchored at 298.15 K. *)
Theorem C58_nist_refuted : exists c p h, in_database nist "Fe2O3" "S2" c p /\ phase_H p 298.15 = Ok h /\ h <> ph_DHref p.
Proof. exact nist_unanchored. Qed.
Print Assumptions C58_nist_refuted.
Example C58_example : exists c p, in_database rao "Fe2O3" "Salpha" c p.
Proof.
  destruct (lookup_phase rao_data "Fe2O3" "Salpha") as [qp|] eqn:E; [|vm_compute in E; discriminate]. destruct (lookup_phase_ok _ _ _ _ E) as (c & I). eauto.
Qed.

(** * C59: enthalpy increases with temperature *)
Theorem C59_heat_capacity_positive : forall fo ph c p T, in_database rao fo ph c p -> odd_phase fo ph = false -> 298.15 <= T ->
  exists x, phase_Cp p T = Ok x /\ 0 < x.
Proof.
  intros fo ph c p T I O HT. destruct (rao_positive _ _ _ _ I O) as (d & Hd & H). destruct (H T) as (x & E & L); [unfold T_ref; lra|]. exists x. split; auto. lra.
Qed.
Print Assumptions C59_heat_capacity_positive.
Theorem C59_increasing : forall cs fo ph c p T1 T2 mass, split_compound_string cs = Ok (fo, ph) -> in_database rao fo ph c p -> odd_phase fo ph = false ->
  25 <= T1 < T2 -> 0 < mass ->
  (exists x y, thermo_H rao cs T1 mass = Ok x /\ thermo_H rao cs T2 mass = Ok y /\ x < y) /\
  (exists x y, thermo_S rao cs T1 mass = Ok x /\ thermo_S rao cs T2 mass = Ok y /\ x < y).
Proof.
  intros cs fo ph c p T1 T2 mass E I O HT Hm. destruct (rao_positive _ _ _ _ I O) as (d & Hd & H). pose proof (rao_regular _ _ _ _ I) as Rg.
  destruct (rao_molar_mass _ _ (proj1 I)) as [HM _]. assert (HT' : T_ref <= T1 + 27315 / 100 < T2 + 27315 / 100) by (unfold T_ref; lra). split.
  - destruct (H_increasing _ d _ _ Rg Hd H HT') as (h1 & h2 & E1 & E2 & L). apply (thermo_increasing phase_H rao cs fo ph c p T1 T2 mass h1 h2); auto.
    assert (0 < d * (T2 + 27315 / 100 - (T1 + 27315 / 100))) by (apply Rmult_lt_0_compat; lra). lra.
  - destruct (S_increasing _ d _ _ Rg Hd H HT') as (s1 & s2 & E1 & E2 & L). apply (thermo_increasing phase_S rao cs fo ph c p T1 T2 mass s1 s2); auto.
Qed.
Print Assumptions C59_increasing.
Theorem C59_exceptions : forall fo ph, odd_phase fo ph = true <-> (fo = "S"%string /\ ph = "Smono"%string) \/ (fo = "Sn"%string /\ ph = "Sgray"%string).
Proof. intros fo ph. unfold odd_phase. rewrite orb_true_iff, !andb_true_iff, !String.eqb_eq. reflexivity. Qed.
Print Assumptions C59_exceptions.
Theorem C59_monoclinic_sulphur_refuted : exists c p x, in_database rao "S" "Smono" c p /\ phase_Cp p 3000 = Ok x /\ x < 0.
Proof. exact Smono_negative. Qed.
Print Assumptions C59_monoclinic_sulphur_refuted.
Theorem C59_gray_tin_refuted : exists c p, in_database rao "Sn" "Sgray" c p /\ forall T, phase_Cp p T = Ok 0.
Proof. exact Sgray_zero. Qed.
Print Assumptions C59_gray_tin_refuted.
Example C59_example : split_compound_string "Fe2O3[Salpha]" = Ok ("Fe2O3"%string, "Salpha"%string) /\ odd_phase "Fe2O3" "Salpha" = false.
Proof. split; reflexivity. Qed.
