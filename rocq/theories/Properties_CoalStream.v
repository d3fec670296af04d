(** C64: streams of coal.  [F c] is the formula of compound [c]; [coal_stream]
    says that the stream is coal with something to burn and that the database
    has what is needed; [coal_enthalpy db F hhv b T] is the enthalpy at [T] of
    the contents [b] with higher heating value [hhv] (Spec_Streams.v). *)
From Verif Require Import Prelude M_Stoichiometry M_Lists M_Thermochem M_Coals M_ThermoMat M_Streams Spec_Stoich Spec_Thermo Spec_ThermoMat Spec_Coals Spec_Streams Spec_Secant
  P_ThermoApi P_Thermo P_Data P_Content P_ThermoMat P_Mixing P_ThermoMore P_Coals P_Streams P_CoalStream P_Secant.
From Verif Require P_Convert P_Magnetic Properties_ThermoMat Properties_Coals.
From Verif Require Import M_Data M_Data_Rao.
From Coq Require Import Reals Lra.
Local Open Scope list_scope.
Local Open Scope R_scope.
Notation body := s_body.
Notation material_of s := (tp_material (s_body s)).

(** ** With a heating value *)
Theorem C64_create : forall db F m n f P T norm h s, create_stream db m (Some n) f P T norm = Ok s -> is_coal m n = Ok true -> get_HHV m n = Ok (Some h) -> coal_stream db F (body s) -> -273.15 < T ->
  tp_T (body s) = T /\ tp_HHV (body s) = Some h /\ tp_H (body s) = coal_enthalpy db F h (body s) T.
Proof.
  intros db F m n f P T norm h s H C Hh Cs HT. unfold create_stream in H. destruct (if norm then _ else _) as [t|e]; cbn [bind] in H; [|discriminate]. destruct (find_assay m n) as [a|e]; cbn [bind] in H; [|discriminate].
  destruct (mapM _ a) as [ms|e]; cbn [bind] in H; [|discriminate]. rewrite C, Hh in H. cbn [bind] in H. pose proof (new_stream_shape _ _ _ _ _ _ _ _ H) as (H0 & B & _). destruct (new_coal_ok db F m ms P T h s H Cs HT) as (_ & E). split; [now rewrite B|]. split; [now rewrite B|]. exact E.
Qed.
Print Assumptions C64_create.
(** At 25 degrees, burning the daf coal to CO2, liquid water and SO2 releases
    exactly the heating value: HHV [MJ/kg] / 3.6 [MJ/kWh] times the flow rate. *)
Theorem C64_heating_value : forall db F h b, coal_enthalpy db F h b 25 - (ash_enthalpy db F b 25 + burnt_enthalpy db F b) = h / 3.6 * mass_of b.
Proof. intros db F h b. unfold coal_enthalpy, heat_of_combustion. rewrite daf_heat_25. ring. Qed.
Print Assumptions C64_heating_value.
Theorem C64_set_T : forall db F h s T, coal_stream db F (body s) -> tp_HHV (body s) = Some h -> s_DH298 s = Some (value (DH298_coal db (body s))) -> -273.15 < T ->
  exists s', put_T db s T = (s', Ok tt) /\ tp_T (body s') = T /\ tp_masses (body s') = tp_masses (body s) /\ tp_HHV (body s') = Some h /\ tp_H (body s') = coal_enthalpy db F h (body s) T.
Proof.
  intros db F h s T Cs Hh Hd HT. unfold put_T. rewrite calc_TH. pose proof Cs as (W & K & Fo & Pk & N & D & _). rewrite (coal_calc db F s h T Cs Hh); auto; [|rewrite (DH298_given db _ F h) by (auto; lra); reflexivity]. eexists. split; [reflexivity|]. cbn. auto.
Qed.
Print Assumptions C64_set_T.
Theorem C64_scale : forall db F h s k, coal_stream db F (body s) -> tp_HHV (body s) = Some h -> -273.15 < tp_T (body s) -> tp_H (body s) = coal_enthalpy db F h (body s) (tp_T (body s)) -> 0 < k ->
  exists r, smul db s k = Ok r /\ tp_coal (body r) = true /\ tp_HHV (body r) = Some h /\ tp_T (body r) = tp_T (body s) /\ (forall w, weigh w (body r) = k * weigh w (body s)) /\ tp_H (body r) = k * tp_H (body s).
Proof.
  intros db F h s k Cs Hh HT HH Hk. pose proof Cs as (W & K & Fo & Pk & N & D & C). unfold smul. destruct (Rlt_dec k 0); [lra|]. rewrite C, Hh.
  destruct (new_coal_total db F (material_of s) (rscale (tp_masses (body s)) k) (tp_P (body s)) (tp_T (body s)) h) as (r & E); [now apply scaled_coal|auto|]. exists r. split; [exact E|].
  pose proof (new_stream_shape _ _ _ _ _ _ _ _ E) as (H0 & B & _). assert (V : forall w, weigh w (body r) = k * weigh w (body s)) by (intros w; rewrite B; unfold weigh; cbn; apply weigh_scale).
  assert (Cr : coal_stream db F (body r)) by (rewrite B; now apply scaled_coal). destruct (new_coal_ok db F _ _ _ _ _ _ E Cr HT) as (_ & EH). split; [now rewrite B|]. split; [now rewrite B|]. split; [now rewrite B|]. split; [exact V|].
  rewrite EH, HH. apply coal_scale; auto; lra.
Qed.
Print Assumptions C64_scale.
(** Adding two streams of the same material, coal or not: the enthalpy flow
    rates add, and so do the heating values, weighted with the flow rates. *)
Theorem C64_add : forall db s o r h h', wf (body s) -> wf (body o) -> material_of o = material_of s -> tp_coal (body s) = true -> tp_HHV (body s) = Some h -> tp_HHV (body o) = Some h' -> sadd db s (SStream o) = Ok r ->
  tp_coal (body r) = true /\ tp_H (body r) = tp_H (body s) + tp_H (body o) /\ exists hr, tp_HHV (body r) = Some hr /\ (mfr s + mfr o <> 0 -> hr * mfr r = h * mfr s + h' * mfr o).
Proof.
  intros db s o r h h' Ws Wo M C Hs Ho H. destruct (sadd_stream_ok db s o r Ws Wo (fun _ => M) H) as (Mr & Wr & _ & EH & V & Q). destruct Q as [Q1 Q2]; [now rewrite M|]. rewrite C in Q1, Q2. cbn [orb] in Q1, Q2.
  split; auto. split; auto. eexists. split; [exact Q2|]. intros Z. rewrite <- (mfr_mass r Wr). unfold mass_of. rewrite V. fold (mass_of (body s)) (mass_of (body o)). rewrite !mfr_mass by auto. unfold heat_value. rewrite Hs, Ho. field. auto.
Qed.
Print Assumptions C64_add.
(** Also if only one of the two streams is coal: a stream without a heating value
    counts as one that gives no heat. *)
Theorem C64_add_mixed : forall db s o r, wf (body s) -> wf (body o) -> material_of o = material_of s -> tp_coal (body s) = true \/ tp_coal (body o) = true -> sadd db s (SStream o) = Ok r ->
  tp_coal (body r) = true /\ tp_H (body r) = tp_H (body s) + tp_H (body o) /\ exists hr, tp_HHV (body r) = Some hr /\
    (mfr s + mfr o <> 0 -> hr * mfr r = (match tp_HHV (body s) with Some h => h * mfr s | None => 0 end) + (match tp_HHV (body o) with Some h => h * mfr o | None => 0 end)).
Proof.
  intros db s o r Ws Wo M C H. destruct (sadd_stream_ok db s o r Ws Wo (fun _ => M) H) as (Mr & Wr & _ & EH & V & Q). destruct Q as [Q1 Q2]; [now rewrite M|]. replace (tp_coal (body s) || tp_coal (body o))%bool with true in Q1, Q2 by (destruct C as [-> | ->]; [reflexivity|now rewrite Bool.orb_true_r]).
  split; auto. split; auto. eexists. split; [exact Q2|]. intros Z. rewrite <- (mfr_mass r Wr). unfold mass_of. rewrite V. fold (mass_of (body s)) (mass_of (body o)). rewrite !mfr_mass by auto. unfold heat_value. field. auto.
Qed.
Print Assumptions C64_add_mixed.
(** Coals at 25 degrees: with that heating value, the sum's enthalpy at 25
    degrees is the sum of the enthalpies, so 25 degrees is its temperature. *)
Theorem C64_add_at_25 : forall db F h h' hr s o r, (forall w, weigh w r = weigh w s + weigh w o) -> hr * mass_of r = h * mass_of s + h' * mass_of o ->
  coal_enthalpy db F hr r 25 = coal_enthalpy db F h s 25 + coal_enthalpy db F h' o 25.
Proof.
  intros db F h h' hr s o r V Eh. unfold coal_enthalpy. rewrite !daf_heat_25. assert (Q : heat_of_combustion hr r = heat_of_combustion h s + heat_of_combustion h' o) by (unfold heat_of_combustion; lra). rewrite Q.
  assert (A : ash_enthalpy db F r 25 = ash_enthalpy db F s 25 + ash_enthalpy db F o 25) by apply V. assert (B : burnt_enthalpy db F r = burnt_enthalpy db F s + burnt_enthalpy db F o) by (unfold burnt_enthalpy, daf_mass; rewrite !V; ring).
  rewrite A, B. ring.
Qed.
Print Assumptions C64_add_at_25.
Theorem C64_sensible_heat : forall F b T1 T2, not_negative b -> 0 < daf F b -> -273.15 < T1 < T2 -> daf_heat F b T1 < daf_heat F b T2.
Proof.
  intros F b T1 T2 N D HT. unfold daf_heat. pose proof (daf_atoms F b N D) as A. destruct (Properties_Coals.C49_increasing (T1 + 273.15) (T2 + 273.15) _ _ _ _ _ (ltac:(lra) : 0 < T1 + 273.15 < T2 + 273.15) A) as (h1 & h2 & E1 & E2 & L).
  rewrite E1, E2. cbn [value]. lra.
Qed.
Print Assumptions C64_sensible_heat.
(** Setting Hfr: the temperature found, when between lo and hi the enthalpy
    rises at rates within a factor of two (as C44_package). *)
Theorem C64_temperature : forall db F h s H r rho lo hi m k, coal_stream db F (body s) -> tp_HHV (body s) = Some h -> s_DH298 s = Some (value (DH298_coal db (body s))) -> -273.15 < lo ->
  slopes (coal_enthalpy db F h (body s)) lo hi m (k * m) -> 0 < m -> 1 <= k <= 2 -> coal_enthalpy db F h (body s) r = H -> lo <= r - rho -> r + rho <= hi ->
  Rabs (tp_T (body s) - r) <= rho -> Rabs (tp_T (body s) + 10 - r) <= rho ->
  exists s', put_Hfr db s H = (s', Ok tt) /\ tp_H (body s') = H /\ tp_masses (body s') = tp_masses (body s) /\
    (Rabs (coal_enthalpy db F h (body s) (tp_T (body s')) - H) <= (k - 1) * (1 / 100000) \/ Rabs (coal_enthalpy db F h (body s) (tp_T (body s')) - H) <= (k - 1) ^ 48 * Rabs (coal_enthalpy db F h (body s) (tp_T (body s) + 10) - H)).
Proof.
  intros db F h s H r rho lo hi m k Cs Hh Hd Lo Sl Hm Hk Hr Rl Rh T0 T1. unfold put_Hfr. rewrite calc_TH.
  destruct (find_T_converges (coal_enthalpy db F h (body s)) (calculate_Hfr db s) lo hi m (k * m) r H) with (rho := rho) (T := tp_T (body s)) as (x & E & Nx & Q); auto; try lra.
  - intros x Hx. pose proof Cs as (W & K & Fo & Pk & N & D & _). apply coal_calc; auto; [rewrite (DH298_given db _ F h) by (auto; lra); reflexivity|lra].
  - nra.
  - nra.
  - rewrite E. eexists. split; [reflexivity|]. cbn. split; auto. split; auto. replace (k - 1) with (k * m / m - 1) by (field; lra). exact Q.
Qed.
Print Assumptions C64_temperature.

(** ** Without a heating value: doubling the stream does not double its enthalpy *)
Theorem C64_no_HHV_refuted : forall db F s k r, coal_stream db F (body s) -> tp_HHV (body s) = None -> -273.15 < tp_T (body s) -> 0 < k ->
  smul db s 1 = Ok s -> smul db s k = Ok r -> tp_H (body r) = k * tp_H (body s) + (1 - k) * (burnt_enthalpy db F (body s) / daf F (body s)).
Proof.
  intros db F s k r Cs Hh HT Hk H1 Hr. pose proof Cs as (W & K & Fo & Pk & N & D & C). unfold smul in *. destruct (Rlt_dec 1 0); [lra|]. destruct (Rlt_dec k 0); [lra|]. rewrite C, Hh in *.
  rewrite (new_coal_none db F _ _ _ _ s H1 Cs HT). pose proof (new_stream_shape _ _ _ _ _ _ _ _ Hr) as (H0 & B & _). assert (V : forall w, weigh w (body r) = k * weigh w (body s)) by (intros w; rewrite B; unfold weigh; cbn; apply weigh_scale).
  assert (Cr : coal_stream db F (body r)) by (rewrite B; now apply scaled_coal). rewrite (new_coal_none db F _ _ _ _ r Hr Cr HT). rewrite (daf_heat_scale F (body s) (body r) k), (daf_scale F (body s) (body r) k), (burnt_scale db F (body s) (body r) k) by (auto; lra).
  unfold ash_enthalpy, elements_enthalpy. rewrite !V. field. lra.
Qed.
Print Assumptions C64_no_HHV_refuted.
(** ** Extracting a flow rate: what is taken is no longer coal *)
Theorem C64_extract_refuted : forall db F h s x s' r, coal_stream db F (body s) -> tp_HHV (body s) = Some h -> s_DH298 s = Some (value (DH298_coal db (body s))) -> -273.15 < tp_T (body s) -> tp_H (body s) = coal_enthalpy db F h (body s) (tp_T (body s)) ->
  0 < x < mfr s -> sextract db s (SMfr x) = (s', Ok r) ->
  tp_coal (body r) = false /\ tp_HHV (body r) = None /\ tp_H (body r) + tp_H (body s') - tp_H (body s) = x / mfr s * (enthalpy db (body s) (tp_T (body s)) - coal_enthalpy db F h (body s) (tp_T (body s))).
Proof.
  intros db F h s x s' r Cs Hh Hd HT HH Hx H. pose proof Cs as (W & K & Fo & Pk & N & D & C). destruct (sextract_mfr_ok db s x s' r W H) as (_ & _ & Mr & (M' & P' & T' & _) & Wr & Ws & Tr & Pr & Cr & Vr & V).
  cbn [sextract] in H. unfold sextract_mfr in H. destruct (Rlt_dec (mfr s) x); [discriminate|]. rewrite ndiv_ok in H by lra. set (f := x / mfr s) in *. assert (Hf : 0 < f < 1). { unfold f. split; [apply Rdiv_lt_0_compat; lra|]. apply Rmult_lt_reg_r with (mfr s); [lra|]. unfold Rdiv. rewrite Rmult_assoc, Rinv_l by lra. lra. }
  destruct (new_stream _ _ _ _ _ _ _) as [r1|e] eqn:E in H; [|discriminate]. unfold skeep_T, put_T in H. rewrite calc_TH in H. cbn [body with_body tp_T set_masses] in H.
  set (s1 := with_body s (set_masses (body s) (rscale (tp_masses (body s)) (1 - f)))) in H.
  assert (V1 : forall w, weigh w (body s1) = (1 - f) * weigh w (body s)) by (intros w; unfold weigh; cbn; apply weigh_scale).
  assert (C1 : coal_stream db F (body s1)). { pose proof (scaled_coal db F (body s) (1 - f) (tp_T (body s)) (tp_P (body s)) (tp_H (body s)) (tp_HHV (body s)) Cs ltac:(lra)) as Q. unfold s1, set_masses. cbn. rewrite C. exact Q. }
  assert (D1 : DH298_coal db (body s1) = DH298_coal db (body s)).
  { pose proof C1 as (W1 & K1 & Fo1 & _ & _ & Dd & _). rewrite (DH298_given db (body s1) F h) by (auto; lra). rewrite (DH298_given db (body s) F h) by (auto; lra). rewrite (daf_scale F (body s) (body s1) (1 - f)), (burnt_scale db F (body s) (body s1) (1 - f)), (heat_scale h (body s) (body s1) (1 - f)) by auto. f_equal. field. lra. }
  assert (G : DH298_coal db (body s) = Ok (value (DH298_coal db (body s)))) by (rewrite (DH298_given db _ F h) by (auto; lra); reflexivity).
  rewrite (coal_calc db F s1 h (tp_T (body s)) C1) in H; [|exact Hh|rewrite D1; exact G|rewrite D1; exact Hd|exact HT]. cbn in H. injection H as <- <-.
  pose proof (new_stream_shape _ _ _ _ _ _ _ _ E) as (H0 & B & Hp & _). split; auto. split; [now rewrite B|]. cbn.
  assert (L : 0 < rsum (rscale (tp_masses (body s)) f)) by (rewrite rsum_scale; apply Rmult_lt_0_compat; [lra|unfold mfr in Hx; lra]). specialize (Hp L). unfold calculate_Hfr in Hp. rewrite Cr in Hp.
  assert (Mm : tp_masses (body r1) = rscale (tp_masses (body s)) f) by now rewrite B. rewrite Mr, Mm in Hp. destruct W as [Nd Lm].
  rewrite sum_H_ok in Hp; [|auto|auto|unfold rscale; now rewrite map_length]. injection Hp as Hp. assert (HR : tp_H (body r1) = H0) by now rewrite B. rewrite HR, <- Hp. rewrite weigh_scale.
  fold (weigh (fun c => specific_H db c (tp_T (body s))) (body s)). fold (enthalpy db (body s) (tp_T (body s))). rewrite (coal_scale db F h (body s) (body s1) (1 - f)) by (auto; lra). rewrite HH. ring.
Qed.
Print Assumptions C64_extract_refuted.
(** ** Adding carbon to a coal: the heating value is updated as if burning
    carbon made 202.2407/44.0095 times the CO2 it does (the formula COs is
    carbon with osmium). *)
Theorem C64_add_carbon_refuted : forall db s h x r, wf (body s) -> known db (material_of s) -> products_known db -> tp_coal (body s) = true -> tp_HHV (body s) = Some h -> mfr s + x <> 0 -> sadd db s (SPair "C[Sgr]" x) = Ok r ->
  tp_HHV (body r) = Some ((h * mfr s + (specific_H db "C[Sgr]" 25 * x - specific_H db "CO2[G]" 25 * (x * (202.2407 / 12.0107))) * 3.6) / (mfr s + x)).
Proof.
  intros db s h x r W K Pk C Hh Z H. cbn [sadd] in H. destruct (sadd_pair_ok db s _ x r W H) as (I & _). unfold sadd_pair in H. destruct (get_compound_index _ _) as [i|e] eqn:Ei; cbn [bind] in H; [|discriminate]. apply index_ok in Ei. destruct Ei as [Ei _].
  rewrite (known_H db (material_of s)) in H by auto. cbn [bind] in H. unfold get in H. destruct (nth_error (tp_masses (body s)) i) as [y|] eqn:Y; cbn [bind] in H; [|discriminate].
  destruct (set_nth (tp_masses (body s)) i (y + x)) as [ms|] eqn:Em; cbn [bind] in H; [|discriminate]. assert (Mm : rsum ms = mfr s + x).
  { destruct W as [Nd L]. destruct (set_nth_weigh (fun _ => 1) _ _ i _ y (y + x) ms (eq_sym L) Ei Y Em) as [Q Ln]. rewrite !weigh_rsum in Q by congruence. unfold mfr. lra. }
  unfold update_HHV in H. cbn [body with_body set_masses tp_coal tp_HHV] in H. rewrite C, Hh in H. rewrite (known_H db (material_of s)) in H by auto. cbn [bind] in H.
  assert (E1 : rconvert x "C[Sgr]" "COs" "C" = Ok (x * (202.2407 / 12.0107))) by (eapply rconvert_lit; [vm_compute; reflexivity|vm_compute; reflexivity|vm_compute; reflexivity|]; unfold Q2R; cbn; lra).
  rewrite E1 in H. cbn [bind] in H. rewrite product_H in H by (cbn; tauto). cbn [bind] in H.
  assert (E2 : rconvert x "C[Sgr]" "H2O" "H" = Ok (x * 0)) by (eapply rconvert_lit; [vm_compute; reflexivity|vm_compute; reflexivity|vm_compute; reflexivity|]; unfold Q2R; cbn; lra).
  assert (E3 : rconvert x "C[Sgr]" "SO2" "S" = Ok (x * 0)) by (eapply rconvert_lit; [vm_compute; reflexivity|vm_compute; reflexivity|vm_compute; reflexivity|]; unfold Q2R; cbn; lra).
  rewrite E2, E3 in H. cbn [bind] in H. rewrite !product_H in H by (cbn; tauto). cbn [bind] in H. 
  assert (Q : forall b, mfr (with_body s (set_masses b ms)) = mfr s + x) by (intros b; exact Mm). rewrite !Q in H. rewrite ndiv_ok in H by auto.
  clear E1 E2 E3 Q Em Mm Y.
  match type of H with bind (done (put_HHV _ _ (Some ?v))) _ = _ => set (hv := v) in H end. match type of H with bind ?d _ = _ => destruct d as [r1|e] eqn:Ed; [|discriminate] end. apply put_HHV_shape in Ed. destruct Ed as (B & _). cbn [bind] in H. injection H as <-. cbn [body with_body set_TH tp_HHV]. rewrite B. cbn [set_HHV tp_HHV]. unfold hv. clear hv B. apply f_equal. replace 3.6 with (36 / 10) by lra. field. split; [lra|exact Z].
Qed.
Print Assumptions C64_add_carbon_refuted.

(** ** A coal of 4 kg/h carbon, 1 kg/h hydrogen and 1 kg/h silica, with the Rao database *)
Definition coal_material (hhv : list (string * R)) : material :=
  mktm 7 ["C[Sgr]"%string; "H2[G]"%string; "SiO2[S]"%string] [("A"%string, [4; 1; 1])] ["IsCoal"%string; "HHV[MJ/kg]"%string] [("A"%string, ("IsCoal"%string, 1) :: hhv)] ["C"%string; "H"%string; "O"%string; "Si"%string].
Definition coal_formula (c : string) : formula := match P_Convert.check (formula_part c) with Some f => f | None => mkformula [] None None end.
Definition coal (hhv : option R) (H T : R) : package :=
  mktp (coal_material (match hhv with Some h => [("HHV[MJ/kg]"%string, h)] | None => [] end)) [4; 1; 1] 1 T H true hhv.
Lemma rao_compound c fo ph qp : split_compound_string c = Ok (fo, ph) -> lookup_phase rao_data fo ph = Some qp ->
  regular_compound rao c /\ exists M, 0 < M /\ (exists k, lookup fo rao = Some k /\ tc_molar_mass k = M) /\ specific_H rao c 25 = Q2R (qp_DHref qp) / 3600000 / M.
Proof.
  intros E L. destruct (lookup_phase_ok _ _ _ _ L) as (k & L1 & L2). pose proof (rao_regular fo ph k _ (conj L1 L2)) as Rg. destruct (rao_molar_mass fo k L1) as (M & _). split.
  - exists fo, ph, k, (read_phase qp). auto 10.
  - exists (tc_molar_mass k). split; auto. split; [eauto|]. unfold specific_H, thermo_H. destruct (P_Magnetic.regular_anchor _ Rg) as [A _]. replace T_ref with (25 + 27315 / 100) in A by (unfold T_ref; lra).
    erewrite (thermo_value phase_H rao c fo ph k _ 25); eauto; [cbn [value]; unfold Rdiv; cbn; ring|lra].
Qed.
Lemma pure_q F c : pure_element F c = find (fun e => Qc_eq_bool (element_mass e (F c) 1) 1) ["C"%string; "H"%string; "O"%string; "N"%string; "S"%string].
Proof. unfold pure_element. generalize ["C"%string; "H"%string; "O"%string; "N"%string; "S"%string]. intros l. induction l as [|e l IH]; cbn [find]; auto. rewrite Q2R_one, IH. reflexivity. Qed.
Lemma pure_coal : pure_element coal_formula "C[Sgr]" = Some "C"%string /\ pure_element coal_formula "H2[G]" = Some "H"%string /\ pure_element coal_formula "SiO2[S]" = None.
Proof. rewrite !pure_q. vm_compute. auto. Qed.
Lemma coal_daf hhv H T : daf_mass coal_formula (coal hhv H T) "C" = 4 /\ daf_mass coal_formula (coal hhv H T) "H" = 1 /\ daf coal_formula (coal hhv H T) = 5.
Proof. destruct pure_coal as (A & B & C). unfold daf, daf_mass, weigh, weigh_list, coal. cbn [tp_material coal_material tm_compounds tp_masses combine fold_right fst snd]. rewrite A, B, C. cbn. split; [|split]; ring. Qed.
Lemma coal_known l c : In c (tm_compounds (coal_material l)) -> regular_compound rao c.
Proof. cbn. intros [<-|[<-|[<-|[]]]]; (eapply rao_compound; [vm_compute; reflexivity|vm_compute; reflexivity]). Qed.
Lemma rao_products : products_known rao.
Proof.
  assert (G : forall c, regular_compound rao c -> exists v, thermo_H rao c 25 1 = Ok v).
  { intros c Rg. assert (K : known rao (mktm 0 [c] [] [] [] [])) by (apply regular_known; intros d [<-|[]]; auto). apply (K c 25). cbn. auto. }
  intros c H. apply G. cbn in H. destruct H as [<-|[<-|[<-|[<-|[<-|[]]]]]]; (eapply rao_compound; [vm_compute; reflexivity|vm_compute; reflexivity]).
Qed.
Example C64_example : forall hhv H T, coal_stream rao coal_formula (coal hhv H T) /\ is_coal (tp_material (coal hhv H T)) "A" = Ok true /\ get_HHV (tp_material (coal hhv H T)) "A" = Ok hhv.
Proof.
  intros hhv H T. split; [|split].
  - split; [split; [repeat constructor; cbn; intuition discriminate|reflexivity]|]. split; [apply regular_known; intros c; apply coal_known|].
    split.
    { intros c Hc. assert (E : P_Convert.check (formula_part c) = Some (coal_formula c) /\ has_atoms (coal_formula c)).
      { cbn in Hc. destruct Hc as [<-|[<-|[<-|[]]]]; (split; [vm_compute; reflexivity|]); [exists "C"%string|exists "H"%string|exists "O"%string]; vm_compute; reflexivity. }
      destruct E as [E A]. split; auto. now apply P_Convert.check_proper. }
    split; [apply rao_products|]. split; [intros x Hx; cbn in Hx; destruct Hx as [<-|[<-|[<-|[]]]]; lra|]. split; [|reflexivity]. destruct (coal_daf hhv H T) as (_ & _ & ->). lra.
  - unfold is_coal. cbn. destruct (Req_EM_T 1 1); [auto|congruence].
  - unfold get_HHV. cbn. destruct hhv; reflexivity.
Qed.
(** Its products of combustion have negative enthalpy, so without a heating
    value doubling the stream does not double the enthalpy flow rate. *)
Example C64_no_HHV_example : forall H T, burnt_enthalpy rao coal_formula (coal None H T) < 0.
Proof.
  intros H T. unfold burnt_enthalpy. destruct (coal_daf None H T) as (-> & -> & _).
  assert (Z : daf_mass coal_formula (coal None H T) "O" = 0 /\ daf_mass coal_formula (coal None H T) "N" = 0 /\ daf_mass coal_formula (coal None H T) "S" = 0).
  { destruct pure_coal as (A & B & C). unfold daf_mass, weigh, weigh_list, coal. cbn [tp_material coal_material tm_compounds tp_masses combine fold_right fst snd]. rewrite A, B, C. cbn. split; [|split]; ring. }
  destruct Z as (-> & -> & ->).
  assert (C : specific_H rao "CO2[G]" 25 < 0). { destruct (rao_compound "CO2[G]" "CO2" "G" _ (ltac:(vm_compute; reflexivity)) (ltac:(vm_compute; reflexivity))) as (_ & M & Mp & _ & ->). assert (0 < / M) by now apply Rinv_0_lt_compat. unfold Q2R. cbn. unfold Rdiv. nra. }
  assert (W : specific_H rao "H2O[L]" 25 < 0). { destruct (rao_compound "H2O[L]" "H2O" "L" _ (ltac:(vm_compute; reflexivity)) (ltac:(vm_compute; reflexivity))) as (_ & M & Mp & _ & ->). assert (0 < / M) by now apply Rinv_0_lt_compat. unfold Q2R. cbn. unfold Rdiv. nra. }
  lra.
Qed.
