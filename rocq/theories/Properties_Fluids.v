(** C47 (the shipped gases), C66-C68: the fluids shipped with auxi. *)
From Verif Require Import Prelude M_Lists M_Thermochem M_ThermoMat M_Coals M_Stoichiometry M_Physical M_Data_Fluids M_Fluids Spec_Physical P_Content P_Convert P_PolyZ P_Poly P_Physical P_Wilke P_Fluids P_Water P_Convection Properties_Physical.
From Coq Require Import Reals Qreals Lra Lia.
Local Open Scope list_scope.
Local Open Scope R_scope.

(** * C66: derived properties of a material *)
Theorem C66_alpha : forall m st k rho Cp, lookup "alpha" m = None -> property m "k" st = Ok k -> property m "rho" st = Ok rho -> property m "Cp" st = Ok Cp -> rho <> 0 -> Cp <> 0 ->
  exists a, alpha m st = Ok a /\ a * rho * Cp = k.
Proof. intros m st k rho Cp N K R C A B. eexists. split; [apply (alpha_ok m st k rho Cp); auto|]. field. auto. Qed.
Print Assumptions C66_alpha.
Theorem C66_nu : forall m st mu rho, lookup "nu" m = None -> property m "mu" st = Ok mu -> property m "rho" st = Ok rho -> rho <> 0 -> exists v, nu m st = Ok v /\ v * rho = mu.
Proof. intros m st mu rho N K R A. eexists. split; [apply (nu_ok m st mu rho); auto|]. field. auto. Qed.
Print Assumptions C66_nu.
(** A model of its own takes precedence. *)
Theorem C66_own_model : forall m st f, (lookup "alpha" m = Some f -> alpha m st = f st) /\ (lookup "nu" m = Some f -> nu m st = f st).
Proof. intros m st f. unfold alpha, nu. split; intros ->; reflexivity. Qed.
Print Assumptions C66_own_model.
(** Without a model for a property, the property raises. *)
Theorem C66_missing_model : forall m name st, lookup name m = None -> property m name st = Err PyException.
Proof. intros m name st H. unfold property. now rewrite H. Qed.
Print Assumptions C66_missing_model.
Theorem C66_missing_component : forall m st, (lookup "alpha" m = None -> lookup "k" m = None -> alpha m st = Err PyException) /\ (lookup "nu" m = None -> lookup "mu" m = None -> nu m st = Err PyException).
Proof. intros m st. unfold alpha, nu, property. split; intros -> ->; reflexivity. Qed.
Print Assumptions C66_missing_component.

Lemma property_of m name f st : lookup name m = Some f -> property m name st = f st.
Proof. intros H. unfold property. now rewrite H. Qed.
Lemma water_models st : property water "nu" st = poly_file "water-nu" st /\ property water "rho" st = poly_file "water-rho" st /\ property water "mu" st = poly_file "water-mu" st /\ property water "beta" st = poly_file "water-beta" st.
Proof. repeat split; apply property_of; reflexivity. Qed.
(** * C67: the shipped property models over their range *)
(** Every shipped polynomial model but one is positive wherever it gives a number. *)
Theorem C67_files_positive : forall f T v, f <> "water-beta"%string -> poly_file f (at_T T) = Ok v -> 0 < v.
Proof. intros f T v N H. now apply (poly_file_pos f T v). Qed.
Print Assumptions C67_files_positive.
Theorem C67_files_defined : forall f p T, lookup f fluid_data = Some p -> (exists v, poly_file f (at_T T) = Ok v) <-> Q2R (qp_min p) <= T <= Q2R (qp_max p).
Proof.
  intros f p T L. split.
  - intros [v H]. apply poly_file_inv in H. destruct H as (q & L' & R & _). congruence.
  - intros R. unfold poly_file. rewrite L. eexists. now apply read_poly_ok.
Qed.
Print Assumptions C67_files_defined.
(** Density, expansion coefficient, heat capacity, viscosity, conductivity of every shipped gas. *)
Theorem C67_gases_positive : forall g m pr T v, In (g, m) gases -> In pr ["rho"; "beta"; "Cp"; "mu"; "k"]%string -> property m pr (at_T T) = Ok v -> 0 < v.
Proof. intros g m pr T v I P H. apply (gas_positive m pr T v); auto. now apply (gases_shape g). Qed.
Print Assumptions C67_gases_positive.
Lemma shape_none m : gas_shape m -> lookup "alpha" m = None /\ lookup "nu" m = None.
Proof. intros []; split; reflexivity. Qed.
Theorem C67_gases_derived_positive : forall g m T v, In (g, m) gases -> (alpha m (at_T T) = Ok v \/ nu m (at_T T) = Ok v) -> 0 < v.
Proof.
  intros g m T v I H. assert (S := gases_shape g m I). destruct (shape_none m S) as [Na Nn]. assert (G := fun pr v => gas_positive m pr T v S). destruct H as [H|H].
  - unfold alpha in H. rewrite Na in H. destruct (property m "k" (at_T T)) as [k|] eqn:K; [|discriminate]. cbn [bind] in H. destruct (property m "rho" (at_T T)) as [r|] eqn:R; [|discriminate]. cbn [bind] in H.
    assert (0 < k) by (apply (G "k"%string k); cbn; auto 10). assert (0 < r) by (apply (G "rho"%string r); cbn; auto 10). rewrite P_Physical.ndiv_ok in H by lra. cbn [bind] in H.
    destruct (property m "Cp" (at_T T)) as [c|] eqn:C; [|discriminate]. cbn [bind] in H. assert (0 < c) by (apply (G "Cp"%string c); cbn; auto 10). rewrite P_Physical.ndiv_ok in H by lra. injection H as <-. apply Rdiv_lt_0_compat; auto. now apply Rdiv_lt_0_compat.
  - unfold nu in H. rewrite Nn in H. destruct (property m "mu" (at_T T)) as [k|] eqn:K; [|discriminate]. cbn [bind] in H. destruct (property m "rho" (at_T T)) as [r|] eqn:R; [|discriminate]. cbn [bind] in H.
    assert (0 < k) by (apply (G "mu"%string k); cbn; auto 10). assert (0 < r) by (apply (G "rho"%string r); cbn; auto 10). rewrite P_Physical.ndiv_ok in H by lra. injection H as <-. now apply Rdiv_lt_0_compat.
Qed.
Print Assumptions C67_gases_derived_positive.
(** Viscosity and conductivity of every shipped gas increase with temperature. *)
Theorem C67_gases_increasing : forall g m pr T1 T2 v1 v2, In (g, m) gases -> In pr ["mu"; "k"]%string ->
  property m pr (at_T T1) = Ok v1 -> property m pr (at_T T2) = Ok v2 -> T1 < T2 -> v1 < v2.
Proof. intros g m pr T1 T2 v1 v2 I P H1 H2 L. apply (gas_mu_k m pr T1 T2 v1 v2); auto. now apply (gases_shape g). Qed.
Print Assumptions C67_gases_increasing.
(** The expansion coefficient of water is negative at 274 K (as that of real water). *)
Theorem C67_water_beta_refuted : exists v, property water "beta" (at_T 274) = Ok v /\ v < 0.
Proof.
  destruct (water_models (at_T 274)) as (_ & _ & _ & ->). unfold poly_file.
  destruct (lookup "water-beta" fluid_data) as [p|] eqn:L; [|vm_compute in L; discriminate].
  assert (A : match lookup "water-beta" fluid_data with Some p => (Qle_bool (qp_min p) (274 # 1) && Qle_bool (274 # 1) (qp_max p) && pos_on 9 (pneg (rev (qp_coeffs p))) (274 # 1) (275 # 1))%bool | None => false end = true) by (vm_compute; reflexivity).
  rewrite L in A. apply andb_prop in A. destruct A as [A C]. apply andb_prop in A. destruct A as [A B]. apply Qle_bool_iff, Qle_Rle in A. apply Qle_bool_iff, Qle_Rle in B.
  replace (Q2R (274 # 1)) with 274 in A, B by (unfold Q2R; cbn; lra). eexists. split; [apply read_poly_ok; lra|]. assert (D := pos_on_sound _ _ _ _ 274 C). rewrite ev_neg in D.
  replace (Q2R (274 # 1)) with 274 in D by (unfold Q2R; cbn; lra). specialize (D ltac:(lra)). lra.
Qed.
Print Assumptions C67_water_beta_refuted.
Example C67_example : exists v, property air "mu" (at_T 300) = Ok v /\ 0 < v.
Proof.
  change (property air "mu" (at_T 300)) with (poly_file "air-mu-polynomialmodelt-dataset-air-lienhard2018" (at_T 300)). set (f := "air-mu-polynomialmodelt-dataset-air-lienhard2018"%string).
  destruct (lookup f fluid_data) as [p|] eqn:L; [|vm_compute in L; discriminate].
  assert (A : match lookup f fluid_data with Some p => (Qle_bool (qp_min p) (300 # 1) && Qle_bool (300 # 1) (qp_max p))%bool | None => false end = true) by (vm_compute; reflexivity).
  rewrite L in A. apply andb_prop in A. destruct A as [A B]. apply Qle_bool_iff, Qle_Rle in A. apply Qle_bool_iff, Qle_Rle in B. replace (Q2R (300 # 1)) with 300 in A, B by (unfold Q2R; cbn; lra).
  destruct (proj2 (C67_files_defined f p 300 L) (conj A B)) as [v H]. exists v. split; auto. apply (C67_files_positive f 300 v); auto. discriminate.
Qed.

(** * C68: consistency of the shipped models *)
(** The three models of water: nu rho is within 2.1 % of mu. *)
Theorem C68_water_viscosities : forall T v r m, property water "nu" (at_T T) = Ok v -> property water "rho" (at_T T) = Ok r -> property water "mu" (at_T T) = Ok m ->
  0.979 * m < v * r < 1.021 * m.
Proof.
  intros T v r m Hv Hr Hm.
  destruct (water_models (at_T T)) as (E1 & E2 & E3 & _). rewrite E1 in Hv. rewrite E2 in Hr. rewrite E3 in Hm. clear E1 E2 E3.
  destruct (poly_file_inv _ _ _ Hv) as (pv & Lv & _ & Ev). destruct (poly_file_inv _ _ _ Hr) as (pr & Lr & _ & Er). destruct (poly_file_inv _ _ _ Hm) as (pm & Lm & Rm & Em).
  rewrite Ev, Er, Em. exact (water_check_sound _ _ _ _ T water_checked Lv Lr Lm Rm).
Qed.
Print Assumptions C68_water_viscosities.

(** The densities of the other gases are those of the ideal gas law at 101325 Pa;
    air has a molar mass of 28.9645 g/mol. *)
Lemma mm_ok g : is_ok (molar_mass (Some g)) = true -> exists M, mm g = Ok M.
Proof. unfold mm. destruct (molar_mass (Some g)); [cbn; eauto|discriminate]. Qed.
Theorem C68_ideal_gases : forall T, 0 < T ->
  (exists r, property air "rho" (at_T T) = Ok r /\ r * 8.314462618 * T = 101325 * 0.0289645) /\ In ("Air"%string, air) gases /\
  forall g, In g ["Ar"; "CO"; "N2"; "O2"; "H2O"]%string -> exists m M r, In (g, m) gases /\ mm g = Ok M /\ property m "rho" (at_T T) = Ok r /\ r * 8.314462618 * T = 101325 * (M / 1000).
Proof.
  intros T HT. assert (K : forall M, exists r, rho_T M 101325 (at_T T) = Ok r /\ r * 8.314462618 * T = 101325 * (M / 1000)).
  { intros M. eexists. split; [now apply rho_T_ok|]. unfold gas_constant. replace 8.314462618 with (8314462618 / 1000000000) by lra. field. lra. }
  split; [|split].
  - destruct (K (289645 / 10000)) as (r & E & H). exists r. split; [exact E|]. rewrite H. lra.
  - left. reflexivity.
  - intros g I.
    assert (X : exists f, In (g, gas_ideal f (ideal_rho g)) gases /\ exists M, mm g = Ok M).
    { cbn [In] in I. destruct I as [<-|[<-|[<-|[<-|[<-|[]]]]]]; eexists; (split; [unfold gases; cbn [In]; eauto 12|]); now apply mm_ok. }
    destruct X as (f & J & M & EM). destruct (K M) as (r & E & H). exists (gas_ideal f (ideal_rho g)), M, r. split; auto. split; auto. split; auto.
    change (property (gas_ideal f (ideal_rho g)) "rho" (at_T T)) with (ideal_rho g (at_T T)). unfold ideal_rho. rewrite EM. cbn [bind]. exact E.
Qed.
Print Assumptions C68_ideal_gases.
(** The density polynomials of ammonia and carbon dioxide are within 3 % of the ideal gas law at 101325 Pa. *)
Lemma lookup_nodup {A} k (d : list (string * A)) v : NoDup (map fst d) -> In (k, v) d -> lookup k d = Some v.
Proof.
  induction d as [|[c w] d IH]; cbn [map fst lookup]; intros N I; [contradiction|]. inversion N; subst. destruct I as [I|I]; [injection I as -> ->; now rewrite String.eqb_refl|].
  destruct (String.eqb_spec k c) as [->|D]; auto. exfalso. apply H1. apply in_map_iff. exists (c, v). auto.
Qed.
Theorem C68_density_close_to_ideal : forall g m T r M, In (g, m) gases -> (g = "NH3"%string \/ g = "CO2"%string) -> mm g = Ok M -> property m "rho" (at_T T) = Ok r ->
  0.97 * (101325 * (M / 1000)) < r * 8.314462618 * T < 1.03 * (101325 * (M / 1000)).
Proof.
  intros g m T r M I G HM H. assert (N : NoDup (map fst gases)) by (repeat constructor; cbn; intuition discriminate).
  assert (S : forall f q, lookup "rho" m = Some (poly_file f) -> (forall p, lookup f fluid_data = Some p -> ideal_check p q = true) -> M = Q2R q -> 0.97 * (101325 * (M / 1000)) < r * 8.314462618 * T < 1.03 * (101325 * (M / 1000))).
  { intros f q L C ->. rewrite (property_of _ _ _ _ L) in H. destruct (poly_file_inv _ _ _ H) as (p & Lp & R & ->). apply (ideal_check_sound p q T); auto. }
  assert (C := ideal_checked). destruct (lookup "ammonia-rho-polynomialmodelt-dataset-ammonia-lienhard2018" fluid_data) as [pa|] eqn:La; [|discriminate].
  destruct (lookup "carbon-dioxide-rho-polynomialmodelt-dataset-carbon-dioxide-lienhard2018" fluid_data) as [pc|] eqn:Lc; [|discriminate]. apply andb_prop in C. destruct C as [Ca Cc].
  destruct G as [-> | ->].
  - apply (S "ammonia-rho-polynomialmodelt-dataset-ammonia-lienhard2018"%string (1703056 # 100000)).
    + assert (L : lookup "NH3" gases = Some (gas_poly "ammonia")) by reflexivity. rewrite (lookup_nodup _ _ _ N I) in L. injection L as ->. reflexivity.
    + intros p Lp. rewrite La in Lp. injection Lp as <-. exact Ca.
    + rewrite (mm_of "NH3" (1703056 # 100000)) in HM by (vm_compute; reflexivity). now injection HM.
  - apply (S "carbon-dioxide-rho-polynomialmodelt-dataset-carbon-dioxide-lienhard2018"%string (440095 # 10000)).
    + assert (L : lookup "CO2" gases = Some (gas_poly "carbon-dioxide")) by reflexivity. rewrite (lookup_nodup _ _ _ N I) in L. injection L as ->. reflexivity.
    + intros p Lp. rewrite Lc in Lp. injection Lp as <-. exact Cc.
    + rewrite (mm_of "CO2" (440095 # 10000)) in HM by (vm_compute; reflexivity). now injection HM.
Qed.
Print Assumptions C68_density_close_to_ideal.

(** * C47 for the shipped gases *)
Lemma gas_mm c : In c ["Ar"; "NH3"; "CO2"; "CO"; "N2"; "O2"; "H2O"]%string -> exists M, mm c = Ok M /\ 0 < M.
Proof.
  intros I. assert (Q : forall m, molar_mass (Some c) = Ok m -> (0 < m)%Qc -> exists r, mm c = Ok r /\ 0 < r).
  { intros m E P. unfold mm. rewrite E. cbn [bind]. eexists. split; [reflexivity|]. rewrite <- Q2R_0. apply Qlt_Rlt. exact P. }
  cbn [In] in I. repeat destruct I as [<-|I]; [..|contradiction]; (eapply Q; [vm_compute; reflexivity|vm_compute; reflexivity]).
Qed.
Lemma known_gases c : known_gas gases c = true -> c = "Air"%string \/ In c ["Ar"; "NH3"; "CO2"; "CO"; "N2"; "O2"; "H2O"]%string.
Proof. unfold known_gas. intros H. apply member_In in H. change (map fst gases) with ["Air"; "Ar"; "NH3"; "CO2"; "CO"; "N2"; "O2"; "H2O"]%string in H. cbn [In] in *. intuition. Qed.
Lemma gas_property_pos pr T c v : In pr ["rho"; "beta"; "Cp"; "mu"; "k"]%string -> gas_property gases pr T c = Ok v -> 0 < v.
Proof. intros P. unfold gas_property. destruct (lookup c gases) as [m|] eqn:L; [|discriminate]. apply lookup_In in L. now apply C67_gases_positive with c. Qed.
(** A mixture of shipped gases other than "Air", none of them negative and not all
    zero, at a temperature where each has its property: all three models give a
    positive number. *)
Theorem C47_shipped : forall T x, NoDup (map fst x) -> (forall c a, In (c, a) x -> 0 <= a /\ c <> "Air"%string) -> 0 < total snd (kept gases x) ->
  ((forall c a, In (c, a) x -> known_gas gases c = true -> exists m, gas_property gases "mu" T c = Ok m) ->
     (exists mu, herning_zipperer gases T x = Ok mu /\ 0 < mu) /\ (exists mu, wilke gases T x = Ok mu /\ 0 < mu)) /\
  ((forall c a, In (c, a) x -> known_gas gases c = true -> exists m, gas_property gases "Cp" T c = Ok m) -> exists Cp, ideal_Cp gases T x = Ok Cp /\ 0 < Cp).
Proof.
  intros T x N H P. set (M := fun c => match mm c with Ok m => m | Err _ => 0 end).
  assert (KM : forall c a, In (c, a) x -> known_gas gases c = true -> mm c = Ok (M c) /\ 0 < M c).
  { intros c a I K. destruct (known_gases c K) as [E|E]; [now destruct (H c a I)|]. destruct (gas_mm c E) as (m & F & Q). unfold M. rewrite F. auto. }
  assert (POS : forall w v, (forall c a, In (c, a) x -> known_gas gases c = true -> 0 <= a /\ 0 < w c /\ 0 < v c) -> 0 < weighted_mean w v (kept gases x)).
  { intros w v G. apply Rdiv_lt_0_compat; [|apply weights_pos; auto; intros c a I K; destruct (G c a I K); tauto].
    rewrite (total_ext _ (fun cx => snd cx * (v (fst cx) * w (fst cx)))) by (intros; ring). apply (weights_pos gases (fun c => v c * w c)); auto. intros c a I K. destruct (G c a I K) as (A & B & C). split; auto. now apply Rmult_lt_0_compat. }
  split.
  - intros E. set (v := fun c => match gas_property gases "mu" T c with Ok m => m | Err _ => 0 end).
    assert (KV : forall c a, In (c, a) x -> known_gas gases c = true -> gas_property gases "mu" T c = Ok (v c) /\ 0 < v c).
    { intros c a I K. destruct (E c a I K) as [m F]. unfold v. rewrite F. split; auto. apply (gas_property_pos "mu" T c m); auto. cbn. auto 10. }
    assert (KS : forall c a, In (c, a) x -> known_gas gases c = true -> 0 <= a /\ 0 < sqrt (M c) /\ 0 < v c).
    { intros c a I K. split; [now apply (H c a)|]. split; [apply sqrt_lt_R0; now apply (KM c a)|now apply (KV c a)]. }
    split.
    + eexists. split; [apply (C47_viscosity_mean gases T x M v)|now apply POS]; [intros c a I K; split; [now apply (KM c a)|now apply (KV c a)]|lra|].
      apply Rgt_not_eq. apply (weights_pos gases (fun c => sqrt (M c))); auto. intros c a I K. destruct (KS c a I K); tauto.
    + assert (W := C47_wilke gases T x M v N). destruct W as [W W0]; auto; [|eauto]. intros c a I K. destruct (KM c a I K), (KV c a I K), (H c a I). auto.
  - intros E. set (v := fun c => match gas_property gases "Cp" T c with Ok m => m | Err _ => 0 end).
    assert (KV : forall c a, In (c, a) x -> known_gas gases c = true -> gas_property gases "Cp" T c = Ok (v c) /\ 0 < v c).
    { intros c a I K. destruct (E c a I K) as [m F]. unfold v. rewrite F. split; auto. apply (gas_property_pos "Cp" T c m); auto. cbn. auto 10. }
    assert (KS : forall c a, In (c, a) x -> known_gas gases c = true -> 0 <= a /\ 0 < M c /\ 0 < v c).
    { intros c a I K. split; [now apply (H c a)|]. split; [now apply (KM c a)|now apply (KV c a)]. }
    eexists. split; [apply (C47_Cp_mean gases T x M v)|now apply POS]; [intros c a I K; split; [now apply (KM c a)|now apply (KV c a)]|lra|].
    apply Rgt_not_eq. apply (weights_pos gases M); auto. intros c a I K. destruct (KS c a I K); tauto.
Qed.
Print Assumptions C47_shipped.
(** "Air" is a key of the table, but a mixture containing it has no properties: "Air" is no formula. *)
Theorem C47_air_refuted : forall T x a, In ("Air"%string, a) x -> (forall y, herning_zipperer gases T x <> Ok y) /\ (forall y, ideal_Cp gases T x <> Ok y).
Proof.
  assert (A : forall y, mm "Air" <> Ok y). { intros y H. unfold mm in H. assert (E : is_ok (molar_mass (Some "Air"%string)) = false) by (vm_compute; reflexivity). destruct (molar_mass (Some "Air"%string)); discriminate. }
  assert (G : forall T x a name w, In ("Air"%string, a) x -> forall y, mean gases T name w x <> Ok y).
  { intros T x a name w I y H. unfold mean in H. match type of H with bind ?d _ = _ => destruct d as [l|e] eqn:E1 end; [|discriminate]. cbn [bind] in H.
    match type of H with bind ?d _ = _ => destruct d as [g|e] eqn:E2 end; [|discriminate]. cbn [bind] in H. match type of H with bind ?d _ = _ => destruct d as [n|e] eqn:E3 end; [|discriminate]. clear H.
    assert (I1 : exists b, In ("Air"%string, b) l).
    { clear E2 E3. unfold normalise_gases in E1. apply mapM_Forall2 in E1. assert (J : In ("Air"%string, a) (filter (fun cx => known_gas gases (fst cx)) x)) by (apply filter_In; split; auto).
      revert E1 J. generalize (rsum (map snd (filter (fun cx => known_gas gases (fst cx)) x))). intros t E1. induction E1 as [|p q l1 l2 F E1 IH]; intros J; [contradiction|]. destruct J as [->|J]; [|destruct (IH J) as [b B]; exists b; now right].
      cbn [fst snd] in F. destruct (rdiv a t); [|discriminate]. injection F as <-. eexists. now left. }
    destruct I1 as [b I1]. assert (I2 : exists m, In (("Air"%string, b), m) g).
    { apply mapM_Forall2 in E2. clear - E2 I1. induction E2 as [|p q l1 l2 F E2 IH]; [contradiction|]. destruct I1 as [->|J]; [|destruct (IH J) as [m B]; exists m; now right]. cbn [fst] in F. destruct (gas_property gases name T "Air"); [|discriminate]. injection F as <-. eexists. now left. }
    destruct I2 as [m I2]. apply mapM_Forall2 in E3. clear - E3 I2 A. induction E3 as [|p q l1 l2 F E3 IH]; [contradiction|]. destruct I2 as [->|J]; [|auto]. cbn [fst] in F. destruct (mm "Air") as [z|]; [now apply (A z)|discriminate]. }
  intros T x a I. split; [intros y; rewrite hz_mean|intros y; rewrite cp_mean]; now apply (G T x a).
Qed.
Print Assumptions C47_air_refuted.
