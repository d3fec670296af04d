(** Theorems C38-C41, C43 and C44 for packages of the thermo module.
    [add db p (APackage o)] is [p + o], [add db p (APair c x)] is [p + (c, x)],
    [extract db p x] gives the package [p] afterwards and the result of
    [p.extract(x)]; [weigh w p] is the sum over the compounds of [w] times mass,
    so a statement for all [w] covers the total mass, every compound, every
    element, the amount and the enthalpy at any temperature. *)
From Verif Require Import Prelude M_Elements M_Stoichiometry M_Lists M_Thermochem M_ThermoMat Spec_Stoich Spec_Thermo Spec_ThermoMat Spec_Secant
  P_ThermoApi P_Thermo P_Data P_ThermoMat P_Secant P_Mixing P_ThermoMore.
From Verif Require P_Convert P_ThermoElem P_Chem.
From Verif Require Import M_Data M_Data_Rao.
From Coq Require Import Reals Lra.
Local Open Scope list_scope.
Local Open Scope R_scope.

(** * Example: liquid silver and aluminium from the rao database *)
Definition metals : material :=
  mktm 1 ["Ag[L]"%string; "Al[L]"%string] [("A"%string, [1; 3])] [] [("A"%string, [])] ["Ag"%string; "Al"%string].
Definition melt : material := mktm 2 ["Al[L]"%string] [] [] [] ["Al"%string].
(** Phases with one heat capacity record that is a constant. *)
Lemma constant_phase l fo ph d s c v : lookup_phase l fo ph = Some (mkqp d s (cons (3000#1, mkqr (29815#100) (3000#1) (cons (v, 0%Q) nil)) nil)) -> lookup fo (load_data l) = Some c ->
  exists p, lookup ph (tc_phases c) = Some p /\ regular p /\ forall T, phase_Cp p T = Ok (Q2R v).
Proof.
  intros E L. destruct (lookup_phase_ok _ _ _ _ E) as (c' & L1 & L2). assert (c' = c) by congruence. subst c'. eexists. split; [exact L2|]. split.
  - apply qregular_ok. reflexivity.
  - intros T. unfold phase_Cp, last_record, sorted_records. cbn [ph_records read_phase map qp_records fold_right insert_record find_record rev app]. unfold Cp_mag. cbn [ph_mag read_phase].
    assert (P : forall T, Rpower T (Q2R 0) = 1) by (intros; rewrite Q2R_0'; unfold Rpower; rewrite Rmult_0_l; apply exp_0).
    destruct (Rlt_dec _ _); cbn [bind fst snd]; unfold cp_Cp; cbn [read_record cr_terms qr_terms map fold_left fst snd]; rewrite P; f_equal; ring.
Qed.
Lemma metal c : c = "Ag[L]"%string \/ c = "Al[L]"%string -> regular_compound rao c /\ exists v, 1 / 1000000 < v /\ forall T, thermo_Cp rao c T 1 = Ok v.
Proof.
  assert (G : forall cs fo qp v, split_compound_string cs = Ok (fo, "L"%string) -> lookup_phase rao_data fo "L" = Some qp -> (exists d s, qp = mkqp d s (cons (3000#1, mkqr (29815#100) (3000#1) (cons (v, 0%Q) nil)) nil)) ->
     forall q, lookup fo (load_data rao_data) = Some (read_compound q) -> 0 < Q2R (qc_molar_mass q) < 1 -> 10 < Q2R v -> regular_compound rao cs /\ exists x, 1 / 1000000 < x /\ forall T, thermo_Cp rao cs T 1 = Ok x).
  { intros cs fo qp v E L (d & s & ->) q Lq Mq Hv. destruct (constant_phase rao_data fo "L" d s _ v L Lq) as (p & Lp & Rp & Cp). split.
    - exists fo, "L"%string, (read_compound q), p. repeat split; auto; apply Mq || apply Rp.
    - exists (Q2R v / 3600000 / Q2R (qc_molar_mass q) * 1). split.
      + set (M := Q2R (qc_molar_mass q)) in *. assert (Q2R v / 3600000 <= Q2R v / 3600000 / M). { unfold Rdiv at 2. rewrite <- (Rmult_1_r (Q2R v / 3600000)) at 1. apply Rmult_le_compat_l; [lra|]. rewrite <- Rinv_1. apply Rinv_le_contravar; lra. } lra.
      + intros T. apply (thermo_value phase_Cp rao cs fo "L" (read_compound q) p T (Q2R v) 1); auto. cbn. lra. }
  intros [->| ->].
  - eapply (G _ "Ag"%string); [reflexivity|vm_compute; reflexivity|do 2 eexists; reflexivity|cbn; reflexivity| |]; unfold Q2R; cbn; lra.
  - eapply (G _ "Al"%string); [reflexivity|vm_compute; reflexivity|do 2 eexists; reflexivity|cbn; reflexivity| |]; unfold Q2R; cbn; lra.
Qed.
Lemma metals_regular : regular_material rao metals.
Proof. intros c H. cbn in H. apply metal. destruct H as [<-|[<-|[]]]; auto. Qed.
Lemma metals_known : known rao metals. Proof. apply regular_known, metals_regular. Qed.
Lemma metals_nodup : NoDup (tm_compounds metals).
Proof. repeat constructor; cbn; intuition discriminate. Qed.
(** A package of [x] kg Ag and [y] kg Al at [T] degrees. *)
Definition charge (x y T : R) : package := mktp metals [x; y] 1 T (enthalpy rao (mktp metals [x; y] 1 T 0 false None) T) false None.
Lemma charge_wf x y T : wf (charge x y T). Proof. split; [apply metals_nodup|reflexivity]. Qed.
Lemma charge_consistent x y T : consistent rao (charge x y T). Proof. reflexivity. Qed.
Lemma charge_mass x y T : mass_of (charge x y T) = x + y. Proof. unfold mass_of, weigh, weigh_list. cbn. ring. Qed.
Lemma charge_nonneg x y T : 0 <= x -> 0 <= y -> not_negative (charge x y T). Proof. intros A B z [<-|[<-|[]]]; auto. Qed.

(** * C38: create_package *)
Theorem C38_thermo_normalised : forall db m n a d mass P T, find_assay m n = Ok a -> length a = length (tm_compounds m) -> NoDup (tm_compounds m) -> known db m ->
  is_coal m n = Ok false -> custom_of m n = Ok d -> rsum a <> 0 ->
  exists p, create_package db m (Some n) mass P T true = Ok p /\ tp_material p = m /\ wf p /\ mass_of p = mass /\ tp_P p = P /\ tp_T p = T /\
    forall w, weigh w p = mass / rsum a * weigh_list w (tm_compounds m) a.
Proof.
  intros db m n a d mass P T F L N K C D Z. destruct (create_ok db m n a d mass P T true F L N K C D (fun _ => Z)) as (p & E & M & X & W & Pp & Tp & _ & _ & V). exists p. repeat (split; auto).
  unfold mass_of. rewrite V, weigh_rsum by auto. field. auto.
Qed.
Print Assumptions C38_thermo_normalised.
Theorem C38_thermo_not_normalised : forall db m n a d mass P T, find_assay m n = Ok a -> length a = length (tm_compounds m) -> NoDup (tm_compounds m) -> known db m ->
  is_coal m n = Ok false -> custom_of m n = Ok d ->
  exists p, create_package db m (Some n) mass P T false = Ok p /\ tp_material p = m /\ wf p /\ tp_P p = P /\ tp_T p = T /\
    tp_masses p = map (fun x => x * mass) a /\ forall w, weigh w p = mass * weigh_list w (tm_compounds m) a.
Proof.
  intros db m n a d mass P T F L N K C D. destruct (create_ok db m n a d mass P T false F L N K C D) as (p & E & M & X & W & Pp & Tp & _ & _ & V); [discriminate|]. exists p. repeat (split; auto).
Qed.
Print Assumptions C38_thermo_not_normalised.
Theorem C38_thermo_zero_total : forall db m n a mass P T, find_assay m n = Ok a -> a <> [] -> rsum a = 0 -> create_package db m (Some n) mass P T true = Err NonFinite.
Proof.
  intros db m n a mass P T F N Z. unfold create_package, get_assay_total. rewrite F. cbn [bind]. destruct a as [|x a]; [congruence|]. cbn [mapM].
  assert (Q : ndiv (mass * x) (rsum (x :: a)) = Err NonFinite) by (unfold ndiv; rewrite Z; destruct (Req_EM_T 0 0); [auto|congruence]). rewrite Q. reflexivity.
Qed.
Print Assumptions C38_thermo_zero_total.
Theorem C38_thermo_unknown_assay : forall db m n mass P T norm, lookup n (tm_assays m) = None -> create_package db m (Some n) mass P T norm = Err KeyError.
Proof. intros db m n mass P T norm H. unfold create_package, get_assay_total, find_assay. rewrite H. destruct norm; reflexivity. Qed.
Print Assumptions C38_thermo_unknown_assay.
Theorem C38_thermo_empty : forall db m mass P T norm, exists p, create_package db m None mass P T norm = Ok p /\ tp_material p = m /\ tp_H p = 0 /\ tp_P p = P /\ tp_T p = T /\
  length (tp_masses p) = length (tm_compounds m) /\ forall w, weigh w p = 0.
Proof. intros db m mass P T norm. destruct (empty_ok db m P T) as (p & E & M & _ & Pp & Tp & _ & H & L & V). exists p. repeat (split; auto). Qed.
Print Assumptions C38_thermo_empty.
(** An assay added with add_assay has no entry in the dictionary of custom
    properties, so no package can be made from it. *)
Theorem C38_thermo_added_assay_refuted : forall db m n a m' mass P T norm, add_assay m n a = Ok m' -> lookup n (tm_custom m) = None ->
  lookup n (tm_assays m') = Some a /\ is_ok (create_package db m' (Some n) mass P T norm) = false.
Proof.
  intros db m n a m' mass P T norm H C. unfold add_assay in H. destruct (negb _); [discriminate|]. destruct (lookup n (tm_assays m)) eqn:L; [discriminate|]. injection H as <-. cbn.
  assert (La : lookup n (tm_assays m ++ [(n, a)]) = Some a). { revert L. generalize (tm_assays m). intros l. induction l as [|[k v] l IH]; cbn; [now rewrite String.eqb_refl|]. destruct (String.eqb n k); [discriminate|auto]. }
  split; auto. unfold create_package, get_assay_total, find_assay, is_coal, get_HHV, custom_of. cbn. rewrite La, C. cbn [bind].
  destruct norm; cbn [bind]; (destruct (mapM _ a); cbn [bind]; [|reflexivity]); destruct (member _ _ _); reflexivity.
Qed.
Print Assumptions C38_thermo_added_assay_refuted.
Example C38_thermo_added_assay_example : exists m, add_assay metals "B" [1; 1] = Ok m /\ lookup "B" (tm_custom metals) = None.
Proof. eexists. split; reflexivity. Qed.
(** Assays of coal: no package with mass can be made. *)
Theorem C38_thermo_coal_refuted : forall db m n a d mass P T, find_assay m n = Ok a -> is_coal m n = Ok true -> custom_of m n = Ok d -> 0 < mass -> 0 < rsum a ->
  create_package db m (Some n) mass P T true = Err AttributeError.
Proof.
  intros db m n a d mass P T F C D M R. unfold create_package, get_assay_total. rewrite F. cbn [bind]. rewrite mapM_ndiv by lra. cbn [bind]. rewrite C. cbn [bind]. unfold get_HHV. rewrite D. cbn [bind].
  unfold new_package. rewrite rsum_scale. destruct (Rlt_dec 0 (mass / rsum a * rsum a)) as [_|Q]; [reflexivity|]. exfalso. apply Q. replace (mass / rsum a * rsum a) with mass by (field; lra). auto.
Qed.
Print Assumptions C38_thermo_coal_refuted.
Definition coal : material := mktm 3 ["C[S1]"%string] [("A"%string, [1])] ["IsCoal"%string] [("A"%string, [("IsCoal"%string, 1)])] ["C"%string].
Example C38_thermo_coal_example : find_assay coal "A" = Ok [1] /\ is_coal coal "A" = Ok true /\ 0 < rsum [1].
Proof. split; [reflexivity|]. split; [|cbn; lra]. unfold is_coal. cbn. destruct (Req_EM_T 1 1); congruence. Qed.
Example C38_thermo_example : find_assay metals "A" = Ok [1; 3] /\ is_coal metals "A" = Ok false /\ custom_of metals "A" = Ok [] /\ rsum [1; 3] = 4 /\ known rao metals /\ NoDup (tm_compounds metals).
Proof. repeat (split; [reflexivity|]). split; [cbn; lra|]. split; [apply metals_known|apply metals_nodup]. Qed.

(** * C39: addition *)
Theorem C39_thermo_package : forall db p o r, known db (tp_material p) -> wf p -> wf o -> (tm_id (tp_material p) = tm_id (tp_material o) -> tp_material o = tp_material p) ->
  add db p (APackage o) = Ok r ->
  tp_material r = tp_material p /\ wf r /\ tp_P r = tp_P p /\ mass_of r = mass_of p + mass_of o /\ (forall c, has r c = has p c + has o c) /\ forall w, weigh w r = weigh w p + weigh w o.
Proof. intros db p o r K Wp Wo S H. destruct (add_package_ok db p o r K Wp Wo S H) as (M & W & P & _ & V). repeat (split; auto). - apply V. - intros c. apply V. Qed.
Print Assumptions C39_thermo_package.
Theorem C39_thermo_missing_compound : forall db p o c, tm_id (tp_material p) <> tm_id (tp_material o) -> known db (tp_material p) -> wf p -> wf o ->
  In c (tm_compounds (tp_material o)) -> ~ In c (tm_compounds (tp_material p)) -> is_ok (add db p (APackage o)) = false.
Proof.
  intros db p o c D K Wp Wo I N. unfold add. destruct (Z.eqb_spec (tm_id (tp_material p)) (tm_id (tp_material o))); [contradiction|].
  destruct (foldM _ _ p) as [r1|e] eqn:F; [|reflexivity]. destruct (add_each_ok db p o _ K Wo p r1 Wp eq_refl F) as (_ & _ & _ & _ & _ & Inc & _). exfalso. now apply N, Inc.
Qed.
Print Assumptions C39_thermo_missing_compound.
Theorem C39_thermo_pair : forall db p c x, known db (tp_material p) -> wf p -> In c (tm_compounds (tp_material p)) ->
  exists r, add db p (APair c x) = Ok r /\ tp_material r = tp_material p /\ wf r /\ tp_P r = tp_P p /\ tp_T r = tp_T p /\ forall w, weigh w r = weigh w p + w c * x.
Proof. intros db p c x K W I. destruct (add_pair_ok db p c x K W I) as (r & E & M & Wr & P & T & _ & _ & _ & V & _). exists r. repeat (split; auto). Qed.
Print Assumptions C39_thermo_pair.
Theorem C39_thermo_unknown_compound : forall db p c x, ~ In c (tm_compounds (tp_material p)) -> is_ok (add db p (APair c x)) = false /\ forall T, is_ok (add db p (ATriple c x T)) = false.
Proof.
  intros db p c x I. unfold add, add_pair, get_compound_index. destruct (index_of string_dec c (tm_compounds (tp_material p))) as [i|e] eqn:E; cbn [bind]; [|auto].
  apply P_Content.index_ok in E. destruct E as [E _]. exfalso. apply I. eapply nth_error_In; eauto.
Qed.
Print Assumptions C39_thermo_unknown_compound.
Theorem C39_thermo_triple : forall db p c x T r, known db (tp_material p) -> wf p -> add db p (ATriple c x T) = Ok r ->
  tp_material r = tp_material p /\ wf r /\ tp_P r = tp_P p /\ forall w, weigh w r = weigh w p + w c * x.
Proof. intros db p c x T r K W H. destruct (add_triple_ok db p c x T r K W H) as (_ & M & Wr & P & _ & V). auto. Qed.
Print Assumptions C39_thermo_triple.
Theorem C39_thermo_scale : forall db p k, known db (tp_material p) -> wf p -> 0 <= k -> exists r, mul db p k = Ok r /\ tp_material r = tp_material p /\ wf r /\ forall w, weigh w r = k * weigh w p.
Proof. intros db p k K W H. destruct (mul_ok db p k K W H) as (r & E & M & Wr & _ & _ & _ & V & _). exists r. auto. Qed.
Print Assumptions C39_thermo_scale.
Theorem C39_thermo_scale_negative : forall db p k, k < 0 -> mul db p k = Err PyException.
Proof. intros db p k H. unfold mul. destruct (Rlt_dec k 0); [auto|lra]. Qed.
Print Assumptions C39_thermo_scale_negative.
(** Two packages of one material without mass: the temperature search divides
    by zero (the program goes on and the sum has T = nan). *)
Theorem C39_thermo_empty_sum_refuted : forall db p o, known db (tp_material p) -> wf p -> wf o -> tp_material o = tp_material p ->
  (forall x, In x (tp_masses p) -> x = 0) -> (forall x, In x (tp_masses o) -> x = 0) -> add db p (APackage o) = Err NonFinite.
Proof.
  intros db p o K Wp Wo S Zp Zo. unfold add. rewrite S, Z.eqb_refl. destruct (radd_ok (tp_masses p) (tp_masses o)) as (ms & E & Lm); [rewrite (proj2 Wp), (proj2 Wo); congruence|].
  rewrite E. cbn [bind]. destruct Wp as [N L]. destruct (new_package_same db (tp_material p) ms 1 25 K N) as [H0 E1]; [congruence|]. rewrite E1. cbn [bind]. unfold finish, set_H, calculate_T, find_T.
  set (r := mktp (tp_material p) ms 1 25 H0 false None). assert (Z : forall T H, calculate_H db (set_TH r (tp_T r) H) T = Ok 0).
  { intros T H. rewrite calculate_H_ok; [|auto|split; cbn; congruence|auto]. f_equal. unfold enthalpy, weigh. cbn. rewrite (weigh_radd _ _ _ _ _ E), !weigh_zero; auto. ring. }
  rewrite !Z. cbn [bind secant]. unfold ndiv at 1. destruct (Req_EM_T _ 0) as [_|Q]; [reflexivity|]. exfalso. apply Q. ring.
Qed.
Print Assumptions C39_thermo_empty_sum_refuted.
Example C39_thermo_empty_example : wf (charge 0 0 25) /\ forall x, In x (tp_masses (charge 0 0 25)) -> x = 0.
Proof. split; [apply charge_wf|]. intros x [<-|[<-|[]]]; auto. Qed.

(** * C40: extraction *)
Theorem C40_thermo_mass : forall db p x, known db (tp_material p) -> wf p -> not_negative p -> tp_coal p = false -> 0 <= x <= mass_of p -> 0 < mass_of p ->
  exists p' r, extract db p (AMass x) = (p', Ok r) /\ mass_of r = x /\ not_negative r /\ not_negative p' /\ tp_T r = tp_T p /\ tp_T p' = tp_T p /\ tp_P r = tp_P p /\ tp_P p' = tp_P p /\
    (forall w, weigh w r = x / mass_of p * weigh w p) /\ forall w, weigh w r + weigh w p' = weigh w p.
Proof.
  intros db p x K W N C X M. destruct (extract_mass_ok db p x K W N C X M) as (p' & r & E & _ & _ & _ & _ & Nr & Np & Pr & Pp & Tr & Tp & _ & _ & _ & Vr & Vp). exists p', r. repeat (split; auto).
  - unfold mass_of at 1. rewrite Vr. fold (mass_of p). field. lra. - intros w. rewrite Vp. ring.
Qed.
Print Assumptions C40_thermo_mass.
Theorem C40_thermo_mass_too_much : forall db p x, wf p -> mass_of p < x -> extract db p (AMass x) = (p, Err PyException).
Proof. exact extract_mass_error. Qed.
Print Assumptions C40_thermo_mass_too_much.
Theorem C40_thermo_pair : forall db p c x, known db (tp_material p) -> wf p -> tp_coal p = false -> In c (tm_compounds (tp_material p)) -> x <= has p c ->
  exists p' r, extract db p (APair c x) = (p', Ok r) /\ mass_of r = x /\ has r c = x /\ (not_negative p -> 0 <= x -> not_negative r /\ not_negative p') /\
    tp_T r = tp_T p /\ tp_T p' = tp_T p /\ tp_P r = tp_P p /\ tp_P p' = tp_P p /\ (forall w, weigh w r = w c * x) /\ forall w, weigh w r + weigh w p' = weigh w p.
Proof.
  intros db p c x K W C I X. destruct (extract_pair_ok db p c x K W C I X) as (p' & r & E & _ & _ & _ & _ & N & Pr & Pp & Tr & Tp & _ & _ & _ & Vr & Vp). exists p', r. split; auto.
  split; [unfold mass_of; rewrite Vr; ring|]. split; [unfold has; rewrite Vr; destruct (string_dec c c); [ring|congruence]|]. repeat (split; auto). intros w. rewrite Vr, Vp. ring.
Qed.
Print Assumptions C40_thermo_pair.
Theorem C40_thermo_pair_too_much : forall db p c x, wf p -> In c (tm_compounds (tp_material p)) -> has p c < x -> extract db p (APair c x) = (p, Err PyException).
Proof. exact extract_pair_error. Qed.
Print Assumptions C40_thermo_pair_too_much.
Theorem C40_thermo_compound : forall db p c, known db (tp_material p) -> wf p -> tp_coal p = false -> In c (tm_compounds (tp_material p)) ->
  exists p' r, extract db p (AStr c) = (p', Ok r) /\ mass_of r = has p c /\ has p' c = 0 /\ (not_negative p -> not_negative r /\ not_negative p') /\
    tp_T r = tp_T p /\ tp_T p' = tp_T p /\ tp_P r = tp_P p /\ tp_P p' = tp_P p /\ (forall w, weigh w r = w c * has p c) /\ forall w, weigh w r + weigh w p' = weigh w p.
Proof.
  intros db p c K W C I. destruct (extract_compound_in db p c K W C I) as (p' & r & E & _ & _ & _ & _ & N & Pr & Pp & Tr & Tp & _ & _ & _ & Vr & Vp). exists p', r. split; auto.
  split; [unfold mass_of; rewrite Vr; ring|]. split; [unfold has at 1; rewrite Vp; destruct (string_dec c c); [unfold has; ring|congruence]|]. repeat (split; auto). intros w. rewrite Vr, Vp. ring.
Qed.
Print Assumptions C40_thermo_compound.
(** A compound the material does not have is not reported: the result is an
    empty package, whatever mass was requested. *)
Theorem C40_thermo_absent_refuted : forall db p c x, ~ In c (tm_compounds (tp_material p)) ->
  (exists r, extract db p (AStr c) = (p, Ok r) /\ forall w, weigh w r = 0) /\ exists r, extract db p (APair c x) = (p, Ok r) /\ forall w, weigh w r = 0.
Proof.
  intros db p c x I. split.
  - destruct (extract_compound_absent db p c I) as (r & E & _ & V). exists r. auto. - destruct (extract_pair_absent db p c x I) as (r & E & _ & V). exists r. auto.
Qed.
Print Assumptions C40_thermo_absent_refuted.
(** Extraction of the compounds of another material; the result's pressure is 1. *)
Theorem C40_thermo_material : forall db p m, known db (tp_material p) -> known db m -> wf p -> NoDup (tm_compounds m) -> tp_coal p = false -> consistent db p ->
  exists p' r, extract db p (AMaterial m) = (p', Ok r) /\ tp_material r = m /\ tp_T r = tp_T p /\ tp_T p' = tp_T p /\ tp_P p' = tp_P p /\ tp_P r = 1 /\ (not_negative p -> not_negative p' /\ not_negative r) /\
    (forall c, In c (tm_compounds m) -> has r c = has p c /\ has p' c = 0) /\ (forall w, weigh w r + weigh w p' = weigh w p) /\ tp_H r + tp_H p' = tp_H p.
Proof.
  intros db p m Kp Km W N C Co. cbn [extract]. unfold extract_material. destruct (empty_ok db m 1 25) as (r0 & E0 & M0 & X0 & P0 & T0 & C0 & _ & L0 & V0). rewrite E0.
  destruct (extract_each_ok db (tm_compounds m) p r0) as (p' & r & E & Mp & Mr & Wp & Wr & Tp & Tr & Pp & Pr & Nn & Cop & Cor & Vr & Vp); auto.
  - now rewrite M0. - split; rewrite M0; auto. - rewrite M0. apply incl_refl.
  - exists p', r. split; auto. split; [congruence|]. split; [congruence|]. do 2 (split; auto). split; [congruence|].
    split; [intros Np; apply Nn; auto; intros z Hz; rewrite X0 in Hz; apply repeat_spec in Hz; lra|].
    assert (S : forall w, weigh w r + weigh w p' = weigh w p) by (intros w; rewrite Vr, Vp, V0; ring).
    split; [|split; auto].
    + intros c Hc. assert (O : over (tm_compounds m) (fun d => (if string_dec d c then 1 else 0) * has p d) = has p c).
      { clear - N Hc. induction N as [|d l H N IH]; [destruct Hc|]. cbn [over]. destruct Hc as [->|Hc].
        - destruct (string_dec c c); [|congruence]. rewrite (over_ext l _ (fun _ => 0)). + replace (over l (fun _ => 0)) with 0; [ring|]. clear. induction l; cbn; lra.
          + intros d0 He. destruct (string_dec d0 c); [subst; contradiction|ring].
        - rewrite IH by auto. destruct (string_dec d c); [subst; contradiction|ring]. }
      unfold has at 1 3. rewrite Vr, Vp, O, V0. unfold has. split; ring.
    + unfold consistent in *. rewrite Cop, Cor, Co, Tp, Tr. apply S.
Qed.
Print Assumptions C40_thermo_material.
Example C40_thermo_example : wf (charge 1 3 700) /\ not_negative (charge 1 3 700) /\ tp_coal (charge 1 3 700) = false /\ mass_of (charge 1 3 700) = 4 /\ consistent rao (charge 1 3 700) /\ known rao metals /\ known rao melt.
Proof.
  split; [apply charge_wf|]. split; [apply charge_nonneg; lra|]. split; [reflexivity|]. split; [rewrite charge_mass; lra|]. split; [apply charge_consistent|]. split; [apply metals_known|].
  apply regular_known. intros c [<-|[]]. apply metal. auto.
Qed.

(** * C41: elements *)
Theorem C41_thermo_element_masses : forall p (F : string -> formula), wf p -> (forall c, In c (tm_compounds (tp_material p)) -> proper c (F c) /\ has_atoms (F c)) ->
  get_element_masses p = Ok (map (fun el => weigh (fun c => element_share el (F c)) p) (tm_elements (tp_material p))) /\
  forall el, get_element_mass p el = Ok (weigh (fun c => element_share el (F c)) p).
Proof.
  intros p F W H. assert (Fo : formulas (tp_material p)) by (intros c Hc; exists (F c); auto).
  assert (G : forall el, weigh (fun c => P_ThermoElem.q2 (P_Chem.efrac c el)) p = weigh (fun c => element_share el (F c)) p).
  { intros el. apply weigh_ext. intros c Hc. destruct (H c Hc) as [P A]. now apply P_ThermoElem.efrac_share. }
  split.
  - unfold get_element_masses. rewrite P_ThermoElem.element_masses_ok by auto. f_equal. apply map_ext. apply G.
  - intros el. unfold get_element_mass. rewrite P_ThermoElem.element_masses_ok by auto. cbn [bind map get nth_error]. unfold get. cbn. now rewrite G.
Qed.
Print Assumptions C41_thermo_element_masses.
Theorem C41_thermo_sum : forall p, wf p -> exact_formulas (tp_material p) -> listed (tp_material p) -> exists ms, get_element_masses p = Ok ms /\ rsum ms = mass_of p.
Proof.
  intros p W F L. eexists. split; [apply P_ThermoElem.element_masses_ok; auto; now apply P_ThermoElem.exact_formulas_formulas|]. now apply P_ThermoElem.element_total.
Qed.
Print Assumptions C41_thermo_sum.
Theorem C41_thermo_add : forall db p o r el, known db (tp_material p) -> wf p -> wf o -> (tm_id (tp_material p) = tm_id (tp_material o) -> tp_material o = tp_material p) ->
  formulas (tp_material p) -> formulas (tp_material o) -> add db p (APackage o) = Ok r ->
  exists x y, get_element_mass p el = Ok x /\ get_element_mass o el = Ok y /\ get_element_mass r el = Ok (x + y).
Proof.
  intros db p o r el K Wp Wo S Fp Fo H. destruct (add_package_ok db p o r K Wp Wo S H) as (M & W & _ & _ & V). unfold get_element_mass.
  rewrite !P_ThermoElem.element_masses_ok by (rewrite ?M; auto). cbn [bind map]. unfold get. cbn [nth_error]. do 2 eexists. repeat (split; [reflexivity|]). f_equal. apply V.
Qed.
Print Assumptions C41_thermo_add.
Theorem C41_thermo_scale : forall db p k r el, known db (tp_material p) -> wf p -> formulas (tp_material p) -> mul db p k = Ok r ->
  exists x, get_element_mass p el = Ok x /\ get_element_mass r el = Ok (k * x).
Proof.
  intros db p k r el K W F H. assert (Hk : 0 <= k). { unfold mul in H. destruct (Rlt_dec k 0); [discriminate|lra]. }
  destruct (mul_ok db p k K W Hk) as (r' & E & M & Wr & _ & _ & _ & V & _). assert (r' = r) by congruence. subst r'. unfold get_element_mass.
  rewrite !P_ThermoElem.element_masses_ok by (rewrite ?M; auto). cbn [bind map]. unfold get. cbn [nth_error]. eexists. split; [reflexivity|]. f_equal. apply V.
Qed.
Print Assumptions C41_thermo_scale.
Theorem C41_thermo_amount : forall p (F : string -> formula), wf p -> (forall c, In c (tm_compounds (tp_material p)) -> proper c (F c) /\ has_atoms (F c)) ->
  get_amount p = Ok (weigh (fun c => moles_per_kg (F c)) p).
Proof. exact P_ThermoElem.get_amount_ok. Qed.
Print Assumptions C41_thermo_amount.
Example C41_thermo_example : listed metals /\ exact_formulas metals.
Proof.
  split; [vm_compute; reflexivity|]. intros c H.
  assert (E : exists f, P_Convert.check c = Some f /\ has_atoms f /\ all_known f /\ gen_compound (text_of c) f); [|destruct E as (f & _ & A & K & G); eauto].
  cbn in H. destruct H as [<-|[<-|[]]]; (destruct (P_Convert.check _) as [f|] eqn:E in |- *; [|vm_compute in E; discriminate]); exists f; (split; [auto|]); pose proof (P_Convert.check_proper _ _ E) as [P K].
  - split; [vm_compute in E; inversion E; subst; exists "Ag"%string; vm_compute; reflexivity|]. split; [exact K|]. apply P_Count.written_strip in P. exact P.
  - split; [vm_compute in E; inversion E; subst; exists "Al"%string; vm_compute; reflexivity|]. split; [exact K|]. apply P_Count.written_strip in P. exact P.
Qed.

(** * C43: enthalpy *)
Theorem C43_add_enthalpy : forall db p o r, known db (tp_material p) -> wf p -> wf o -> (tm_id (tp_material p) = tm_id (tp_material o) -> tp_material o = tp_material p) ->
  add db p (APackage o) = Ok r -> tp_H r = tp_H p + tp_H o.
Proof. intros db p o r K Wp Wo S H. now destruct (add_package_ok db p o r K Wp Wo S H) as (_ & _ & _ & Hr & _). Qed.
Print Assumptions C43_add_enthalpy.
Theorem C43_add_pair : forall db p c x r, known db (tp_material p) -> wf p -> consistent db p -> add db p (APair c x) = Ok r ->
  tp_T r = tp_T p /\ tp_H r = tp_H p + specific_H db c (tp_T p) * x /\ consistent db r.
Proof.
  intros db p c x r K W Co H. destruct (in_dec string_dec c (tm_compounds (tp_material p))) as [I|I].
  - destruct (add_pair_ok db p c x K W I) as (r' & E & M & Wr & P & T & _ & _ & Hr & V & _). cbn [add] in H. assert (r' = r) by congruence. subst r'. split; auto. split; auto.
    unfold consistent, enthalpy in *. rewrite Hr, T, V, Co. reflexivity.
  - exfalso. pose proof (proj1 (C39_thermo_unknown_compound db p c x I)) as Q. rewrite H in Q. discriminate.
Qed.
Print Assumptions C43_add_pair.
Theorem C43_add_triple : forall db p c x T r, known db (tp_material p) -> wf p -> add db p (ATriple c x T) = Ok r -> tp_H r = tp_H p + specific_H db c T * x.
Proof. intros db p c x T r K W H. now destruct (add_triple_ok db p c x T r K W H) as (_ & _ & _ & _ & Hr & _). Qed.
Print Assumptions C43_add_triple.
Theorem C43_scale : forall db p k, known db (tp_material p) -> wf p -> not_negative p -> consistent db p -> 0 <= k ->
  exists r, mul db p k = Ok r /\ tp_H r = k * tp_H p /\ tp_T r = tp_T p /\ tp_P r = tp_P p /\ consistent db r.
Proof.
  intros db p k K W N Co Hk. destruct (mul_ok db p k K W Hk) as (r & E & M & Wr & P & T & _ & V & _ & Cr). exists r. split; auto. assert (C' : consistent db r) by auto.
  split; auto. unfold consistent, enthalpy in *. rewrite C', Co, T. apply V.
Qed.
Print Assumptions C43_scale.
Theorem C43_set_T : forall db p T, known db (tp_material p) -> wf p -> tp_coal p = false -> exists p', set_T db p T = (p', Ok tt) /\ tp_T p' = T /\ tp_H p' = enthalpy db p T /\ tp_masses p' = tp_masses p /\ tp_P p' = tp_P p.
Proof. intros db p T K W C. eexists. split; [now apply set_T_ok|]. repeat split. Qed.
Print Assumptions C43_set_T.
Theorem C43_set_H : forall db p H p', set_H db p H = (p', Ok tt) -> tp_H p' = H /\ tp_masses p' = tp_masses p /\ tp_P p' = tp_P p.
Proof. intros db p H p' E. unfold set_H in E. destruct (calculate_T _ _ _); [|discriminate]. injection E as <-. repeat split. Qed.
Print Assumptions C43_set_H.
Theorem C43_create : forall db m n a d mass P T p, find_assay m n = Ok a -> length a = length (tm_compounds m) -> NoDup (tm_compounds m) -> known db m ->
  is_coal m n = Ok false -> custom_of m n = Ok d -> rsum a <> 0 -> 0 < mass -> create_package db m (Some n) mass P T true = Ok p -> consistent db p.
Proof.
  intros db m n a d mass P T p F L N K C D Z M E. destruct (create_ok db m n a d mass P T true F L N K C D (fun _ => Z)) as (p' & E' & _ & X & W & _ & _ & _ & Co & V). assert (p' = p) by congruence. subst p'.
  apply Co. right. unfold mass_of. rewrite V, weigh_rsum by auto. replace (mass / rsum a * rsum a) with mass by (field; auto). auto.
Qed.
Print Assumptions C43_create.
Theorem C43_extract_mass : forall db p x, known db (tp_material p) -> wf p -> not_negative p -> tp_coal p = false -> consistent db p -> 0 <= x <= mass_of p -> 0 < mass_of p ->
  exists p' r, extract db p (AMass x) = (p', Ok r) /\ consistent db r /\ consistent db p' /\ tp_H r = x / mass_of p * tp_H p /\ tp_H r + tp_H p' = tp_H p.
Proof.
  intros db p x K W N C Co X M. destruct (extract_mass_ok db p x K W N C X M) as (p' & r & E & _ & _ & _ & _ & Nr & Np & Pr & Pp & Tr & Tp & _ & Cr & Cp & Vr & Vp). exists p', r. repeat (split; auto).
  - unfold consistent, enthalpy in *. rewrite Cr, Co, Tr. apply Vr. - unfold consistent, enthalpy in *. rewrite Cr, Cp, Co, Tr, Tp, Vp. ring.
Qed.
Print Assumptions C43_extract_mass.
Theorem C43_extract_pair : forall db p c x, known db (tp_material p) -> wf p -> tp_coal p = false -> consistent db p -> In c (tm_compounds (tp_material p)) -> x <= has p c ->
  exists p' r, extract db p (APair c x) = (p', Ok r) /\ consistent db r /\ consistent db p' /\ tp_H r + tp_H p' = tp_H p.
Proof.
  intros db p c x K W C Co I X. destruct (extract_pair_ok db p c x K W C I X) as (p' & r & E & _ & _ & _ & _ & N & Pr & Pp & Tr & Tp & _ & Cr & Cp & Vr & Vp). exists p', r. repeat (split; auto).
  unfold consistent, enthalpy in *. rewrite Cr, Cp, Co, Tr, Tp, Vp, Vr. ring.
Qed.
Print Assumptions C43_extract_pair.
Theorem C43_extract_compound : forall db p c, known db (tp_material p) -> wf p -> tp_coal p = false -> consistent db p -> In c (tm_compounds (tp_material p)) ->
  exists p' r, extract db p (AStr c) = (p', Ok r) /\ consistent db r /\ consistent db p' /\ tp_H r + tp_H p' = tp_H p.
Proof.
  intros db p c K W C Co I. destruct (extract_compound_in db p c K W C I) as (p' & r & E & _ & _ & _ & _ & N & Pr & Pp & Tr & Tp & _ & Cr & Cp & Vr & Vp). exists p', r. repeat (split; auto).
  unfold consistent, enthalpy in *. rewrite Cr, Cp, Co, Tr, Tp, Vp, Vr. ring.
Qed.
Print Assumptions C43_extract_compound.
(** After clear() the package is empty at 25 degrees with no enthalpy. *)
Theorem C43_clear : forall db p, let p' := clear p in tp_H p' = 0 /\ tp_T p' = 25 /\ tp_P p' = 1 /\ (forall w, weigh w p' = 0) /\ consistent db p'.
Proof.
  intros db p p'. assert (Z : forall w, weigh w p' = 0) by (intros w; unfold p', weigh, clear; cbn; rewrite weigh_scale; ring). repeat split; auto. unfold consistent, enthalpy. rewrite Z. reflexivity.
Qed.
Print Assumptions C43_clear.

(** * C44: from enthalpy to temperature *)
(** At most 50 temperatures are tried: the outcome is determined by the
    enthalpy at some 50 temperatures. *)
Theorem C44_evaluations : forall (h : R -> res R) T H, exists l, (length l <= 50)%nat /\ forall h', (forall x, In x l -> h' x = h x) -> find_T h' T H = find_T h T H.
Proof. exact find_T_points. Qed.
Print Assumptions C44_evaluations.
(** With slopes that vary by a factor M/m of at most 2 around the solution [r]
    the search succeeds, and either the residual is at most (M/m - 1) times
    1e-5 or it has shrunk 48 times by M/m - 1. *)
Theorem C44_converges : forall (g : R -> R) (h : R -> res R) lo hi m M r H rho T, (forall x, lo <= x <= hi -> h x = Ok (g x)) -> slopes g lo hi m M -> 0 < m -> m <= M -> M <= 2 * m ->
  g r = H -> lo <= r - rho -> r + rho <= hi -> Rabs (T - r) <= rho -> Rabs (T + 10 - r) <= rho ->
  exists x, find_T h T H = Ok x /\ Rabs (x - r) <= rho /\
    (Rabs (g x - H) <= (M / m - 1) * (1 / 100000) \/ Rabs (g x - H) <= (M / m - 1) ^ 48 * Rabs (g (T + 10) - H)).
Proof. intros. now apply (find_T_converges g h lo hi m M r H). Qed.
Print Assumptions C44_converges.
(** In particular, for slopes within a factor 3/2 and enthalpies below 1e9 kWh
    the returned temperature has the enthalpy within 1e-5. *)
Theorem C44_within_tolerance : forall (g : R -> R) (h : R -> res R) lo hi m M r H rho T, (forall x, lo <= x <= hi -> h x = Ok (g x)) -> slopes g lo hi m M -> 0 < m -> m <= M -> M <= 3 / 2 * m ->
  g r = H -> lo <= r - rho -> r + rho <= hi -> Rabs (T - r) <= rho -> Rabs (T + 10 - r) <= rho -> Rabs (g (T + 10) - H) <= 1000000000 ->
  exists x, find_T h T H = Ok x /\ Rabs (g x - H) < 1 / 100000.
Proof.
  intros g h lo hi m M r H rho T Hh S m0 mM MM Hr Rl Rh T0 T1 B. destruct (C44_converges g h lo hi m M r H rho T Hh S m0 mM) as (x & E & _ & D); auto; [lra|]. exists x. split; auto.
  assert (Q : 0 <= M / m - 1 <= 1 / 2). { assert (F : M / m * m = M) by (field; lra). split; [assert (1 <= M / m); [|lra]|assert (M / m <= 3 / 2); [|lra]]; apply Rmult_le_reg_r with m; lra. }
  destruct D as [D|D].
  - eapply Rle_lt_trans; [exact D|]. assert ((M / m - 1) * (1 / 100000) <= 1 / 2 * (1 / 100000)) by (apply Rmult_le_compat_r; lra). lra.
  - eapply Rle_lt_trans; [exact D|]. assert (P : (M / m - 1) ^ 48 <= (1 / 2) ^ 48) by (apply pow_incr; lra). assert (0 <= (M / m - 1) ^ 48) by (apply pow_le; lra).
    apply Rle_lt_trans with ((1 / 2) ^ 48 * 1000000000). + apply Rmult_le_compat; auto; [apply Rabs_pos].
    + lra.
Qed.
Print Assumptions C44_within_tolerance.
(** A straight line is solved exactly. *)
Theorem C44_line : forall h a b T H, b <> 0 -> h T = Ok (a + b * T) -> h (T + 10) = Ok (a + b * (T + 10)) -> h ((H - a) / b) = Ok H -> find_T h T H = Ok ((H - a) / b).
Proof. exact find_T_line. Qed.
Print Assumptions C44_line.
(** Packages: setting H when the heat capacities of the compounds vary by a factor of at most k. *)
Theorem C44_package : forall db p H r rho lo hi a k, regular_material db (tp_material p) -> wf p -> not_negative p -> tp_coal p = false -> - (27315 / 100) < lo ->
  heat_capacities db (tp_material p) lo hi a k -> 1 <= k <= 2 -> 0 < weigh a p -> enthalpy db p r = H -> lo <= r - rho -> r + rho <= hi ->
  Rabs (tp_T p - r) <= rho -> Rabs (tp_T p + 10 - r) <= rho ->
  exists p', set_H db p H = (p', Ok tt) /\ tp_H p' = H /\ tp_masses p' = tp_masses p /\
    (Rabs (enthalpy db p' (tp_T p') - H) <= (k - 1) * (1 / 100000) \/ Rabs (enthalpy db p' (tp_T p') - H) <= (k - 1) ^ 48 * Rabs (enthalpy db p (tp_T p + 10) - H)).
Proof.
  intros db p H r rho lo hi a k Rg W N C Lo Hc Hk Hp Hr Rl Rh T0 T1. destruct (set_H_converges db p H r rho lo hi a k) as (T & E & _ & B); auto. eexists. split; [exact E|]. split; auto.
Qed.
Print Assumptions C44_package.
(** Mixing two packages of one material: there is a temperature [t] between
    those of the packages at which the sum has the total enthalpy, and the sum's
    temperature differs from it by at most the residual over the heat capacity. *)
Theorem C44_mixture : forall db p o m Tm a k, regular_material db m -> tp_material p = m -> tp_material o = m -> wf p -> wf o -> not_negative p -> not_negative o -> consistent db p -> consistent db o ->
  35 <= tp_T p <= Tm -> 35 <= tp_T o <= Tm -> heat_capacities db m 25 (2 * Tm - 25) a k -> 1 <= k <= 2 -> 0 < weigh a p -> 0 < weigh a o ->
  exists r t, add db p (APackage o) = Ok r /\ Rmin (tp_T p) (tp_T o) <= t <= Rmax (tp_T p) (tp_T o) /\ enthalpy db r t = tp_H r /\
    weigh a r * Rabs (tp_T r - t) <= Rabs (enthalpy db r (tp_T r) - tp_H r) /\
    (Rabs (enthalpy db r (tp_T r) - tp_H r) <= (k - 1) * (1 / 100000) \/ Rabs (enthalpy db r (tp_T r) - tp_H r) <= (k - 1) ^ 48 * Rabs (enthalpy db r 35 - tp_H r)).
Proof. exact mixture. Qed.
Print Assumptions C44_mixture.
(** Liquid silver and aluminium (constant heat capacities, k = 1): the sum is exact. *)
Example C44_mixture_example : exists r, add rao (charge 1 3 1000) (APackage (charge 2 2 1400)) = Ok r /\ 1000 <= tp_T r <= 1400 /\ consistent rao r.
Proof.
  destruct (metal "Ag[L]") as (_ & va & Pa & Ca); [auto|]. destruct (metal "Al[L]") as (_ & vb & Pb & Cb); [auto|].
  set (a := fun c : string => if string_dec c "Ag[L]" then va else vb).
  assert (Hc : heat_capacities rao metals 25 (2 * 1400 - 25) a 1).
  { intros c T I _. cbn in I. destruct I as [<-|[<-|[]]]; [exists va|exists vb]; (split; [auto|]); unfold a; cbn; lra. }
  assert (Wp : forall x y T, 0 < x -> 0 < y -> 0 < weigh a (charge x y T)).
  { intros x y T Hx Hy. unfold weigh, weigh_list, a. cbn. assert (0 < va * x) by (apply Rmult_lt_0_compat; lra). assert (0 < vb * y) by (apply Rmult_lt_0_compat; lra). lra. }
  destruct (C44_mixture rao (charge 1 3 1000) (charge 2 2 1400) metals 1400 a 1) as (r & t & E & Ht & Et & B & D);
    try first [apply metals_regular | reflexivity | apply charge_wf | apply charge_nonneg; lra | apply charge_consistent | exact Hc | apply Wp; lra | cbn; lra].
  cbn [tp_T charge] in Ht. rewrite Rmin_left, Rmax_right in Ht by lra. exists r. split; auto.
  assert (Z : Rabs (enthalpy rao r (tp_T r) - tp_H r) = 0). { apply Rle_antisym; [|apply Rabs_pos]. destruct D as [D|D]; (eapply Rle_trans; [exact D|]); [lra|]. replace (1 - 1) with 0 by ring. rewrite pow_ne_zero by discriminate. lra. }
  destruct (C39_thermo_package rao (charge 1 3 1000) (charge 2 2 1400) r) as (_ & _ & _ & _ & _ & V); auto using metals_known, charge_wf.
  assert (Wr : 0 < weigh a r) by (rewrite V; pose proof (Wp 1 3 1000); pose proof (Wp 2 2 1400); lra). rewrite Z in B.
  assert (Q : Rabs (tp_T r - t) = 0). { pose proof (Rabs_pos (tp_T r - t)). destruct (Req_EM_T (Rabs (tp_T r - t)) 0); auto. assert (0 < weigh a r * Rabs (tp_T r - t)) by (apply Rmult_lt_0_compat; lra). lra. }
  assert (tp_T r = t). { unfold Rabs in Q. destruct (Rcase_abs _); lra. } split; [lra|]. unfold consistent. unfold Rabs in Z. destruct (Rcase_abs _); lra.
Qed.
(** Without a bound on the slopes the property fails: the residual that is
    tested is not that of the returned temperature.  An enthalpy that rises 1000
    times faster from 10 degrees on, like a phase change: *)
Definition kink (x : R) : R := if Rle_dec x 10 then x else 10 + 1000 * (x - 10).
Lemma secant_step f n x0 x1 y0 y1 : secant f (S n) x0 x1 y0 y1 =
  do s <- ndiv (x1 - x0) (y1 - y0); do y2 <- f (x1 - y1 * s); if Rlt_dec (Rabs y1) (1 / 100000) then Ok (x1 - y1 * s) else secant f n x1 (x1 - y1 * s) y1 y2.
Proof. reflexivity. Qed.
Theorem C44_early_stop_refuted : (forall x y, x < y -> kink x < kink y) /\
  exists T H x, find_T (fun t => Ok (kink t)) T H = Ok x /\ (1 / 100000) * 90 < Rabs (kink x - H).
Proof.
  split. { intros x y L. unfold kink. destruct (Rle_dec x 10), (Rle_dec y 10); lra. }
  exists 0, (10 + 1 / 1000000), (10 + 1 / 1000000). split.
  - unfold find_T. cbn [bind]. rewrite secant_step. generalize 47%nat as n. intros n. assert (K0 : kink 0 = 0) by (unfold kink; destruct (Rle_dec 0 10); lra). assert (K1 : kink (0 + 10) = 10) by (unfold kink; destruct (Rle_dec (0 + 10) 10); lra).
    rewrite K0, K1. rewrite ndiv_ok by lra. cbn [bind]. destruct (Rlt_dec (Rabs (10 - (10 + 1 / 1000000))) (1 / 100000)) as [_|Q].
    + f_equal. field.
    + exfalso. apply Q. rewrite Rabs_left; lra.
  - unfold kink. destruct (Rle_dec _ 10); [lra|]. rewrite Rabs_right; lra.
Qed.
Print Assumptions C44_early_stop_refuted.
(** An enthalpy with a jump: the search ends without any sign of failure. *)
Definition jump (x : R) : R := if Rlt_dec x 0 then x - 1 else x + 1.
Theorem C44_silent_failure_refuted : (forall x y, x < y -> jump x < jump y) /\ forall T, exists x, find_T (fun t => Ok (jump t)) T 0 = Ok x /\ 1 <= Rabs (jump x - 0).
Proof.
  assert (I : forall x y, x < y -> jump x < jump y) by (intros x y L; unfold jump; destruct (Rlt_dec x 0), (Rlt_dec y 0); lra). split; auto.
  intros T. destruct (find_T_total jump T 0) as [x E]. { intros x y E. destruct (Rtotal_order x y) as [L|[L|L]]; auto; apply I in L; lra. }
  exists x. split; auto. unfold jump, Rabs. destruct (Rlt_dec x 0); destruct (Rcase_abs _); lra.
Qed.
Print Assumptions C44_silent_failure_refuted.
