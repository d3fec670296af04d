(** C62-C65: material streams of the thermo module.  [s_body s] holds the
    material, flow rates, P, T, Hfr, isCoal and HHV of stream [s]; [weigh w] is
    the sum over the compounds of [w] times flow rate, so a statement for all
    [w] covers the total, every compound, every element and the amount.
    [sextract db s x] gives the stream afterwards and the result of
    [s.extract(x)].  Theorems without [tp_coal ... = false] hold for coal too. *)
From Verif Require Import Prelude M_Elements M_Stoichiometry M_Lists M_Thermochem M_Coals M_ThermoMat M_Streams Spec_Stoich Spec_Thermo Spec_ThermoMat Spec_Coals Spec_Streams
  P_ThermoApi P_Thermo P_Data P_Content P_ThermoMat P_Mixing P_ThermoMore P_Coals P_Streams P_CoalStream.
From Verif Require P_Convert P_ThermoElem P_Chem Properties_ThermoMat.
From Verif Require Import M_Data M_Data_Rao.
From Coq Require Import Reals Lra.
Local Open Scope list_scope.
Local Open Scope R_scope.
Notation body := s_body.
Notation material_of s := (tp_material (s_body s)).

(** * C62: flow rates *)
Theorem C62_create : forall db m n a f P T (norm : bool) s, find_assay m n = Ok a -> length a = length (tm_compounds m) -> NoDup (tm_compounds m) ->
  create_stream db m (Some n) f P T norm = Ok s ->
  material_of s = m /\ wf (body s) /\ tp_P (body s) = P /\ tp_T (body s) = T /\ (norm = true -> a <> [] -> mass_of (body s) = f) /\
  forall w, weigh w (body s) = f / (if norm then rsum a else 1) * weigh_list w (tm_compounds m) a.
Proof.
  intros db m n a f P T norm s F L N H. unfold create_stream, get_assay_total in H. rewrite F in H. set (t := if norm then rsum a else 1) in *.
  replace (if norm then do a0 <- Ok a; Ok (rsum a0) else Ok 1) with (Ok t) in H by (unfold t; destruct norm; reflexivity). cbn [bind] in H.
  destruct (mapM (fun x => ndiv (f * x) t) a) as [ms|e] eqn:M; cbn [bind] in H; [|discriminate].
  assert (Z : a = [] \/ t <> 0). { destruct a as [|x a]; auto. right. intros Z. cbn [mapM] in M. unfold ndiv in M at 1. rewrite Z in M. destruct (Req_EM_T 0 0); [discriminate|congruence]. }
  assert (E : ms = rscale a (f / t)). { destruct Z as [->|Z]; [now injection M as <-|]. rewrite mapM_ndiv in M by auto. now injection M as <-. }
  destruct (is_coal m n) as [c|]; cbn [bind] in H; [|discriminate]. destruct (get_HHV m n) as [h|]; cbn [bind] in H; [|discriminate]. apply new_stream_shape in H. destruct H as (H0 & B & _). rewrite B. cbn.
  assert (V : forall w, weigh w (mktp m ms P T H0 c h) = f / t * weigh_list w (tm_compounds m) a) by (intros w; unfold weigh; cbn; rewrite E; apply weigh_scale).
  assert (W : wf (mktp m ms P T H0 c h)) by (split; cbn; auto; rewrite E; unfold rscale; now rewrite map_length).
  split; auto. split; auto. split; auto. split; auto. split; auto.
  intros -> Na. unfold mass_of. rewrite V, weigh_rsum by auto. destruct Z as [Z|Z]; [contradiction|]. fold t. unfold t in *. field. auto.
Qed.
Print Assumptions C62_create.
Theorem C62_create_succeeds : forall db m n a d f P T, find_assay m n = Ok a -> length a = length (tm_compounds m) -> NoDup (tm_compounds m) -> known db m ->
  is_coal m n = Ok false -> custom_of m n = Ok d -> rsum a <> 0 -> exists s, create_stream db m (Some n) f P T true = Ok s.
Proof.
  intros db m n a d f P T F L N K C D Z. rewrite sim_create by (intros x X; injection X as <-; auto). destruct (create_ok db m n a d f P T true F L N K C D (fun _ => Z)) as (p & E & _). rewrite E. cbn. eauto.
Qed.
Print Assumptions C62_create_succeeds.
Theorem C62_add : forall db s o r, wf (body s) -> wf (body o) -> (tm_id (material_of s) = tm_id (material_of o) -> material_of o = material_of s) -> sadd db s (SStream o) = Ok r ->
  material_of r = material_of s /\ wf (body r) /\ tp_P (body r) = tp_P (body s) /\ mfr r = mfr s + mfr o /\ (forall c, has (body r) c = has (body s) c + has (body o) c) /\
  forall w, weigh w (body r) = weigh w (body s) + weigh w (body o).
Proof.
  intros db s o r Ws Wo S H. destruct (sadd_stream_ok db s o r Ws Wo S H) as (M & W & P & _ & V & _). split; auto. split; auto. split; auto. split; [rewrite <- !mfr_mass by auto; apply V|]. split; auto. intros c. apply V.
Qed.
Print Assumptions C62_add.
Theorem C62_add_pair : forall db s c x r, wf (body s) -> sadd db s (SPair c x) = Ok r ->
  In c (tm_compounds (material_of s)) /\ material_of r = material_of s /\ wf (body r) /\ tp_P (body r) = tp_P (body s) /\ tp_T (body r) = tp_T (body s) /\ forall w, weigh w (body r) = weigh w (body s) + w c * x.
Proof. intros db s c x r W H. destruct (sadd_pair_ok db s c x r W H) as (I & M & Wr & P & T & _ & _ & V). auto 10. Qed.
Print Assumptions C62_add_pair.
Theorem C62_add_triple : forall db s c x T r, wf (body s) -> sadd db s (STriple c x T) = Ok r ->
  In c (tm_compounds (material_of s)) /\ material_of r = material_of s /\ wf (body r) /\ tp_P (body r) = tp_P (body s) /\ forall w, weigh w (body r) = weigh w (body s) + w c * x.
Proof. intros db s c x T r W H. destruct (sadd_triple_ok db s c x T r W H) as (I & M & Wr & P & _ & V). auto 10. Qed.
Print Assumptions C62_add_triple.
Theorem C62_add_missing : forall db s o c, tm_id (material_of s) <> tm_id (material_of o) -> wf (body s) -> wf (body o) -> In c (tm_compounds (material_of o)) -> ~ In c (tm_compounds (material_of s)) ->
  is_ok (sadd db s (SStream o)) = false.
Proof.
  intros db s o c D Ws Wo I N. unfold sadd. destruct (Z.eqb_spec (tm_id (material_of s)) (tm_id (material_of o))); [contradiction|].
  destruct (foldM _ _ s) as [r1|e] eqn:F; [|reflexivity]. destruct (sadd_each_ok db s o _ Wo s r1 Ws eq_refl F) as (_ & _ & _ & _ & _ & Inc & _). exfalso. now apply N, Inc.
Qed.
Print Assumptions C62_add_missing.
Theorem C62_scale : forall db s k r, wf (body s) -> smul db s k = Ok r ->
  0 <= k /\ material_of r = material_of s /\ wf (body r) /\ tp_P (body r) = tp_P (body s) /\ tp_T (body r) = tp_T (body s) /\ tp_coal (body r) = tp_coal (body s) /\ tp_HHV (body r) = tp_HHV (body s) /\
  forall w, weigh w (body r) = k * weigh w (body s).
Proof. exact smul_ok. Qed.
Print Assumptions C62_scale.
Theorem C62_scale_negative : forall db s k, k < 0 -> smul db s k = Err PyException.
Proof. intros db s k H. unfold smul. destruct (Rlt_dec k 0); [auto|lra]. Qed.
Print Assumptions C62_scale_negative.
Theorem C62_extract_mfr : forall db s x s' r, wf (body s) -> sextract db s (SMfr x) = (s', Ok r) ->
  x <= mfr s /\ mfr r = x /\ tp_T (body r) = tp_T (body s) /\ tp_T (body s') = tp_T (body s) /\ tp_P (body r) = tp_P (body s) /\ tp_P (body s') = tp_P (body s) /\
  (forall w, weigh w (body r) = x / mfr s * weigh w (body s)) /\ forall w, weigh w (body r) + weigh w (body s') = weigh w (body s).
Proof.
  intros db s x s' r W H. destruct (sextract_mfr_ok db s x s' r W H) as (L & X & M & (M' & P' & T' & _) & Wr & Ws & T & P & _ & Vr & V). rewrite <- (mfr_mass r) by auto.
  do 7 (split; [auto|]). auto.
Qed.
Print Assumptions C62_extract_mfr.
Theorem C62_extract_pair : forall db s c x s' r, wf (body s) -> In c (tm_compounds (material_of s)) -> sextract db s (SPair c x) = (s', Ok r) ->
  x <= has (body s) c /\ mfr r = x /\ tp_T (body r) = tp_T (body s) /\ tp_T (body s') = tp_T (body s) /\ tp_P (body r) = tp_P (body s) /\ tp_P (body s') = tp_P (body s) /\
  (forall w, weigh w (body r) = w c * x) /\ forall w, weigh w (body r) + weigh w (body s') = weigh w (body s).
Proof.
  intros db s c x s' r W I H. destruct (sextract_pair_ok db s c x s' r W I H) as (L & M & (M' & P' & T' & _) & Wr & Ws & T & P & _ & Vr & V). rewrite <- (mfr_mass r) by auto. unfold mass_of. rewrite Vr. replace (1 * x) with x by ring. do 7 (split; [auto|]). auto.
Qed.
Print Assumptions C62_extract_pair.
Theorem C62_extract_compound : forall db s c s' r, wf (body s) -> In c (tm_compounds (material_of s)) -> sextract db s (SStr c) = (s', Ok r) ->
  mfr r = has (body s) c /\ has (body s') c = 0 /\ tp_T (body r) = tp_T (body s) /\ tp_T (body s') = tp_T (body s) /\ tp_P (body r) = tp_P (body s) /\ tp_P (body s') = tp_P (body s) /\
  (forall w, weigh w (body r) = w c * has (body s) c) /\ forall w, weigh w (body r) + weigh w (body s') = weigh w (body s).
Proof.
  intros db s c s' r W I H. destruct (sextract_compound_ok db s c s' r W I H) as (M & (M' & P' & T' & _) & Wr & Ws & T & P & _ & Vr & V). rewrite <- (mfr_mass r) by auto. split; [unfold mass_of; rewrite Vr; ring|].
  split; [|do 5 (split; [auto|]); auto]. pose proof (V (fun d => if string_dec d c then 1 else 0)) as Q. rewrite Vr in Q. destruct (string_dec c c); [|congruence]. fold (has (body s') c) (has (body s) c) in Q. lra.
Qed.
Print Assumptions C62_extract_compound.
(** For coal or not: requests for more than there is raise and change nothing. *)
Theorem C62_too_much : forall db s x, wf (body s) -> (mfr s < x -> sextract db s (SMfr x) = (s, Err PyException)) /\
  forall c, In c (tm_compounds (material_of s)) -> has (body s) c < x -> sextract db s (SPair c x) = (s, Err PyException).
Proof.
  intros db s x [N L]. split.
  - intros H. cbn [sextract]. unfold sextract_mfr. destruct (Rlt_dec (mfr s) x); [auto|lra].
  - intros c I H. cbn [sextract]. unfold sextract_compound_mfr. pose proof I as I'. apply (member_In string_dec) in I'. rewrite I'. cbn [negb]. destruct (index_total string_dec _ _ I) as [i E]. unfold get_compound_index. rewrite E. cbn [bind].
    apply index_ok in E. destruct E as [E _]. unfold get. destruct (nth_error (tp_masses (body s)) i) as [y|] eqn:Y.
    + cbn [bind]. assert (Q : has (body s) c = y) by (unfold has, weigh; eapply has_nth; eauto). destruct (Rlt_dec y x); [auto|lra].
    + apply nth_error_None in Y. assert (i < length (tm_compounds (material_of s)))%nat by (apply nth_error_Some; congruence). lia.
Qed.
Print Assumptions C62_too_much.
(** Streams that are not coal: the extractions within what there is succeed. *)
Theorem C62_extract_succeeds : forall db s x, known db (material_of s) -> wf (body s) -> not_negative (body s) -> tp_coal (body s) = false -> 0 <= x ->
  (0 < mfr s -> x <= mfr s -> is_ok (snd (sextract db s (SMfr x))) = true) /\
  forall c, In c (tm_compounds (material_of s)) -> is_ok (snd (sextract db s (SStr c))) = true /\ (x <= has (body s) c -> is_ok (snd (sextract db s (SPair c x))) = true).
Proof.
  intros db s x K W N C X. split.
  - intros M L. rewrite <- mfr_mass in M, L by auto. rewrite sim_extract_mfr by auto. destruct (extract_mass_ok db (body s) x K W N C) as (p' & r & E & _); auto. rewrite E. reflexivity.
  - intros c I. split.
    + cbn [sextract]. rewrite sim_extract_compound by auto. destruct (extract_compound_in db (body s) c K W C I) as (p' & r & E & _). rewrite E. reflexivity.
    + intros L. rewrite sim_extract_pair by auto. destruct (extract_pair_ok db (body s) c x K W C I L) as (p' & r & E & _). rewrite E. reflexivity.
Qed.
Print Assumptions C62_extract_succeeds.
Theorem C62_elements : forall s (F : string -> formula), wf (body s) -> (forall c, In c (tm_compounds (material_of s)) -> proper c (F c) /\ has_atoms (F c)) ->
  get_element_mfrs s = Ok (map (fun el => weigh (fun c => element_share el (F c)) (body s)) (tm_elements (material_of s))).
Proof. intros s F W H. apply (Properties_ThermoMat.C41_thermo_element_masses (body s) F W H). Qed.
Print Assumptions C62_elements.
Theorem C62_element : forall s (F : string -> formula) el, wf (body s) -> formula_of (material_of s) F ->
  get_element_mfr s el = Ok (weigh (fun c => element_share el (F c)) (body s)).
Proof.
  intros s F el W H. unfold get_element_mfr. rewrite <- over_has by auto.
  assert (G : forall cs a, incl cs (tm_compounds (material_of s)) ->
     foldM (fun r c => do x <- get_compound_mfr s c; do f <- element_mass_fraction (formula_part c) el; Ok (r + x * Q2R (this f))) cs a = Ok (a + over cs (fun c => element_share el (F c) * has (body s) c))).
  { induction cs as [|c cs IH]; intros a I; cbn [foldM over]; [f_equal; ring|]. unfold get_compound_mfr at 1. rewrite get_compound_mass_has by auto. cbn [bind]. destruct (H c) as [P A]; [apply I; cbn; auto|].
    rewrite (P_Chem.efrac_ok _ _ el P A). cbn [bind]. pose proof (P_ThermoElem.efrac_share _ _ el P A) as S. unfold P_ThermoElem.q2 in S. rewrite S. rewrite IH by (intros d D; apply I; cbn; auto). f_equal. ring. }
  rewrite G by apply incl_refl. f_equal. ring.
Qed.
Print Assumptions C62_element.
(** A compound the material does not have: an empty stream, silently. *)
Theorem C62_absent_refuted : forall db s c x, ~ In c (tm_compounds (material_of s)) ->
  (exists r, sextract db s (SStr c) = (s, Ok r) /\ mfr r = 0) /\ exists r, sextract db s (SPair c x) = (s, Ok r) /\ mfr r = 0.
Proof.
  intros db s c x I. assert (E : exists r, create_stream db (material_of s) None 0 1 25 true = Ok r /\ mfr r = 0).
  { rewrite sim_create by discriminate. destruct (empty_ok db (material_of s) 1 25) as (r & E & M & X & _). rewrite E. exists (bare r). split; auto. unfold mfr. cbn. rewrite X. unfold create_empty_assay. generalize (length (tm_compounds (material_of s))). intros n. induction n as [|n IH]; cbn; auto. fold (rsum (repeat 0 n)). rewrite IH. ring. }
  destruct E as (r & E & Z). assert (Mf : member string_dec c (tm_compounds (material_of s)) = false) by (unfold member; destruct (in_dec string_dec c _); [contradiction|auto]).
  split; exists r; cbn [sextract]; unfold sextract_compound, sextract_compound_mfr; rewrite E, Mf; auto.
Qed.
Print Assumptions C62_absent_refuted.

(** * C63: enthalpy flow *)
Theorem C63_add : forall db s o r, wf (body s) -> wf (body o) -> (tm_id (material_of s) = tm_id (material_of o) -> material_of o = material_of s) -> sadd db s (SStream o) = Ok r ->
  tp_H (body r) = tp_H (body s) + tp_H (body o).
Proof. intros db s o r Ws Wo S H. now destruct (sadd_stream_ok db s o r Ws Wo S H) as (_ & _ & _ & E & _). Qed.
Print Assumptions C63_add.
Theorem C63_add_pair : forall db s c x r, known db (material_of s) -> wf (body s) -> sadd db s (SPair c x) = Ok r -> tp_H (body r) = tp_H (body s) + specific_H db c (tp_T (body s)) * x.
Proof.
  intros db s c x r K W H. destruct (sadd_pair_ok db s c x r W H) as (I & _ & _ & _ & _ & _ & (h & E & ->) & _). rewrite (known_H db (material_of s)) in E by auto. injection E as <-. reflexivity.
Qed.
Print Assumptions C63_add_pair.
Theorem C63_add_triple : forall db s c x T r, known db (material_of s) -> wf (body s) -> sadd db s (STriple c x T) = Ok r -> tp_H (body r) = tp_H (body s) + specific_H db c T * x.
Proof.
  intros db s c x T r K W H. destruct (sadd_triple_ok db s c x T r W H) as (I & _ & _ & _ & (h & E & ->) & _). rewrite (known_H db (material_of s)) in E by auto. injection E as <-. reflexivity.
Qed.
Print Assumptions C63_add_triple.
Theorem C63_scale : forall db s k, known db (material_of s) -> wf (body s) -> not_negative (body s) -> tp_coal (body s) = false -> consistent db (body s) -> 0 <= k ->
  exists r, smul db s k = Ok r /\ tp_H (body r) = k * tp_H (body s) /\ tp_T (body r) = tp_T (body s) /\ consistent db (body r).
Proof.
  intros db s k K W N C Co Hk. unfold smul. destruct (Rlt_dec k 0); [lra|]. rewrite C, sim_new.
  assert (E : exists H, new_package db (material_of s) (rscale (tp_masses (body s)) k) (tp_P (body s)) (tp_T (body s)) false (tp_HHV (body s)) = Ok (mktp (material_of s) (rscale (tp_masses (body s)) k) (tp_P (body s)) (tp_T (body s)) H false (tp_HHV (body s))) /\
     H = enthalpy db (mktp (material_of s) (rscale (tp_masses (body s)) k) (tp_P (body s)) (tp_T (body s)) 0 false (tp_HHV (body s))) (tp_T (body s))).
  { unfold new_package. destruct (Rlt_dec _ _) as [L|L].
    - rewrite calculate_H_ok; [|exact K|split; cbn; [apply W|unfold rscale; rewrite map_length; apply W]|reflexivity]. cbn [bind]. eexists. split; reflexivity.
    - exists 0. split; [reflexivity|]. unfold enthalpy, weigh. cbn. symmetry. apply weigh_zero. apply rsum_zero; [|lra]. intros x Hx. apply In_rscale in Hx. destruct Hx as (y & -> & Hy). apply Rmult_le_pos; auto. }
  destruct E as (H & E & EH). rewrite E. cbn [bind]. eexists. split; [reflexivity|]. cbn. split; [|split; auto].
  rewrite EH, Co. unfold enthalpy, weigh. cbn. apply weigh_scale.
Qed.
Print Assumptions C63_scale.
Theorem C63_set_T : forall db s T, known db (material_of s) -> wf (body s) -> tp_coal (body s) = false ->
  exists s', put_T db s T = (s', Ok tt) /\ tp_T (body s') = T /\ tp_H (body s') = enthalpy db (body s) T /\ tp_masses (body s') = tp_masses (body s) /\ tp_P (body s') = tp_P (body s).
Proof. intros db s T K W C. rewrite sim_put_T by auto. rewrite set_T_ok by auto. cbn. eexists. split; [reflexivity|]. auto. Qed.
Print Assumptions C63_set_T.
Theorem C63_set_Hfr : forall db s H s', put_Hfr db s H = (s', Ok tt) -> tp_H (body s') = H /\ tp_masses (body s') = tp_masses (body s) /\ tp_P (body s') = tp_P (body s).
Proof. intros db s H s' E. unfold put_Hfr in E. destruct (find_T _ _ _); [|discriminate]. injection E as <-. auto. Qed.
Print Assumptions C63_set_Hfr.
(** Setting Hfr when the heat capacities vary by a factor of at most k (as C44_package). *)
Theorem C63_temperature : forall db s H r rho lo hi a k, regular_material db (material_of s) -> wf (body s) -> not_negative (body s) -> tp_coal (body s) = false -> - (27315 / 100) < lo ->
  heat_capacities db (material_of s) lo hi a k -> 1 <= k <= 2 -> 0 < weigh a (body s) -> enthalpy db (body s) r = H -> lo <= r - rho -> r + rho <= hi ->
  Rabs (tp_T (body s) - r) <= rho -> Rabs (tp_T (body s) + 10 - r) <= rho ->
  exists s', put_Hfr db s H = (s', Ok tt) /\ tp_H (body s') = H /\ tp_masses (body s') = tp_masses (body s) /\
    (Rabs (enthalpy db (body s') (tp_T (body s')) - H) <= (k - 1) * (1 / 100000) \/ Rabs (enthalpy db (body s') (tp_T (body s')) - H) <= (k - 1) ^ 48 * Rabs (enthalpy db (body s) (tp_T (body s) + 10) - H)).
Proof.
  intros db s H r rho lo hi a k Rg W N C Lo Hc Hk Hp Hr Rl Rh T0 T1. rewrite sim_put_Hfr by auto.
  destruct (Properties_ThermoMat.C44_package db (body s) H r rho lo hi a k) as (p' & E & A & B & D); auto. rewrite E. cbn. eexists. split; [reflexivity|]. cbn. auto.
Qed.
Print Assumptions C63_temperature.
Theorem C63_extract : forall db s x, known db (material_of s) -> wf (body s) -> not_negative (body s) -> tp_coal (body s) = false -> consistent db (body s) -> 0 <= x ->
  (0 < mfr s -> x <= mfr s -> exists s' r, sextract db s (SMfr x) = (s', Ok r) /\ consistent db (body r) /\ consistent db (body s') /\ tp_H (body r) + tp_H (body s') = tp_H (body s)) /\
  forall c, In c (tm_compounds (material_of s)) ->
    (exists s' r, sextract db s (SStr c) = (s', Ok r) /\ consistent db (body r) /\ consistent db (body s') /\ tp_H (body r) + tp_H (body s') = tp_H (body s)) /\
    (x <= has (body s) c -> exists s' r, sextract db s (SPair c x) = (s', Ok r) /\ consistent db (body r) /\ consistent db (body s') /\ tp_H (body r) + tp_H (body s') = tp_H (body s)).
Proof.
  intros db s x K W N C Co X. split; [|intros c I; split].
  - intros M L. rewrite <- mfr_mass in M, L by auto. destruct (Properties_ThermoMat.C43_extract_mass db (body s) x K W N C Co) as (p' & r & E & A & B & _ & S); auto. rewrite sim_extract_mfr by auto. rewrite E. unfold lift. cbn. do 2 eexists. split; [reflexivity|]. cbn. auto.
  - destruct (Properties_ThermoMat.C43_extract_compound db (body s) c K W C Co I) as (p' & r & E & A & B & S). cbn [sextract extract] in *. rewrite sim_extract_compound by auto. rewrite E. unfold lift. cbn. do 2 eexists. split; [reflexivity|]. cbn. auto.
  - intros L. destruct (Properties_ThermoMat.C43_extract_pair db (body s) c x K W C Co I L) as (p' & r & E & A & B & S). rewrite sim_extract_pair by auto. rewrite E. unfold lift. cbn. do 2 eexists. split; [reflexivity|]. cbn. auto.
Qed.
Print Assumptions C63_extract.
Theorem C63_extract_material : forall db s m, known db (material_of s) -> known db m -> wf (body s) -> NoDup (tm_compounds m) -> tp_coal (body s) = false -> consistent db (body s) ->
  exists s' r, sextract db s (SMaterial m) = (s', Ok r) /\ material_of r = m /\ tp_T (body r) = tp_T (body s) /\ tp_T (body s') = tp_T (body s) /\
    (forall c, In c (tm_compounds m) -> has (body r) c = has (body s) c /\ has (body s') c = 0) /\ (forall w, weigh w (body r) + weigh w (body s') = weigh w (body s)) /\ tp_H (body r) + tp_H (body s') = tp_H (body s).
Proof.
  intros db s m K Km W N C Co. destruct (Properties_ThermoMat.C40_thermo_material db (body s) m K Km W N C Co) as (p' & r & E & A & B & D & _ & _ & _ & F & G & H). rewrite sim_extract_material by auto. rewrite E. unfold lift. cbn. do 2 eexists. split; [reflexivity|]. cbn. auto 10.
Qed.
Print Assumptions C63_extract_material.
(** clear() empties the stream but keeps its old enthalpy flow rate. *)
Theorem C63_clear_refuted : forall db s, let s' := sclear s in mfr s' = 0 /\ tp_T (body s') = 25 /\ tp_P (body s') = 1 /\ tp_H (body s') = tp_H (body s) /\ (tp_H (body s) <> 0 -> ~ consistent db (body s')).
Proof.
  intros db s s'. assert (Z : rsum (rscale (tp_masses (body s)) 0) = 0) by (rewrite rsum_scale; ring). repeat split; auto. intros N Co. apply N. unfold consistent, s' in Co. cbn in Co. rewrite Co.
  unfold enthalpy, weigh. cbn. rewrite weigh_scale. ring.
Qed.
Print Assumptions C63_clear_refuted.

(** * C65: a stream that is not coal computes what the package with its contents computes *)
Theorem C65_create : forall db m n f P T norm, (forall a, n = Some a -> is_coal m a = Ok false) ->
  create_stream db m n f P T norm = do p <- create_package db m n f P T norm; Ok (mks p None).
Proof. exact sim_create. Qed.
Print Assumptions C65_create.
Theorem C65_add : forall db s o, tp_coal (body s) = false -> tp_coal (body o) = false ->
  (do r <- sadd db s (SStream o); Ok (body r)) = add db (body s) (APackage (body o)).
Proof. intros db s o Cs Co. destruct (sim_add db s o Cs Co) as (d & ->). destruct (add _ _ _); reflexivity. Qed.
Print Assumptions C65_add.
Theorem C65_add_pair : forall db s c x, tp_coal (body s) = false -> (do r <- sadd db s (SPair c x); Ok (body r)) = add db (body s) (APair c x).
Proof. intros db s c x C. cbn [sadd add]. rewrite sim_pair by auto. destruct (add_pair _ _ _ _); reflexivity. Qed.
Print Assumptions C65_add_pair.
Theorem C65_set : forall db s x, tp_coal (body s) = false ->
  (body (fst (put_T db s x)), snd (put_T db s x)) = set_T db (body s) x /\ (body (fst (put_Hfr db s x)), snd (put_Hfr db s x)) = set_H db (body s) x.
Proof. intros db s x C. rewrite sim_put_T, sim_put_Hfr by auto. cbn. now rewrite <- !surjective_pairing. Qed.
Print Assumptions C65_set.
Theorem C65_extract : forall db s, tp_coal (body s) = false -> forall a pa, (exists x, a = SMfr x /\ pa = AMass x) \/ (exists c, a = SStr c /\ pa = AStr c) \/ (exists c x, a = SPair c x /\ pa = APair c x) \/ (exists m, a = SMaterial m /\ pa = AMaterial m) ->
  (body (fst (sextract db s a)), do r <- snd (sextract db s a); Ok (body r)) = extract db (body s) pa.
Proof.
  intros db s C a pa H.
  assert (G : sextract db s a = lift s (extract db (body s) pa)). { destruct H as [(x & -> & ->)|[(c & -> & ->)|[(c & x & -> & ->)|(m & -> & ->)]]]; [apply sim_extract_mfr|apply sim_extract_compound|apply sim_extract_pair|apply sim_extract_material]; auto. }
  rewrite G. unfold lift. cbn. destruct (extract db (body s) pa) as [p [r|e]]; reflexivity.
Qed.
Print Assumptions C65_extract.

(** * Examples: a stream of liquid metals, and of coal *)
Definition metal_stream : stream := mks (Properties_ThermoMat.charge 1 3 700) None.
Example C62_example : wf (body metal_stream) /\ not_negative (body metal_stream) /\ tp_coal (body metal_stream) = false /\ consistent rao (body metal_stream) /\ known rao (material_of metal_stream) /\ mfr metal_stream = 4.
Proof.
  split; [apply Properties_ThermoMat.charge_wf|]. split; [apply Properties_ThermoMat.charge_nonneg; lra|]. split; [reflexivity|]. split; [apply Properties_ThermoMat.charge_consistent|]. split; [apply Properties_ThermoMat.metals_known|]. unfold mfr. cbn. ring.
Qed.
