(** C61, C41, C62: assays and element dictionaries of thermo packages and streams. *)
From Verif Require Import Prelude M_Elements M_Stoichiometry M_Lists M_Thermochem M_ThermoMat M_Streams Spec_Stoich Spec_Thermo Spec_ThermoMat P_Convert P_ThermoApi P_ThermoMat P_Secant P_ThermoMore P_Content.
From Verif Require P_ThermoElem Properties_ThermoMat Properties_Streams.
From Coq Require Import Reals Lra.
Local Open Scope list_scope.
Local Open Scope R_scope.

Lemma rsum_rscale l k : rsum (rscale l k) = k * rsum l.
Proof. unfold rsum, rscale. induction l as [|x l IH]; cbn [map fold_right]; [ring|]. rewrite IH. ring. Qed.
Lemma assay_ok p : get_mass p <> 0 -> get_assay p = Ok (rscale (tp_masses p) (/ get_mass p)).
Proof. intros N. unfold get_assay. rewrite (mapM_ext _ (fun x => Ok (x * / get_mass p))). - apply mapM_Ok. - intros x _. now rewrite ndiv_ok. Qed.
Lemma rscale_rscale l a b : rscale (rscale l a) b = rscale l (a * b).
Proof. unfold rscale. rewrite map_map. apply map_ext. intros x. ring. Qed.
Lemma rscale_1 l : rscale l 1 = l.
Proof. unfold rscale. rewrite <- (map_id l) at 2. apply map_ext. intros x. ring. Qed.

(** The assay of a package with mass sums to one; times the mass it gives the
    compound masses back; entry by entry it is the mass over the total mass. *)
Theorem C61_thermo_assay : forall p, wf p -> mass_of p <> 0 ->
  exists a, get_assay p = Ok a /\ rsum a = 1 /\ rscale a (mass_of p) = tp_masses p /\
    (forall i x, nth_error (tp_masses p) i = Some x -> nth_error a i = Some (x / mass_of p)).
Proof.
  intros p W N. rewrite mass_rsum in * by auto. eexists. split; [now apply assay_ok|]. split; [|split].
  - rewrite rsum_rscale. fold (get_mass p). now apply Rinv_l.
  - rewrite rscale_rscale, Rinv_l, rscale_1; auto.
  - intros i x H. unfold rscale. rewrite nth_error_map, H. reflexivity.
Qed.
Print Assumptions C61_thermo_assay.
(** Without mass there is no assay (numpy gives nan). *)
Theorem C61_thermo_empty : forall p, wf p -> tm_compounds (tp_material p) <> [] -> mass_of p = 0 -> get_assay p = Err NonFinite.
Proof.
  intros p W C Z. rewrite mass_rsum in Z by auto. unfold get_assay. rewrite Z. destruct W as [_ L]. destruct (tp_masses p) as [|x l]; [destruct (tm_compounds (tp_material p)); [congruence|discriminate]|].
  cbn [mapM]. unfold ndiv. destruct (Req_EM_T 0 0); [reflexivity|congruence].
Qed.
Print Assumptions C61_thermo_empty.
(** A package made from an assay has that assay, normalised. *)
Theorem C61_thermo_roundtrip : forall db m n a mass P T p, find_assay m n = Ok a -> length a = length (tm_compounds m) -> NoDup (tm_compounds m) -> rsum a <> 0 -> mass <> 0 ->
  create_package db m (Some n) mass P T true = Ok p -> get_assay p = Ok (rscale a (/ rsum a)) /\ get_mass p = mass.
Proof.
  intros db m n a mass P T p F L N Z M H. unfold create_package, get_assay_total in H. rewrite F in H. cbn [bind] in H. rewrite mapM_ndiv in H by auto. cbn [bind] in H.
  destruct (is_coal m n); cbn [bind] in H; [|discriminate]. destruct (get_HHV m n); cbn [bind] in H; [|discriminate].
  assert (X : tp_masses p = rscale a (mass / rsum a)).
  { unfold new_package in H. match type of H with context [Rlt_dec ?u ?v] => destruct (Rlt_dec u v) end; [match type of H with bind ?d _ = _ => destruct d end; cbn [bind] in H; [|discriminate]|]; injection H as <-; reflexivity. }
  assert (E : get_mass p = mass). { unfold get_mass. rewrite X, rsum_rscale. field. auto. }
  split; auto. rewrite assay_ok by (rewrite E; auto). rewrite X, E, rscale_rscale. do 2 f_equal. field. auto.
Qed.
Print Assumptions C61_thermo_roundtrip.
(** The same for a stream and its flow rates. *)
Theorem C62_assay : forall s, wf (s_body s) -> mass_of (s_body s) <> 0 ->
  exists a, sget_assay s = Ok a /\ rsum a = 1 /\ rscale a (mfr s) = tp_masses (s_body s).
Proof. intros s W N. destruct (C61_thermo_assay (s_body s) W N) as (a & E & S & V & _). exists a. split; auto. split; auto. rewrite mass_rsum in V by auto. exact V. Qed.
Print Assumptions C62_assay.

(** * Dictionaries of elements *)
Lemma combine_map {A B} (f : A -> B) l : combine l (map f l) = map (fun a => (a, f a)) l.
Proof. induction l as [|x l IH]; cbn; congruence. Qed.
(** The dictionary holds every element of the material once, with the mass of the
    element, which is the sum of compound masses times element mass fractions. *)
Theorem C41_thermo_dictionary : forall p (F : string -> formula), wf p -> (forall c, In c (tm_compounds (tp_material p)) -> proper c (F c) /\ has_atoms (F c)) ->
  exists d, get_element_mass_dictionary p = Ok d /\ map fst d = tm_elements (tp_material p) /\
    forall el x, In (el, x) d <-> In el (tm_elements (tp_material p)) /\ x = weigh (fun c => element_share el (F c)) p.
Proof.
  intros p F W H. destruct (Properties_ThermoMat.C41_thermo_element_masses p F W H) as [E _]. unfold get_element_mass_dictionary. rewrite E. cbn [bind]. eexists. split; [reflexivity|].
  rewrite combine_map. split; [rewrite map_map; apply map_id|]. intros el x. rewrite in_map_iff. split.
  - intros (e & [= <- <-] & I). auto.
  - intros [I ->]. exists el. auto.
Qed.
Print Assumptions C41_thermo_dictionary.
Theorem C62_dictionary : forall s (F : string -> formula), wf (s_body s) -> (forall c, In c (tm_compounds (tp_material (s_body s))) -> proper c (F c) /\ has_atoms (F c)) ->
  exists d, get_element_mfr_dictionary s = Ok d /\ map fst d = tm_elements (tp_material (s_body s)) /\
    forall el x, In (el, x) d <-> In el (tm_elements (tp_material (s_body s))) /\ x = weigh (fun c => element_share el (F c)) (s_body s).
Proof. intros s F W H. exact (C41_thermo_dictionary (s_body s) F W H). Qed.
Print Assumptions C62_dictionary.

(** A case: the package of the examples for C40. *)
Example C61_thermo_case : exists a, get_assay (Properties_ThermoMat.charge 1 3 700) = Ok a /\ rsum a = 1.
Proof.
  destruct (C61_thermo_assay (Properties_ThermoMat.charge 1 3 700)) as (a & E & S & _).
  - apply Properties_ThermoMat.charge_wf.
  - rewrite Properties_ThermoMat.charge_mass. lra.
  - eauto.
Qed.
