(** Theorems C38-C41 and C61 for packages of the chem module.
    [add p (APackage o)] is [p + o], [add_to] is [p.add_to(o)]. *)
From Verif Require Import Prelude M_Elements M_Stoichiometry M_Text M_Lists M_Float M_Chem Spec_Stoich Spec_Material Spec_Chem
  P_Loan P_Count P_Convert P_Content P_Float P_Chem.
From Coq Require Import Field.
Local Open Scope string_scope.
Local Open Scope list_scope.
Local Open Scope Z_scope.

Definition q (a : Z) (b : positive) : Qc := Q2Qc (a # b).
Definition fq (a : Z) (b : positive) : M_Chem.num := NFloat (q a b).
(** Two materials used by the examples. *)
Definition ore : material := mkmat 1 ["FeO"; "SiO2"] [("A", [fq 3 10; fq 6 10])] ["Fe"; "O"; "Si"].
Definition mix : material := mkmat 2 ["SiO2"; "Fe2O3"; "FeO"] [] ["Fe"; "O"; "Si"].

Ltac qcs := vm_compute; repeat (apply f_equal2; [apply Qc_is_canon; reflexivity|]); try reflexivity; try (apply Qc_is_canon; reflexivity).

(** * C38 *)
Theorem C38_chem_normalised : forall m n a mass, find_assay n (m_assays m) = Ok a -> Qcsum (map val a) <> 0%Qc ->
  exists p, create_package m (Some n) mass true = Ok p /\ p_material p = m /\ val (get_mass p) = val mass /\
    vals p = scaled (val mass / Qcsum (map val a)) (map val a).
Proof.
  intros m n a mass H N. destruct (create_normalised m n a mass H N) as (p & E & M & V). exists p. repeat split; auto.
  rewrite get_mass_val, V, sum_scaled. field. auto.
Qed.
Print Assumptions C38_chem_normalised.
Theorem C38_chem_not_normalised : forall m n a mass, find_assay n (m_assays m) = Ok a ->
  exists p, create_package m (Some n) mass false = Ok p /\ p_material p = m /\ vals p = scaled (val mass) (map val a).
Proof. exact create_raw. Qed.
Print Assumptions C38_chem_not_normalised.
Theorem C38_chem_zero_total : forall m n a mass, find_assay n (m_assays m) = Ok a -> a <> [] -> Qcsum (map val a) = 0%Qc ->
  create_package m (Some n) mass true = Err ZeroDivisionError.
Proof. exact create_zero. Qed.
Print Assumptions C38_chem_zero_total.
Theorem C38_chem_unknown_assay : forall m n mass norm, (forall a, find_assay n (m_assays m) <> Ok a) -> create_package m (Some n) mass norm = Err KeyError.
Proof.
  intros m n mass norm H. assert (E : find_assay n (m_assays m) = Err KeyError).
  { revert H. generalize (m_assays m). intros l. induction l as [|[k v] l IH]; cbn [find_assay]; auto. destruct (String.eqb k n); auto. intros H. exfalso. now apply (H v). }
  unfold create_package, get_assay_total. rewrite E. destruct norm; reflexivity.
Qed.
Print Assumptions C38_chem_unknown_assay.
Theorem C38_chem_empty : forall m mass norm, exists p, create_package m None mass norm = Ok p /\ p_material p = m /\ wf p /\ val (get_mass p) = 0%Qc /\ forall c, has p c = 0%Qc.
Proof.
  intros m mass norm. eexists. split; [reflexivity|]. split; auto. assert (V : vals (mkpkg m (create_empty_assay m)) = scaled 0 (vals (mkpkg m (create_empty_assay m)))).
  { unfold vals, scaled, create_empty_assay. cbn [p_masses]. generalize (length (m_compounds m)). intros n. induction n as [|n IH]; cbn [repeat map]; auto. rewrite <- IH. f_equal. }
  split; [unfold wf, create_empty_assay; cbn; apply repeat_length|]. split. - rewrite get_mass_val, V, sum_scaled. ring.
  - intros c. unfold has. rewrite V, content_scaled. ring.
Qed.
Print Assumptions C38_chem_empty.
(** Packages made from an assay of the right length are well formed. *)
Theorem C38_chem_component : forall m n a mass p c, find_assay n (m_assays m) = Ok a -> length a = length (m_compounds m) -> Qcsum (map val a) <> 0%Qc ->
  create_package m (Some n) mass true = Ok p -> wf p /\ (has p c * Qcsum (map val a) = val mass * content string_dec (m_compounds m) (map val a) c)%Qc.
Proof.
  intros m n a mass p c H L N E. destruct (create_normalised m n a mass H N) as (p' & E' & M & V). assert (p' = p) by congruence. subst p'. split.
  - unfold wf. rewrite M. apply (f_equal (@length Qc)) in V. unfold vals, scaled in V. rewrite !map_length in V. congruence.
  - unfold has. rewrite M, V, content_scaled. field. auto.
Qed.
Print Assumptions C38_chem_component.
Example C38_chem_example : exists p, create_package ore (Some "A") (fq 9 1) true = Ok p /\ vals p = [q 3 1; q 6 1] /\ Qcsum (map val [fq 3 10; fq 6 10]) <> 0%Qc.
Proof. eexists. split; [vm_compute; reflexivity|]. split; [qcs|]. vm_compute. discriminate. Qed.

(** * C39 *)
Theorem C39_chem_different_materials : forall p o r, m_id (p_material p) <> m_id (p_material o) -> wf p -> wf o -> NoDup (m_compounds (p_material o)) ->
  add p (APackage o) = Ok r ->
  p_material r = p_material p /\ wf r /\ val (get_mass r) = (val (get_mass p) + val (get_mass o))%Qc /\ forall c, has r c = (has p c + has o c)%Qc.
Proof. exact add_different_spec. Qed.
Print Assumptions C39_chem_different_materials.
Theorem C39_chem_succeeds_or_raises : forall p o, m_id (p_material p) <> m_id (p_material o) -> wf p -> wf o -> floats o ->
  (incl (m_compounds (p_material o)) (m_compounds (p_material p)) -> exists r, add p (APackage o) = Ok r) /\
  (forall c, In c (m_compounds (p_material o)) -> ~ In c (m_compounds (p_material p)) -> add p (APackage o) = Err PyException).
Proof. intros p o D Wp Wo F. split; [now apply add_different_total|]. intros c. now apply add_different_missing. Qed.
Print Assumptions C39_chem_succeeds_or_raises.
Theorem C39_chem_compound : forall p c x r, add p (ATuple [VStr c; VNum (NFloat x)]) = Ok r -> wf p ->
  In c (m_compounds (p_material p)) /\ p_material r = p_material p /\ wf r /\ val (get_mass r) = (val (get_mass p) + x)%Qc /\
  forall d, has r d = (has p d + if string_dec c d then x else 0)%Qc.
Proof.
  intros p c x r H W. cbn [add compound_mass_tuple] in H. destruct (add_compound_spec _ _ _ _ H) as (M & W' & S & I & D). rewrite !get_mass_val. repeat split; auto.
Qed.
Print Assumptions C39_chem_compound.
(** [add_to] changes its package to what [+] returns, and raises when [+] does. *)
Theorem C39_chem_add_to : forall p a, (forall r, add p a = Ok r -> add_to p a = (r, Ok tt)) /\ (forall e, add p a = Err e -> snd (add_to p a) = Err e).
Proof. exact add_to_add. Qed.
Print Assumptions C39_chem_add_to.
(** Packages of one material: the total is right, but the second package's
    compound masses are appended, so that no compound mass changes. *)
Theorem C39_chem_same_material_refuted : forall p o, m_id (p_material p) = m_id (p_material o) -> wf p ->
  exists r, add p (APackage o) = Ok r /\ val (get_mass r) = (val (get_mass p) + val (get_mass o))%Qc /\
    length (p_masses r) = (length (p_masses p) + length (p_masses o))%nat /\
    forall c, In c (m_compounds (p_material p)) -> get_compound_mass r c = get_compound_mass p c.
Proof. exact add_same. Qed.
Print Assumptions C39_chem_same_material_refuted.
(** Adding an empty package of another material raises. *)
Theorem C39_chem_empty_refuted : forall p m c cs, m_id (p_material p) <> m_id m -> m_compounds m = c :: cs -> In c (m_compounds (p_material p)) ->
  forall mass norm o, create_package m None mass norm = Ok o -> add p (APackage o) = Err TypeError.
Proof.
  intros p m c cs D E I mass norm o H. cbn [create_package] in H. injection H as <-. eapply add_different_int; eauto. cbn [p_masses]. unfold create_empty_assay. rewrite E. reflexivity.
Qed.
Print Assumptions C39_chem_empty_refuted.
(** A failing [add_to] has already changed the package. *)
Theorem C39_chem_add_to_partial_change_refuted : exists p o p', add_to p (APackage o) = (p', Err PyException) /\ wf p /\ wf o /\ floats p /\ floats o /\
  val (get_mass p') <> val (get_mass p).
Proof.
  exists (mkpkg ore [fq 1 1; fq 2 1]), (mkpkg mix [fq 1 1; fq 1 1; fq 1 1]). eexists. split; [vm_compute; reflexivity|]. split; [reflexivity|]. split; [reflexivity|].
  split; [intros x H; cbn in H; intuition; subst; unfold fq; eauto|]. split; [intros x H; cbn in H; intuition; subst; unfold fq; eauto|]. vm_compute. discriminate.
Qed.
Print Assumptions C39_chem_add_to_partial_change_refuted.
Example C39_chem_example : exists r, add (mkpkg mix [fq 1 1; fq 1 1; fq 1 1]) (APackage (mkpkg ore [fq 3 1; fq 6 1])) = Ok r /\ vals r = [q 7 1; q 1 1; q 4 1] /\ has r "FeO" = q 4 1.
Proof. eexists. split; [vm_compute; reflexivity|]. split; qcs. Qed.

(** * C40 *)
Theorem C40_chem_mass : forall p x, (x <= val (get_mass p))%Qc -> val (get_mass p) <> 0%Qc ->
  exists p' r, extract p (AVal (VNum (NFloat x))) = (p', Ok r) /\ p_material p' = p_material p /\ p_material r = p_material p /\
    plus_lists (vals r) (vals p') = vals p /\ val (get_mass r) = x /\ vals r = scaled (x / val (get_mass p)) (vals p).
Proof.
  intros p x H N. destruct (extract_mass p x H N) as (p' & r & E & M1 & M2 & V1 & V2). exists p', r. repeat split; auto.
  - rewrite V1, V2. apply plus_split. - rewrite get_mass_val, V1, sum_scaled, <- get_mass_val. field. auto.
Qed.
Print Assumptions C40_chem_mass.
Theorem C40_chem_too_much : forall p x, (val (get_mass p) < x)%Qc -> extract p (AVal (VNum (NFloat x))) = (p, Err PyException).
Proof. intros p x H. unfold extract. apply qlt_iff in H. now rewrite H. Qed.
Print Assumptions C40_chem_too_much.
Theorem C40_chem_compound_mass : forall p c x, wf p -> In c (m_compounds (p_material p)) -> NoDup (m_compounds (p_material p)) -> (x <= has p c)%Qc ->
  exists p' r, extract p (ATuple [VStr c; VNum (NFloat x)]) = (p', Ok r) /\ p_material p' = p_material p /\ p_material r = p_material p /\
    plus_lists (vals r) (vals p') = vals p /\ length (vals r) = length (vals p) /\ length (vals p') = length (vals p) /\
    forall d, has r d = if string_dec c d then x else 0%Qc.
Proof. exact extract_component. Qed.
Print Assumptions C40_chem_compound_mass.
Theorem C40_chem_compound_too_much : forall p c x, wf p -> NoDup (m_compounds (p_material p)) -> In c (m_compounds (p_material p)) -> (has p c < x)%Qc ->
  extract p (ATuple [VStr c; VNum (NFloat x)]) = (p, Err PyException).
Proof.
  intros p c x W N I H. unfold extract. cbn [compound_mass_tuple]. destruct (get_compound_mass_ok p c W I) as (y & G & _). pose proof (get_compound_mass_has p c y N G) as Hy.
  unfold get_compound_mass in G. destruct (get_compound_index _ c) as [i|]; cbn [bind] in G; [|discriminate]. rewrite G. rewrite Hy in H. apply qlt_iff in H. now rewrite H.
Qed.
Print Assumptions C40_chem_compound_too_much.
Theorem C40_chem_compound : forall p c, wf p -> In c (m_compounds (p_material p)) -> NoDup (m_compounds (p_material p)) ->
  exists p' r, extract p (AVal (VStr c)) = (p', Ok r) /\ p_material p' = p_material p /\ p_material r = p_material p /\
    plus_lists (vals r) (vals p') = vals p /\ length (vals r) = length (vals p) /\ length (vals p') = length (vals p) /\
    forall d, has r d = if string_dec c d then has p c else 0%Qc.
Proof. exact extract_all. Qed.
Print Assumptions C40_chem_compound.
Theorem C40_chem_unknown : forall p c x, ~ In c (m_compounds (p_material p)) ->
  extract p (AVal (VStr c)) = (p, Err ValueError) /\ extract p (ATuple [VStr c; VNum (NFloat x)]) = (p, Err ValueError).
Proof. intros p c x H. unfold extract, get_compound_index. cbn [compound_mass_tuple]. rewrite (index_absent string_dec) by auto. auto. Qed.
Print Assumptions C40_chem_unknown.
(** A raised exception leaves the package as it was. *)
Theorem C40_chem_atomic : forall p a p' e, extract p a = (p', Err e) -> p' = p.
Proof. exact extract_fails. Qed.
Print Assumptions C40_chem_atomic.
(** Component by component, what is left and what was taken add up. *)
Theorem C40_chem_components : forall p p' r c, p_material p' = p_material p -> p_material r = p_material p -> wf p ->
  length (vals r) = length (vals p) -> length (vals p') = length (vals p) -> plus_lists (vals r) (vals p') = vals p ->
  (has r c + has p' c = has p c)%Qc /\ (val (get_mass r) + val (get_mass p') = val (get_mass p))%Qc.
Proof.
  intros p p' r c M M' W L L' P. unfold has. rewrite M, M', <- P. assert (Lp : length (vals p) = length (m_compounds (p_material p))) by (unfold vals; rewrite map_length; exact W).
  rewrite content_plus by congruence. split; auto. rewrite !get_mass_val, <- P, sum_plus by congruence. reflexivity.
Qed.
Print Assumptions C40_chem_components.
(** Extracting nothing from an empty package raises. *)
Theorem C40_chem_empty_refuted : forall p, val (get_mass p) = 0%Qc -> extract p (AVal (VNum (NFloat 0))) = (p, Err ZeroDivisionError).
Proof. intros p H. unfold extract. rewrite H. reflexivity. Qed.
Print Assumptions C40_chem_empty_refuted.
Example C40_chem_example : exists p' r, extract (mkpkg ore [fq 3 1; fq 6 1]) (AVal (VNum (fq 3 1))) = (p', Ok r) /\ vals r = [q 1 1; q 2 1] /\ vals p' = [q 2 1; q 4 1].
Proof. eexists _, _. split; [vm_compute; reflexivity|]. split; qcs. Qed.

(** * C41 *)
Theorem C41_chem_element_masses_sum : forall p, wf p -> NoDup (m_compounds (p_material p)) -> exact_formulas (p_material p) -> listed (p_material p) ->
  exists ms, get_element_masses p = Ok ms /\ length ms = length (m_elements (p_material p)) /\ Qcsum (map val ms) = val (get_mass p).
Proof.
  intros p W N F L. destruct (element_masses_ok p (m_elements (p_material p)) W N (exact_formulas_formulas _ F)) as (r & E & V). exists r. split; auto. split.
  - apply (f_equal (@length Qc)) in V. now rewrite !map_length in V. - rewrite V, emass_total by auto. now rewrite get_mass_val.
Qed.
Print Assumptions C41_chem_element_masses_sum.
(** Each element mass is the sum over the compounds of the element's share
    ([element_mass el f m]: atoms times atomic mass over molar mass, times m). *)
Theorem C41_chem_element_mass : forall p el (F : string -> formula), wf p -> NoDup (m_compounds (p_material p)) ->
  (forall c, In c (m_compounds (p_material p)) -> proper c (F c) /\ has_atoms (F c)) ->
  exists x, get_element_mass p el = Ok x /\ val x = Qcsum (map (fun c => element_mass el (F c) (has p c)) (m_compounds (p_material p))).
Proof.
  intros p el F W N H. destruct (get_element_mass_ok p el W N) as (x & E & V); [intros c Hc; exists (F c); auto|]. exists x. split; auto. rewrite V. now apply emass_value.
Qed.
Print Assumptions C41_chem_element_mass.
(** The list agrees with the single values, element by element. *)
Theorem C41_chem_list_agrees : forall p ms, wf p -> NoDup (m_compounds (p_material p)) -> formulas (p_material p) -> get_element_masses p = Ok ms ->
  Forall2 (fun el x => exists y, get_element_mass p el = Ok y /\ val y = val x) (m_elements (p_material p)) ms.
Proof.
  intros p ms W N F H. destruct (element_masses_ok p (m_elements (p_material p)) W N F) as (r & E & V). unfold get_element_masses in H. assert (r = ms) by congruence. subst r. clear E H.
  revert ms V. induction (m_elements (p_material p)) as [|el els IH]; intros [|x ms] V; try discriminate; constructor.
  - destruct (get_element_mass_ok p el W N F) as (y & E & Y). exists y. split; auto. cbn [map] in V. congruence.
  - apply IH. cbn [map] in V. congruence.
Qed.
Print Assumptions C41_chem_list_agrees.
Theorem C41_chem_scale : forall p k r el, wf p -> NoDup (m_compounds (p_material p)) -> formulas (p_material p) -> mul p (VNum (NFloat k)) = Ok r ->
  exists x y, get_element_mass p el = Ok x /\ get_element_mass r el = Ok y /\ val y = (k * val x)%Qc.
Proof.
  intros p k r el W N F H. assert (K : (0 <= k)%Qc). { unfold mul in H. destruct (qlt k 0) eqn:Q; [discriminate|]. now apply qlt_false in Q. }
  destruct (mul_ok p k K) as (r' & E & M & V). assert (r' = r) by congruence. subst r'.
  assert (Wr : wf r). { unfold wf. rewrite M. apply (f_equal (@length Qc)) in V. unfold vals, scaled in V. rewrite !map_length in V. rewrite V. exact W. }
  destruct (get_element_mass_ok p el W N F) as (x & Ex & Vx). destruct (get_element_mass_ok r el Wr) as (y & Ey & Vy); rewrite ?M; auto.
  exists x, y. rewrite Vx, Vy. split; auto. split; auto. now apply emass_scale.
Qed.
Print Assumptions C41_chem_scale.
Theorem C41_chem_add : forall p o r el, m_id (p_material p) <> m_id (p_material o) -> wf p -> wf o -> NoDup (m_compounds (p_material p)) -> NoDup (m_compounds (p_material o)) ->
  formulas (p_material p) -> floats o -> add p (APackage o) = Ok r ->
  exists x y z, get_element_mass p el = Ok x /\ get_element_mass o el = Ok y /\ get_element_mass r el = Ok z /\ val z = (val x + val y)%Qc.
Proof.
  intros p o r el D Wp Wo Np No F Fo H. destruct (add_different_spec p o r D Wp Wo No H) as (M & Wr & _ & Hr).
  assert (I : incl (m_compounds (p_material o)) (m_compounds (p_material p))).
  { intros c Hc. destruct (in_dec string_dec c (m_compounds (p_material p))) as [|n]; auto. rewrite (add_different_missing p o c) in H; auto. discriminate. }
  destruct (get_element_mass_ok p el Wp Np F) as (x & Ex & Vx). destruct (get_element_mass_ok o el Wo No) as (y & Ey & Vy); [intros c Hc; apply F; auto|].
  destruct (get_element_mass_ok r el Wr) as (z & Ez & Vz); rewrite ?M; auto. exists x, y, z. rewrite Vx, Vy, Vz. repeat split; auto. now apply emass_add.
Qed.
Print Assumptions C41_chem_add.
Lemma ore_formulas : exact_formulas ore.
Proof.
  intros c H. assert (E : exists f, check c = Some f /\ has_atoms f /\ all_known f /\ gen_compound (text_of c) f); [|destruct E as (f & _ & A & K & G); eauto].
  cbn in H. destruct H as [<-|[<-|[]]]; (destruct (check _) as [f|] eqn:E in |- *; [|vm_compute in E; discriminate]); exists f; (split; [auto|]); pose proof (check_proper _ _ E) as [P K];
  (split; [vm_compute in E; inversion E; subst; exists "O"; vm_compute; reflexivity|]); (split; [exact K|]); apply written_strip in P; exact P.
Qed.
Example C41_chem_example : wf (mkpkg ore [fq 3 1; fq 6 1]) /\ NoDup (m_compounds ore) /\ exact_formulas ore /\ listed ore /\
  exists ms, get_element_masses (mkpkg ore [fq 3 1; fq 6 1]) = Ok ms /\ Qcsum (map val ms) = q 9 1.
Proof.
  split; [reflexivity|]. split; [repeat constructor; cbn; intuition discriminate|]. split; [apply ore_formulas|]. split; [vm_compute; reflexivity|].
  eexists. split; [vm_compute; reflexivity|]. qcs.
Qed.

(** * C61: fractions *)
Theorem C61_chem_assay : forall p, val (get_mass p) <> 0%Qc ->
  exists a, get_assay p = Ok a /\ Qcsum (map val a) = 1%Qc /\ scaled (val (get_mass p)) (map val a) = vals p.
Proof.
  intros p. rewrite get_mass_val. intros N. destruct (get_assay_ok p N) as (r & E & V). exists r. split; auto. rewrite V, sum_scaled. split; [field; auto|].
  unfold scaled. rewrite map_map. apply map_id_in. intros x _. field. auto.
Qed.
Print Assumptions C61_chem_assay.
Theorem C61_chem_fraction : forall p c, wf p -> NoDup (m_compounds (p_material p)) -> In c (m_compounds (p_material p)) -> val (get_mass p) <> 0%Qc ->
  exists x, get_compound_mass_fraction p c = Ok x /\ val x = (has p c / val (get_mass p))%Qc.
Proof.
  intros p c W N I M. destruct (get_compound_mass_ok p c W I) as (y & G & _). unfold get_compound_mass_fraction. rewrite G. cbn [bind]. rewrite ndiv_ok by auto. eexists. split; [reflexivity|].
  cbn [val]. now rewrite (get_compound_mass_has p c y N G).
Qed.
Print Assumptions C61_chem_fraction.
Theorem C61_chem_empty : forall p, p_masses p <> [] -> val (get_mass p) = 0%Qc -> get_assay p = Err ZeroDivisionError.
Proof. intros p N Z. unfold get_assay. unfold get_mass in Z. destruct (p_masses p) as [|x l]; [congruence|]. cbn [mapM]. unfold ndiv at 1, pydiv at 1. rewrite Z. reflexivity. Qed.
Print Assumptions C61_chem_empty.
(** A package from an assay gives the (normalised) assay back. *)
Theorem C61_chem_roundtrip : forall m n a mass p, find_assay n (m_assays m) = Ok a -> Qcsum (map val a) <> 0%Qc -> val mass <> 0%Qc -> create_package m (Some n) mass true = Ok p ->
  exists b, get_assay p = Ok b /\ map val b = scaled (/ Qcsum (map val a)) (map val a).
Proof.
  intros m n a mass p H N M E. destruct (create_normalised m n a mass H N) as (p' & E' & _ & V). assert (p' = p) by congruence. subst p'.
  assert (S : Qcsum (vals p) = val mass) by (rewrite V, sum_scaled; field; auto). destruct (get_assay_ok p) as (r & Er & Vr); [congruence|]. exists r. split; auto. rewrite Vr, S, V. unfold scaled. rewrite map_map. apply map_ext. intros x. field. auto.
Qed.
Print Assumptions C61_chem_roundtrip.
Theorem C61_chem_clear_refuted : forall p, clear p = Err TypeError.
Proof. reflexivity. Qed.
Print Assumptions C61_chem_clear_refuted.
