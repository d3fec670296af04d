(** C60 for whole material files of the four modules; C38 for add_assay; C41 for
    the dictionary of element masses. *)
From Verif Require Import Prelude M_Stoichiometry M_Text M_Float Spec_Stoich Spec_Text Spec_File P_Convert P_File M_Thermochem.
From Verif Require M_Chem M_Psd M_Slurry M_ThermoMat Spec_Chem Properties_Chem P_Chem.
From Coq Require Import Reals.
Local Open Scope string_scope.
Local Open Scope list_scope.

(** * C60 *)
(** A chem file: the first line names the assays; every full line names a
    compound and gives its fraction in every assay; other lines are skipped. *)
Theorem C60_chem_file : forall float_of id header h names lines rows cells,
  says header (h :: names) -> NoDup names -> names <> [] -> Forall2 says lines rows ->
  table_of float_of (fun w => Ok (str_of w)) (length names) rows cells ->
  (forall c, In c (map fst cells) -> exists f, gen_compound (text_of c) f /\ all_known f) ->
  exists m, M_Chem.read_material float_of id (header :: lines) = Ok m /\ M_Chem.m_id m = id /\ M_Chem.m_compounds m = map fst cells /\
    map fst (M_Chem.m_assays m) = map str_of names /\
    (forall j n, nth_error names j = Some n -> M_Chem.find_assay (str_of n) (M_Chem.m_assays m) = Ok (map M_Chem.NFloat (col cells j))) /\
    in_order (M_Chem.m_elements m) /\
    forall s, In s (M_Chem.m_elements m) <-> exists c f, In c (map fst cells) /\ gen_compound (text_of c) f /\ In s (symbols f).
Proof.
  intros f id header h names lines rows cells H N NE F T C. destruct (element_list_defined _ C) as [els E].
  destruct (chem_file f id header h names lines rows cells els H N NE F T E) as (m & A & B & D & G & I & J). exists m. destruct (element_list _ _ E) as (K1 & K2 & K3). subst els. auto 10.
Qed.
Print Assumptions C60_chem_file.
(** A psd file: size classes instead of compounds. *)
Theorem C60_psd_file : forall float_of id header h names lines rows cells,
  says header (h :: names) -> NoDup names -> names <> [] -> Forall2 says lines rows -> table_of float_of float_of (length names) rows cells ->
  exists m, M_Psd.read_material float_of id (header :: lines) = Ok m /\ M_Psd.ps_id m = id /\ M_Psd.ps_classes m = map fst cells /\
    map fst (M_Psd.ps_assays m) = map str_of names /\
    forall j n, nth_error names j = Some n -> M_Psd.find_assay (str_of n) (M_Psd.ps_assays m) = Ok (map Fin (col cells j)).
Proof. exact psd_file. Qed.
Print Assumptions C60_psd_file.
(** A slurry file: two more lines give the density of the solids and the water
    content of every assay. *)
Theorem C60_slurry_file : forall float_of id header h names l1 dw ds l2 hw hs lines rows cells,
  says header (h :: names) -> NoDup names -> names <> [] ->
  says l1 (text_of "solid_density" :: dw) -> numbers_of float_of (length names) dw ds ->
  says l2 (text_of "H2O" :: hw) -> numbers_of float_of (length names) hw hs ->
  Forall2 says lines rows -> table_of float_of float_of (length names) rows cells ->
  exists m, M_Slurry.read_material float_of id (header :: l1 :: l2 :: lines) = Ok m /\ M_Slurry.sl_id m = id /\ M_Slurry.sl_classes m = map fst cells /\
    map fst (M_Slurry.sl_assays m) = map str_of names /\
    forall j n, nth_error names j = Some n -> M_Slurry.find_assay (str_of n) (M_Slurry.sl_assays m) = Ok (map Fin (col cells j)) /\
      M_Slurry.ndict_get (M_Slurry.sl_densities m) (str_of n) = Ok (Fin (nth j ds 0%Qc)) /\ M_Slurry.ndict_get (M_Slurry.sl_water m) (str_of n) = Ok (Fin (nth j hs 0%Qc)).
Proof. exact slurry_file. Qed.
Print Assumptions C60_slurry_file.
(** The two lines must be there, in this order. *)
Theorem C60_slurry_keywords : forall float_of id header h names l1 w1 ws1 l2 w2 ws2 ds lines,
  says header (h :: names) -> NoDup names -> says l1 (w1 :: ws1) -> says l2 (w2 :: ws2) -> numbers_of float_of (length names) ws1 ds ->
  w1 <> text_of "solid_density" \/ w2 <> text_of "H2O" ->
  M_Slurry.read_material float_of id (header :: l1 :: l2 :: lines) = Err PyException.
Proof.
  intros f id header h names l1 w1 ws1 l2 w2 ws2 ds lines H N S1 S2 D W. unfold M_Slurry.read_material. cbn [prepare_lines map]. rewrite (says_names _ _ _ H). rewrite !init_dict by auto.
  destruct (list_eq_dec ascii_dec w1 (text_of "solid_density")) as [->|W1].
  - rewrite (read_line_ok f "solid_density" names l1 ws1 ds 1%Qc N S1 D). cbn [bind]. destruct W as [W|W]; [congruence|]. now rewrite (read_line_wrong f "H2O" names l2 w2 ws2).
  - now rewrite (read_line_wrong f "solid_density" names l1 w1 ws1).
Qed.
Print Assumptions C60_slurry_keywords.
(** A file that ends before them cannot be read. *)
Theorem C60_slurry_short : forall float_of id header h names l1 ws1 ds, says header (h :: names) -> NoDup names -> says l1 (text_of "solid_density" :: ws1) -> numbers_of float_of (length names) ws1 ds ->
  M_Slurry.read_material float_of id [] = Err IndexError /\ M_Slurry.read_material float_of id [header] = Err IndexError /\ M_Slurry.read_material float_of id [header; l1] = Err IndexError.
Proof.
  intros f id header h names l1 ws1 ds H N S1 D. split; [reflexivity|]. split; [reflexivity|]. unfold M_Slurry.read_material. cbn [prepare_lines map]. rewrite (says_names _ _ _ H). rewrite !init_dict by auto.
  rewrite (read_line_ok f "solid_density" names l1 ws1 ds 1%Qc N S1 D). reflexivity.
Qed.
Print Assumptions C60_slurry_short.
(** A thermo file: as a chem file; after a line that starts with "#" come custom
    properties, one per line, with a value for every assay. *)
Theorem C60_thermo_file : forall float_of id header h names lines rows cells tail pws ps,
  says header (h :: names) -> NoDup names -> names <> [] ->
  Forall2 says lines rows -> Forall (fun ws => match ws with w :: _ => ~ hashed w | [] => True end) rows ->
  table_of float_of (fun w => Ok (str_of w)) (length names) rows cells ->
  (tail = [] /\ ps = [] \/ exists hl w ws plines, tail = hl :: plines /\ says hl (w :: ws) /\ hashed w /\
     Forall2 says plines pws /\ Forall2 (property_line float_of (length names)) pws ps) -> NoDup (map fst ps) ->
  (forall c, In c (map fst cells) -> exists f, gen_compound (text_of c) f /\ all_known f) ->
  exists m, M_ThermoMat.read_material float_of id (header :: lines ++ tail) = Ok m /\ M_ThermoMat.tm_id m = id /\ M_ThermoMat.tm_compounds m = map fst cells /\
    map fst (M_ThermoMat.tm_assays m) = map str_of names /\ (forall p, In p (M_ThermoMat.tm_properties m) <-> In p (map (fun x => str_of (fst x)) ps)) /\
    (forall j n, nth_error names j = Some n -> M_ThermoMat.find_assay m (str_of n) = Ok (map (fun x => Q2R (this x)) (col cells j)) /\ M_ThermoMat.custom_of m (str_of n) = Ok (cdict ps j)) /\
    in_order (M_ThermoMat.tm_elements m) /\
    forall s, In s (M_ThermoMat.tm_elements m) <-> exists c f, In c (map fst cells) /\ gen_compound (text_of c) f /\ In s (symbols f).
Proof.
  intros f id header h names lines rows cells tail pws ps H N NE F NH T TL D C. destruct (element_list_defined _ C) as [els E].
  destruct (thermo_file f id header h names lines rows cells els tail pws ps H N NE F NH T TL D E) as (m & A1 & A2 & A3 & A4 & A5 & A6 & A7).
  exists m. destruct (element_list _ _ E) as (K1 & K2 & K3). subst els. split; auto. split; auto. split; auto. split; auto. split; auto.
  intros p. rewrite A6. destruct names as [|n names]; [congruence|]. clear. induction ps as [|x ps IH]; cbn [map concat]; [tauto|]. rewrite in_app_iff, IH. cbn [length repeat In].
  split; [|tauto]. intros [[->|I]|I]; auto. left. symmetry. now apply repeat_spec in I.
Qed.
Print Assumptions C60_thermo_file.
(** Blank lines are skipped only before the "#": after it, the first of them makes the file unreadable. *)
Theorem C60_thermo_blank_property : forall float_of id header h names lines rows cells hl w ws plines pws ps blank more,
  says header (h :: names) -> NoDup names -> names <> [] ->
  Forall2 says lines rows -> Forall (fun ws => match ws with w :: _ => ~ hashed w | [] => True end) rows ->
  table_of float_of (fun w => Ok (str_of w)) (length names) rows cells ->
  says hl (w :: ws) -> hashed w -> Forall2 says plines pws -> Forall2 (property_line float_of (length names)) pws ps -> NoDup (map fst ps) -> says blank [] ->
  M_ThermoMat.read_material float_of id (header :: lines ++ hl :: plines ++ blank :: more) = Err IndexError.
Proof.
  intros f id header h names lines rows cells hl w ws plines pws ps blank more H N NE F NH T SH HW FP GP D B. unfold M_ThermoMat.read_material, prepare_lines. cbn [map]. rewrite (says_names _ _ _ H).
  rewrite (split_hash_says lines rows (hl :: plines ++ blank :: more) F NH). 2:{ right. do 4 eexists. eauto. }
  cbn [fst snd tl]. rewrite (rows_exact f (fun w => Ok (str_of w)) names (map prepared lines) cells N). 2:{ rewrite map_map. eapply table_lines; eauto. destruct names; [congruence|cbn; lia]. }
  cbn [bind fst snd]. rewrite empty_len by auto. pose proof (custom_init f names N names [] eq_refl) as CI. cbn [length map] in CI. rewrite CI. clear CI. cbn [bind]. rewrite entry_init.
  rewrite map_app. cbn [map]. assert (FA : forall {A S} (g : S -> A -> res S) l1 l2 s, foldM g (l1 ++ l2) s = do s' <- foldM g l1 s; foldM g l2 s').
  { intros A S g l1. induction l1 as [|a l IH]; intros l2 s; cbn [app foldM bind]; auto. destruct (g s a); cbn [bind]; auto. }
  rewrite FA. rewrite (properties_fold f names plines N pws ps [] [] FP GP D). cbn [bind foldM]. now rewrite (blank_property f names blank).
Qed.
Print Assumptions C60_thermo_blank_property.

(** Cases. *)
Ltac words_of := match goal with |- says ?t ?ws => exists (strip t); split; [apply P_Text.strip_core|] end.
Lemma says_by t ws : P_Text.words (strip t) = ws -> says t ws.
Proof. intros <-. exists (strip t). split; [apply P_Text.strip_core|apply P_Text.words_ok]. Qed.
Definition digit_float (t : text) : res Qc := match t with [c] => if is_digit c then Ok (Q2Qc ((code c - 48) # 1)) else Err ValueError | _ => Err ValueError end.
Definition w (s : string) : text := text_of s.
Definition one_to (k : Z) : Qc := Q2Qc (k # 1).
Ltac says_tac := apply says_by; vm_compute; reflexivity.
Ltac table_tac := repeat first [apply to_nil | apply to_short; [cbn; lia|] | eapply to_full; [cbn; lia|vm_compute; reflexivity|repeat (constructor; [vm_compute; reflexivity|]); constructor|]].
Example C60_slurry_case : exists m, M_Slurry.read_material digit_float 7 [w "SizeClass A	B"; w " solid_density 3 4"; w "H2O  1 2 "; w "9 5 6"; w ""; w "8 7 8"] = Ok m /\
  M_Slurry.sl_classes m = [one_to 9; one_to 8] /\ M_Slurry.find_assay "B" (M_Slurry.sl_assays m) = Ok [Fin (one_to 6); Fin (one_to 8)] /\
  M_Slurry.ndict_get (M_Slurry.sl_densities m) "B" = Ok (Fin (one_to 4)) /\ M_Slurry.ndict_get (M_Slurry.sl_water m) "A" = Ok (Fin (one_to 1)).
Proof.
  destruct (C60_slurry_file digit_float 7 (w "SizeClass A	B") (w "SizeClass") [w "A"; w "B"] (w " solid_density 3 4") [w "3"; w "4"] [one_to 3; one_to 4] (w "H2O  1 2 ") [w "1"; w "2"] [one_to 1; one_to 2]
    [w "9 5 6"; w ""; w "8 7 8"] [[w "9"; w "5"; w "6"]; []; [w "8"; w "7"; w "8"]] [(one_to 9, [one_to 5; one_to 6]); (one_to 8, [one_to 7; one_to 8])]) as (m & A & B & D & E & F).
  - says_tac. - repeat constructor; cbn; intuition discriminate. - discriminate. - says_tac. - split; [cbn; lia|]. repeat constructor. - says_tac. - split; [cbn; lia|]. repeat constructor.
  - repeat (constructor; [says_tac|]). constructor.
  - table_tac.
  - exists m. split; auto. split; auto. destruct (F 1%nat (w "B") eq_refl) as (F1 & F2 & _). destruct (F 0%nat (w "A") eq_refl) as (_ & _ & F3). split; [exact F1|]. split; [exact F2|exact F3].
Qed.
Example C60_thermo_case : exists m, M_ThermoMat.read_material digit_float 7 [w "Compound A B"; w "FeO 5 6"; w "# properties"; w "IsCoal 0 1"] = Ok m /\
  M_ThermoMat.tm_compounds m = ["FeO"] /\ M_ThermoMat.tm_elements m = ["Fe"; "O"] /\ M_ThermoMat.find_assay m "B" = Ok [Q2R (this (one_to 6))] /\ M_ThermoMat.custom_of m "B" = Ok [("IsCoal", Q2R (this (one_to 1)))].
Proof. eexists. split; [vm_compute; reflexivity|]. repeat split; reflexivity. Qed.
Example C60_thermo_blank_case : M_ThermoMat.read_material digit_float 7 [w "Compound A B"; w "FeO 5 6"; w "# properties"; w "IsCoal 0 1"; w ""] = Err IndexError.
Proof. vm_compute. reflexivity. Qed.

(** * C38: adding an assay to a chem material *)
Theorem C38_chem_add_assay : forall m n a, length a = length (M_Chem.m_compounds m) -> M_Chem.find_assay n (M_Chem.m_assays m) = Err KeyError ->
  exists m', M_Chem.add_assay m n a = Ok m' /\ M_Chem.find_assay n (M_Chem.m_assays m') = Ok a /\ (forall k, k <> n -> M_Chem.find_assay k (M_Chem.m_assays m') = M_Chem.find_assay k (M_Chem.m_assays m)) /\
    M_Chem.m_compounds m' = M_Chem.m_compounds m /\ M_Chem.m_elements m' = M_Chem.m_elements m /\ M_Chem.m_id m' = M_Chem.m_id m.
Proof.
  intros m n a L F. unfold M_Chem.add_assay. rewrite (proj2 (Nat.eqb_eq _ _) L). cbn [negb].
  assert (X : existsb (fun kv => String.eqb (fst kv) n) (M_Chem.m_assays m) = false).
  { clear L. induction (M_Chem.m_assays m) as [|[k v] l IH]; auto. cbn [M_Chem.find_assay existsb fst] in *. destruct (String.eqb k n); [discriminate|]. auto. }
  rewrite X. eexists. split; [reflexivity|]. cbn [M_Chem.m_assays M_Chem.m_compounds M_Chem.m_elements M_Chem.m_id]. repeat split.
  - clear L. induction (M_Chem.m_assays m) as [|[k v] l IH]; cbn [app M_Chem.find_assay] in *; [now rewrite String.eqb_refl|]. destruct (String.eqb k n) eqn:E; [cbn [existsb fst] in X; rewrite E in X; discriminate|]. apply IH; auto. cbn [existsb fst] in X. now rewrite E in X.
  - intros k K. clear - K. induction (M_Chem.m_assays m) as [|[k' v] l IH]; cbn [app M_Chem.find_assay]. + destruct (String.eqb n k) eqn:E; auto. apply String.eqb_eq in E. congruence. + now rewrite IH.
Qed.
Print Assumptions C38_chem_add_assay.
Theorem C38_chem_add_assay_rejects : forall m n a, length a <> length (M_Chem.m_compounds m) \/ (exists b, M_Chem.find_assay n (M_Chem.m_assays m) = Ok b) -> M_Chem.add_assay m n a = Err PyException.
Proof.
  intros m n a H. unfold M_Chem.add_assay. destruct (length a =? length (M_Chem.m_compounds m))%nat eqn:E; cbn [negb]; auto. apply Nat.eqb_eq in E. destruct H as [H|[b H]]; [congruence|].
  assert (X : existsb (fun kv => String.eqb (fst kv) n) (M_Chem.m_assays m) = true).
  { clear E. induction (M_Chem.m_assays m) as [|[k v] l IH]; [discriminate|]. cbn [M_Chem.find_assay existsb fst] in *. destruct (String.eqb k n); auto. }
  now rewrite X.
Qed.
Print Assumptions C38_chem_add_assay_rejects.

(** * C41: the dictionary of element masses *)
(** It has every element of the material, with the mass that get_element_mass
    gives for it. *)
Theorem C41_chem_dictionary : forall p, Spec_Chem.wf p -> NoDup (M_Chem.m_compounds (M_Chem.p_material p)) -> Spec_Chem.formulas (M_Chem.p_material p) -> NoDup (M_Chem.m_elements (M_Chem.p_material p)) ->
  exists d, M_Chem.get_element_mass_dictionary p = Ok d /\ map fst d = M_Chem.m_elements (M_Chem.p_material p) /\
    forall el x, In (el, x) d -> exists y, M_Chem.get_element_mass p el = Ok y /\ M_Chem.val y = M_Chem.val x.
Proof.
  intros p W N F NE. destruct (P_Chem.element_masses_ok p (M_Chem.m_elements (M_Chem.p_material p)) W N F) as (ms & E & _).
  pose proof (Properties_Chem.C41_chem_list_agrees p ms W N F E) as A. unfold M_Chem.get_element_mass_dictionary. change (M_Chem.get_element_masses p) with (M_Chem.element_masses p (M_Chem.m_elements (M_Chem.p_material p))). rewrite E. cbn [bind]. clear E.
  assert (G : forall (l pre : list (string * M_Chem.num)), NoDup (map fst (pre ++ l)) -> fold_left M_Chem.dict_put l pre = pre ++ l).
  { induction l as [|kv l IH]; intros pre P; cbn [fold_left]; [now rewrite app_nil_r|]. unfold M_Chem.dict_put at 2. replace (existsb _ pre) with false.
    - rewrite IH; rewrite <- app_assoc; auto.
    - symmetry. apply not_true_is_false. intros X. apply existsb_exists in X. destruct X as (e & I & X). apply String.eqb_eq in X. rewrite map_app in P. cbn [map] in P. apply NoDup_remove_2 in P. apply P. apply in_or_app. left. rewrite <- X. now apply in_map. }
  assert (K : forall els (l : list M_Chem.num), Forall2 (fun el x => exists y, M_Chem.get_element_mass p el = Ok y /\ M_Chem.val y = M_Chem.val x) els l -> map fst (combine els l) = els /\
     forall el x, In (el, x) (combine els l) -> exists y, M_Chem.get_element_mass p el = Ok y /\ M_Chem.val y = M_Chem.val x).
  { induction 1 as [|el x els l H H' [I1 I2]]; cbn [combine map fst]; [split; [auto|intros ? ? []]|]. split; [now rewrite I1|]. intros e z [X|X]; [injection X as <- <-; auto|auto]. }
  destruct (K _ _ A) as [K1 K2]. exists (combine (M_Chem.m_elements (M_Chem.p_material p)) ms). rewrite G by (cbn [app]; now rewrite K1). auto.
Qed.
Print Assumptions C41_chem_dictionary.
