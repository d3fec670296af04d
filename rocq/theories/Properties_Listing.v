(** C92: the listing of the loaded compounds. *)
From Verif Require Import M_Csv M_Factsage M_JsonFiles.
From Verif Require Import Prelude M_Elements M_Stoichiometry M_Thermochem M_Data M_Data_Rao M_Data_Nist M_Listing Spec_File Spec_Print Spec_Thermo Spec_Listing P_File P_Convert P_Thermo P_ThermoApi P_Magnetic P_Data P_Print P_Listing Properties_Thermo.
From Coq Require Import Reals Lra Permutation.
Local Open Scope string_scope.
Local Open Scope list_scope.

(** The listing has one line for each compound, in order, with the phases it
    has, in order. *)
Theorem C92_listing : forall db, dictionaries db -> plain_names db ->
  exists t cs, list_compounds db = Ok t /\ in_order cs /\ (forall fo, In fo cs <-> exists c, lookup fo db = Some c) /\ listing db cs t.
Proof.
  intros db D P. destruct (listing_ok db D (plain_one_line db P)) as (t & E & L). exists t, (M_Chem.sorted (map fst db)). split; auto. split; [apply sorted_increasing, D|]. split; auto.
  intros fo. rewrite sorted_in. apply lookup_keys.
Qed.
Print Assumptions C92_listing.

(** From the text alone one can tell which phases of which compounds are loaded. *)
Theorem C92_tells : forall db, dictionaries db -> plain_names db -> exists t, list_compounds db = Ok t /\ forall fo ph, mentions t fo ph <-> loaded db fo ph.
Proof.
  intros db D P. destruct (C92_listing db D P) as (t & cs & E & O & K & ls & L & F). exists t. split; auto. intros fo ph. split.
  - intros (ls' & phs & l & L' & I & N & T & J). rewrite (lines_unique _ _ _ L' L) in I. cbn [tl] in I.
    assert (G : exists fo' phs', In fo' cs /\ tells_compound fo' phs' l /\ forall x, In x phs' <-> loaded db fo' x).
    { clear -F I. induction F as [|fo' l' cs ls (phs' & H1 & H2 & H3) F IH]; [destruct I|]. destruct I as [->|I]; [exists fo', phs'; cbn; auto|]. destruct (IH I) as (fo1 & phs1 & H). exists fo1, phs1. cbn [In]. tauto. }
    destruct G as (fo' & phs' & I' & T' & S). apply K in I'. destruct I' as [c C]. destruct (P fo' c C) as [P1 P2].
    assert (N' : Forall plain_name (fo' :: phs')). { constructor; auto. apply Forall_forall. intros x X. apply S in X. destruct X as (c' & p & C' & X). apply P2. apply lookup_keys. rewrite C in C'. injection C' as <-. eauto. }
    destruct (tells_unique _ _ _ _ _ N N' T T') as [-> ->]. now apply S.
  - intros Ld. pose proof Ld as (c & p & C & X). destruct (P fo c C) as [P1 P2].
    assert (I : In fo cs) by (apply K; eauto).
    assert (G : exists phs l, In l ls /\ tells_compound fo phs l /\ forall x, In x phs <-> loaded db fo x).
    { clear -F I. induction F as [|fo' l' cs ls (phs' & H1 & H2 & H3) F IH]; [destruct I|]. destruct I as [->|I]; [exists phs', l'; cbn; auto|]. destruct (IH I) as (phs1 & l1 & H). exists phs1, l1. cbn [In]. tauto. }
    destruct G as (phs & l & I' & T & S). exists (text_of "Compounds currently loaded:" :: ls), phs, l. split; auto. split; auto. split; [|split; auto; now apply S].
    constructor; auto. apply Forall_forall. intros x Y. apply S in Y. destruct Y as (c' & p' & C' & Y). apply P2. apply lookup_keys. rewrite C in C'. injection C' as <-. eauto.
Qed.

Print Assumptions C92_tells.
(** The order in which files were loaded, and the data in them, do not show. *)
Theorem C92_order : forall db db', dictionaries db -> dictionaries db' ->
  (forall fo, (exists c, lookup fo db = Some c) <-> exists c, lookup fo db' = Some c) -> (forall fo ph, loaded db fo ph <-> loaded db' fo ph) ->
  list_compounds db = list_compounds db'.
Proof.
  intros db db' [N D] [N' D'] K L. unfold list_compounds. assert (E : M_Chem.sorted (map fst db) = M_Chem.sorted (map fst db')). { apply sorted_same; auto. intros x. rewrite !lookup_keys. apply K. }
  rewrite E. assert (F : forall fo, compound_line db fo = compound_line db' fo).
  { intros fo. unfold compound_line. pose proof (K fo) as Kf. destruct (lookup fo db) as [c|] eqn:C, (lookup fo db') as [c'|] eqn:C'; auto.
    - assert (G : get_phase_list c = get_phase_list c'); [|now rewrite G]. apply sorted_same; eauto. intros x. rewrite !lookup_keys. pose proof (L fo x) as Lx. unfold loaded in Lx. rewrite C, C' in Lx. split.
      + intros [p X]. destruct (proj1 Lx) as (c1 & p1 & [= <-] & Y); eauto.
      + intros [p X]. destruct (proj2 Lx) as (c1 & p1 & [= <-] & Y); eauto.
    - destruct (proj1 Kf) as [x X]; [eauto|discriminate].
    - destruct (proj2 Kf) as [x X]; [eauto|discriminate]. }
  assert (G : forall l, mapM (compound_line db) l = mapM (compound_line db') l); [|now rewrite G]. induction l as [|x l IH]; cbn [mapM]; auto. now rewrite F, IH.
Qed.
Print Assumptions C92_order.
(** With nothing loaded only the heading is printed. *)
Theorem C92_nothing : list_compounds [] = Ok (text_of "Compounds currently loaded:" ++ ["010"%char]).
Proof. reflexivity. Qed.
Print Assumptions C92_nothing.

(** What is listed is what the module functions accept: for a database of
    contiguous phases with molar masses that are not zero, "formula[phase]" is
    listed exactly when the function gives a value at every temperature above
    absolute zero; otherwise it raises at every temperature. *)
Theorem C92_accepted : forall db, dictionaries db -> plain_names db ->
  (forall fo c ph p, lookup fo db = Some c -> lookup ph (tc_phases c) = Some p -> tc_molar_mass c <> 0%R /\ regular p) ->
  exists t, list_compounds db = Ok t /\
  forall f g, is_thermo_function f g -> forall fo ph mass, no_bracket fo -> no_bracket ph ->
    (mentions t (str_of fo) (str_of ph) -> forall T, (-27315 / 100 < T)%R -> exists v, f db (str_of (fo ++ text_of "[" ++ ph ++ text_of "]")) T mass = Ok v) /\
    (~ mentions t (str_of fo) (str_of ph) -> forall T, f db (str_of (fo ++ text_of "[" ++ ph ++ text_of "]")) T mass = Err KeyError \/ f db (str_of (fo ++ text_of "[" ++ ph ++ text_of "]")) T mass = Err PyException).
Proof.
  intros db D P Rg. destruct (C92_tells db D P) as (t & E & M). exists t. split; auto. intros f g F fo ph mass B1 B2. rewrite M. split.
  - intros (c & p & C & Hp) T HT. destruct (Rg _ _ _ _ C Hp) as [N R].
    assert (G : exists v, g p (T + 273.15)%R = Ok v).
    { assert (H : (0 < T + 273.15)%R) by lra. destruct (regular_G p _ R H) as (h & s & E1 & E2 & E3). destruct F as [[_ ->]|[[_ ->]|[[_ ->]|[_ ->]]]]; eauto.
      destruct (regular_Cp p R) as (rl & _ & _ & E4). eauto. }
    destruct G as [v G]. eexists. eapply C36_value; eauto.
  - intros NL T. destruct (lookup (str_of fo) db) as [c|] eqn:C.
    + right. eapply C36_unknown_phase; eauto. destruct (lookup (str_of ph) (tc_phases c)) as [p|] eqn:X; auto. exfalso. apply NL. exists c, p. auto.
    + left. eapply C36_unknown_compound; eauto.
Qed.
Print Assumptions C92_accepted.

(** * The shipped database *)
Definition plain_check (n : string) : bool :=
  negb (String.eqb n "") && forallb (fun c => negb (existsb (Ascii.eqb c) [","; ":"; "010"; "013"; "["; "]"]%char)) (text_of n).
Lemma plain_check_ok n : plain_check n = true -> plain_name n /\ no_bracket (text_of n).
Proof.
  intros H. apply andb_true_iff in H. destruct H as [H1 H2]. rewrite forallb_forall in H2.
  assert (G : forall c, In c (text_of n) -> ~ In c [","; ":"; "010"; "013"; "["; "]"]%char).
  { intros c I J. specialize (H2 c I). apply negb_true_iff in H2. rewrite <- not_true_iff_false in H2. apply H2. apply existsb_exists. exists c. split; auto. apply Ascii.eqb_refl. }
  split; [split|split].
  - intros ->. discriminate.
  - intros c I. pose proof (G c I) as N. cbn [In] in N. split; [|split; [|split]]; intros ->; apply N; tauto.
  - intros I. apply G in I. apply I. cbn [In]. tauto.
  - intros I. apply G in I. apply I. cbn [In]. tauto.
Qed.
Definition names_check (l : list qcompound) : bool :=
  nodup_strings (map qc_formula l) && forallb (fun c => plain_check (qc_formula c) && nodup_strings (map fst (qc_phases c)) && forallb (fun np => plain_check (fst np)) (qc_phases c)) l.
Lemma names_check_ok l : names_check l = true -> dictionaries (load_data l) /\ plain_names (load_data l) /\
  forall fo ph, loaded (load_data l) fo ph -> no_bracket (text_of fo) /\ no_bracket (text_of ph).
Proof.
  intros H. apply andb_true_iff in H. destruct H as [H1 H2]. rewrite forallb_forall in H2.
  assert (G : forall fo c, lookup fo (load_data l) = Some c -> (plain_name fo /\ no_bracket (text_of fo)) /\ NoDup (map fst (tc_phases c)) /\ forall ph, In ph (map fst (tc_phases c)) -> plain_name ph /\ no_bracket (text_of ph)).
  { intros fo c L. apply lookup_load in L. destruct L as (q & I & <- & ->). specialize (H2 q I). apply andb_true_iff in H2. destruct H2 as [H2 H3]. apply andb_true_iff in H2. destruct H2 as [H2 H4].
    split; [now apply plain_check_ok|]. cbn [tc_phases read_compound]. rewrite map_map. cbn [fst]. split; [now apply NoDup_strings|]. intros ph J. apply in_map_iff in J. destruct J as (np & <- & J). rewrite forallb_forall in H3. apply plain_check_ok. now apply H3. }
  split; [split|split].
  - unfold load_data. rewrite map_map. now apply NoDup_strings.
  - intros fo c L. now apply G in L.
  - intros fo c L. destruct (G fo c L) as ((P & _) & _ & Q). split; auto. intros ph I. now apply Q.
  - intros fo ph (c & p & L & X). destruct (G fo c L) as ((_ & P) & _ & Q). split; auto. apply Q. apply lookup_keys. eauto.
Qed.
Lemma rao_names : names_check rao_data = true. Proof. vm_compute. reflexivity. Qed.
Lemma nist_names : names_check nist_data = true. Proof. vm_compute. reflexivity. Qed.

(** The listing of the shipped default database: everything it lists, and
    nothing else, has a heat capacity, enthalpy, entropy and Gibbs energy at every
    temperature above absolute zero. *)
Theorem C92_shipped : exists t ls, list_compounds rao = Ok t /\ lines_are t ls /\ length ls = 82%nat /\
  (forall fo ph, mentions t fo ph <-> loaded rao fo ph) /\
  forall f g, is_thermo_function f g -> forall fo ph mass,
    mentions t fo ph -> forall T, (-27315 / 100 < T)%R -> exists v, f rao (str_of (text_of fo ++ text_of "[" ++ text_of ph ++ text_of "]")) T mass = Ok v.
Proof.
  destruct (names_check_ok _ rao_names) as (D & P & B). change (load_data rao_data) with rao in *.
  destruct (C92_listing rao D P) as (t & cs & E & O & K & ls & L & F). destruct (C92_tells rao D P) as (t1 & E1 & M). rewrite E in E1. injection E1 as <-.
  destruct (C92_accepted rao D P) as (t2 & E2 & A).
  { intros fo c ph p C Q. split; [|eapply rao_regular; split; eauto]. destruct (C58_molar_masses fo c C) as [H _]. lra. }
  rewrite E in E2. injection E2 as <-. exists t, (text_of "Compounds currently loaded:" :: ls). split; auto. split; auto. split; [|split; auto].
  - cbn [length]. f_equal. destruct C58_formulas as (N & N81 & _). assert (X : length cs = length ls) by (clear -F; induction F; cbn [length]; auto). rewrite <- X. rewrite <- N81, <- (map_length fst rao). apply Permutation_length. symmetry. apply NoDup_Permutation; auto.
    + clear -O. induction cs as [|x cs IH]; constructor; [|apply IH; eapply order_tail; eauto]. intros I. apply (order_head _ _ O) in I. rewrite ltb_irrefl in I. discriminate.
    + intros x. rewrite lookup_keys. symmetry. apply K.
  - intros f g Fg fo ph mass Mn T HT. pose proof (proj1 (M fo ph) Mn) as Ld. destruct (B fo ph Ld) as [B1 B2].
    apply (A f g Fg (text_of fo) (text_of ph) mass B1 B2); auto. now rewrite !text_str.
Qed.
Print Assumptions C92_shipped.

(** The other data set: the listing tells its phases too. *)
Theorem C92_shipped_nist : exists t, list_compounds nist = Ok t /\ forall fo ph, mentions t fo ph <-> loaded nist fo ph.
Proof. destruct (names_check_ok _ nist_names) as (D & P & _). exact (C92_tells nist D P). Qed.
Print Assumptions C92_shipped_nist.

(** * Loading *)
(** The two functions that load data files, what they make of a file, and the
    extension of their files. *)
Definition is_loader (load : option (list (text * text)) -> database -> database * res unit) (read : text -> res tcompound) (ext : text) : Prop :=
  exists float_of, (load = load_auxi float_of /\ read = (fun s => do o <- M_JsonFiles.read_compound float_of s; compound_data float_of o) /\ ext = text_of ".json") \/
                   (load = load_fs float_of /\ read = (fun s => load_factsage float_of (lines_of s)) /\ ext = text_of ".txt").
Lemma loader_is load read ext : is_loader load read ext -> load = load_from read ext.
Proof. intros [float_of [(-> & -> & ->)|(-> & -> & ->)]]; reflexivity. Qed.
(** What was loaded before is gone, whatever happens. *)
Theorem C92_replaces : forall load read ext, is_loader load read ext -> forall dir db db', load dir db = load dir db'.
Proof. intros load read ext L. rewrite (loader_is _ _ _ L). reflexivity. Qed.
Print Assumptions C92_replaces.
(** A path that does not exist empties the database and raises nothing. *)
Theorem C92_no_directory : forall load read ext, is_loader load read ext -> forall db, load None db = ([], Ok tt) /\
  (forall f g, is_thermo_function f g -> forall fo ph T mass, no_bracket fo -> no_bracket ph -> f (fst (load None db)) (str_of (fo ++ text_of "[" ++ ph ++ text_of "]")) T mass = Err KeyError) /\
  list_compounds (fst (load None db)) = Ok (text_of "Compounds currently loaded:" ++ ["010"%char]).
Proof.
  intros load read ext L db. rewrite (loader_is _ _ _ L). split; [reflexivity|]. split; [|reflexivity].
  intros f g F fo ph T mass B1 B2. apply (C36_unknown_compound f g F); auto.
Qed.
Print Assumptions C92_no_directory.
(** After loading, a formula has the data of the last file for it, and only the
    formulas of the files are there. *)
Theorem C92_loaded_files : forall load read ext, is_loader load read ext -> forall files db, readable read ext files ->
  exists db', load (Some files) db = (db', Ok tt) /\ NoDup (map fst db') /\ forall fo c, lookup fo db' = Some c <-> last_of read ext files fo c.
Proof.
  intros load read ext L files db R. rewrite (loader_is _ _ _ L). destruct (load_from_lookup read ext files db R) as (db' & E & H). exists db'. split; auto. split; auto.
  pose proof (load_each_nodup read ext (filter (fun f => is_file_of ext (fst f)) files) [] (NoDup_nil _)) as N. unfold load_from in E. rewrite E in N. exact N.
Qed.
Print Assumptions C92_loaded_files.
(** The first data file that cannot be read stops the loading; the files before
    it are loaded, and nothing else. *)
Theorem C92_failed_load : forall load read ext, is_loader load read ext -> forall files db, ~ readable read ext files ->
  exists before name content after e db', files = before ++ (name, content) :: after /\ data_file ext name /\ read content = Err e /\ readable read ext before /\
    load (Some files) db = (db', Err e) /\ load (Some before) db = (db', Ok tt).
Proof. intros load read ext L files db R. rewrite (loader_is _ _ _ L). now apply load_from_fails. Qed.
Print Assumptions C92_failed_load.
(** The loader of C88 is this one. *)
Theorem C92_auxi : forall float_of files db db', load_auxi float_of (Some files) db = (db', Ok tt) <-> M_JsonFiles.load_data_auxi float_of files = Ok db'.
Proof.
  intros float_of files db db'. unfold load_auxi, load_from, M_JsonFiles.load_data_auxi. change (fun f : text * text => is_file_of (text_of ".json") (fst f)) with (fun f : text * text => is_compound_file (fst f)).
  generalize (filter (fun f : text * text => is_compound_file (fst f)) files). intros l. generalize (@nil (string * tcompound)). induction l as [|f l IH]; intros d; cbn [load_each foldM].
  - split; intros [= ->]; reflexivity.
  - destruct (M_JsonFiles.read_compound float_of (snd f)) as [o|e]; cbn [bind]; [|split; discriminate]. destruct (compound_data float_of o) as [c|e]; cbn [bind]; [|split; discriminate]. apply IH.
Qed.
Print Assumptions C92_auxi.

(** * References *)
(** A compound without reference has an empty one; the two references in the data
    files have a text; any other raises KeyError. *)
Theorem C92_reference : forall r,
  (r = None \/ r = Some "" -> get_reference r = Ok "") /\
  (forall k, r = Some k -> k = "rao1985" \/ k = "chase1998" -> exists t, get_reference r = Ok t /\ t <> "") /\
  (forall k, r = Some k -> k <> "" -> k <> "rao1985" -> k <> "chase1998" -> get_reference r = Err KeyError).
Proof.
  intros r. split; [|split].
  - intros [-> | ->]; reflexivity.
  - intros k -> [-> | ->]; (eexists; split; [reflexivity|discriminate]).
  - intros k -> H1 H2 H3. unfold get_reference, get_datafile_references. cbn [lookup]. destruct (String.eqb_spec k ""), (String.eqb_spec k "rao1985"), (String.eqb_spec k "chase1998"); congruence.
Qed.
Print Assumptions C92_reference.

Example C92_example : let db := [("FeO", mktc "FeO" 1%R [("S1", mkphase 0 0 [] None); ("L", mkphase 0 0 [] None)]); ("Al", mktc "Al" 1%R [("S", mkphase 0 0 [] None)])] in
  dictionaries db /\ plain_names db /\ exists t, list_compounds db = Ok t /\ mentions t "FeO" "L" /\ ~ mentions t "Al" "L" /\
  t = text_of "Compounds currently loaded:" ++ "010"%char :: text_of "Al: S" ++ "010"%char :: text_of "FeO: L, S1" ++ ["010"%char].
Proof.
  intros db. assert (D : dictionaries db).
  { split; [apply NoDup_strings; reflexivity|]. intros fo c L. apply lookup_In in L. cbn [In db] in L. destruct L as [[= <- <-]|[[= <- <-]|[]]]; apply NoDup_strings; reflexivity. }
  assert (P : plain_names db).
  { intros fo c L. apply lookup_In in L. cbn [In db] in L. destruct L as [[= <- <-]|[[= <- <-]|[]]]; (split; [now apply plain_check_ok|]); cbn [map fst tc_phases In]; intros ph [<-|I]; try (now apply plain_check_ok); destruct I as [<-|I]; try (now apply plain_check_ok); destruct I. }
  split; auto. split; auto. destruct (C92_tells db D P) as (t & E & M). exists t. split; auto. split; [apply M|split; [rewrite M|]].
  - eexists. eexists. split; reflexivity.
  - intros (c & p & L & X). cbn in L. injection L as <-. cbn in X. discriminate.
  - vm_compute in E. injection E as <-. reflexivity.
Qed.

(** Two files for one formula, and one with another name. *)
Example C92_files : forall read a b c, read (text_of "1") = Ok a -> read (text_of "2") = Ok b -> read (text_of "3") = Ok c -> tc_formula a = "Fe" -> tc_formula b = "Fe" -> tc_formula c = "Al" ->
  let files := [(text_of "Compound_Fe.json", text_of "1"); (text_of "Compound_Al.json", text_of "3"); (text_of "Compound_Fe2.json", text_of "2"); (text_of "notes.txt", text_of "x")] in
  readable read (text_of ".json") files /\ fst (load_from read (text_of ".json") (Some files) []) = [("Fe", b); ("Al", c)].
Proof.
  intros read a b c A B C Fa Fb Fc files. split.
  - intros n s I (r & D). cbn [In files] in I. destruct I as [[= <- <-]|[[= <- <-]|[[= <- <-]|[[= <- <-]|[]]]]]; eauto. cbn in D. discriminate.
  - unfold load_from, files. cbn [filter fst]. repeat match goal with |- context [is_file_of ?e ?n] => let v := eval vm_compute in (is_file_of e n) in change (is_file_of e n) with v end. cbn iota.
    cbn [load_each snd]. rewrite A, Fa, C, Fc, B, Fb. reflexivity.
Qed.
