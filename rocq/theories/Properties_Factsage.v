(** C70: FactSage listings. *)
From Verif Require Import Prelude M_Stoichiometry M_Text M_Thermochem Spec_Thermo M_Factsage Spec_Factsage P_Factsage Properties_Thermo.
From Verif Require Spec_Stoich P_Convert P_Count Properties_Stoich.
From Coq Require Import Reals Qreals.
Local Open Scope list_scope.

(** A well-formed listing is read: the formula, every phase with its symbol,
    enthalpy and entropy, every record with its range and all its terms in order;
    only the lowest record of a phase is made to start at 298.15 K. *)
Theorem C70_listing_read : forall float_of formula ps vs lines,
  factsage_file formula (listing ps) lines -> Forall2 (phase_is float_of) ps vs ->
  NoDup (map ph_sym ps) -> Forall (fun p => ~ underscored (ph_sym p)) ps ->
  (forall p, hd_error ps = Some p -> ph_sym p <> text_of "zz") ->
  changing (text_of "0") (numbers ps) ->
  exists vs', read_factsage float_of lines = Ok (formula, vs') /\ Forall2 anchored_phase vs vs'.
Proof. exact reads_listing. Qed.
Print Assumptions C70_listing_read.

(** If the records of a phase follow one another, the phase that is read is
    anchored: at 298.15 K its enthalpy and entropy are those of the listing. *)
Theorem C70_anchored : forall float_of formula ps vs lines,
  factsage_file formula (listing ps) lines -> Forall2 (phase_is float_of) ps vs ->
  NoDup (map ph_sym ps) -> Forall (fun p => ~ underscored (ph_sym p)) ps ->
  (forall p, hd_error ps = Some p -> ph_sym p <> text_of "zz") ->
  changing (text_of "0") (numbers ps) -> Forall (fun v => following (fp_records (snd v))) vs ->
  exists vs', read_factsage float_of lines = Ok (formula, vs') /\
    Forall2 (fun p v' => exists h s, float_of (ph_H p) = Ok h /\ float_of (ph_S p) = Ok s /\
      phase_H (phase_of_fs (snd v')) T_ref = Ok (Q2R (this h)) /\ phase_S (phase_of_fs (snd v')) T_ref = Ok (Q2R (this s))) ps vs'.
Proof.
  intros float_of formula ps vs lines F V N U Z C FO. destruct (reads_listing float_of formula ps vs lines F V N U Z C) as (vs' & E & A). exists vs'. split; auto.
  clear - V A FO. revert vs' A. induction V as [|p v ps vs H V IH]; intros vs' A; inversion A as [|? v' ? vs1 A1 A2]; subst; constructor.
  - inversion FO as [|? ? FO1 FO2]; subst. destruct H as (_ & _ & HH & HS & R & _). exists (fp_DHref (snd v)), (fp_Sref (snd v)). split; auto. split; auto.
    assert (G : regular (phase_of_fs (snd v'))).
    { apply (following_regular v v' A1 FO1). clear - R. revert R. generalize (fp_records (snd v)). generalize (records_of p). intros l l' R.
      induction R as [|x y l l' H R IH]; intros r I; [destruct I|]. destruct I as [<-|I]; auto. destruct H as (_ & _ & H & _). auto. }
    destruct (C34_anchored _ G) as [G1 G2]. destruct A1 as (_ & _ & A3 & A4 & _). rewrite G1, G2. cbn [phase_of_fs ph_DHref ph_Sref]. now rewrite A3, A4.
  - apply IH; auto. now inversion FO.
Qed.
Print Assumptions C70_anchored.

(** The condition on the numbers of the records is needed: if the first record
    of a phase has the number of the last record of the phase before it, the
    file cannot be read. *)
Theorem C70_repeated_number_raises : forall float_of formula ps p more vs h s lines,
  factsage_file formula (listing (ps ++ p :: more)) lines -> Forall2 (phase_is float_of) ps vs ->
  NoDup (map ph_sym (ps ++ [p])) -> Forall (fun q => ~ underscored (ph_sym q)) (ps ++ p :: more) ->
  (forall q, hd_error (ps ++ [p]) = Some q -> ph_sym q <> text_of "zz") ->
  changing (text_of "0") (numbers ps) -> rec_no (ph_rec p) = last (numbers ps) (text_of "0") ->
  float_of (ph_H p) = Ok h -> float_of (ph_S p) = Ok s ->
  read_factsage float_of lines = Err (match ps with [] => NameError | _ => KeyError end).
Proof. exact repeated_number. Qed.
Print Assumptions C70_repeated_number_raises.

(** A line that is too short cannot be read: the first line of a listing must
    have an enthalpy and an entropy. *)
Theorem C70_short_line : forall float_of a formula more pre mark w ws l rest lines,
  ~ In " "%char a -> ~ In " "%char formula ->
  Forall (fun x => ~ underscored x) ((a ++ " "%char :: formula ++ " "%char :: more) :: pre) -> underscored mark -> ~ underscored l ->
  lines = (a ++ " "%char :: formula ++ " "%char :: more) :: pre ++ mark :: l :: rest ->
  data_line w ws l -> w <> text_of "zz" -> length (meaning ws) = 1%nat \/ (exists no h x, meaning ws = [no; h] /\ float_of h = Ok x) ->
  read_factsage float_of lines = Err IndexError.
Proof.
  intros float_of a formula more pre mark w ws l rest lines A F U M UL -> D Z S. unfold read_factsage.
  destruct (split_sp (a ++ " "%char :: formula ++ " "%char :: more)) as [|x [|y zs]] eqn:SP; auto.
  assert (MK : forall t, ~ underscored t -> M_Factsage.mark t = false). { intros [|c t] N; auto. cbn. destruct (Ascii.eqb c "_") eqn:E; auto. apply Ascii.eqb_eq in E. subst. exfalso. apply N. now exists t. }
  assert (SK : forall ls, Forall (fun x => ~ underscored x) ls -> fs_skip (ls ++ mark :: l :: rest) = l :: rest).
  { induction 1 as [|t ls N _ IH]; cbn [app fs_skip]; [|now rewrite (MK t N)]. destruct M as [m ->]. cbn. reflexivity. }
  assert (SK1 := SK _ U). cbn [app] in SK1. match type of SK1 with ?x = _ => match goal with |- context[fs_body _ ?y _] => change y with x end end. rewrite SK1.
  cbn [fs_body]. rewrite (MK l UL), (strings_of_line w ws l D). unfold fs_line.
  destruct S as [S|(no & h & q & S & Q)].
  - destruct (meaning ws) as [|b [|? ?]] eqn:EM; try discriminate S. cbn [length Nat.ltb Nat.leb]. cbn [st_phase]. destruct (tdec w (text_of "zz")); [contradiction|]. reflexivity.
  - rewrite S. cbn [length Nat.ltb Nat.leb]. cbn [st_phase]. destruct (tdec w (text_of "zz")); [contradiction|]. cbn [negb]. unfold number. cbn [nth_error]. rewrite Q. reflexivity.
Qed.
Print Assumptions C70_short_line.

(** * Cases *)
Definition some_float (t : text) : res Qc :=
  match lookup (str_of t)
    [("298.15", Q2Qc (29815 # 100)); ("1", 1%Qc); ("0", 0%Qc); ("-2", Q2Qc (-2 # 1)); ("1650", Q2Qc (1650 # 1)); ("3687", Q2Qc (3687 # 1));
     ("-272044", Q2Qc (-272044 # 1)); ("60.752", Q2Qc (60752 # 1000)); ("-251000", Q2Qc (-251000 # 1)); ("73.6", Q2Qc (736 # 10)); ("50.278", Q2Qc (50278 # 1000));
     ("3.6511e-3", Q2Qc (36511 # 10000000)); ("-1.9e4", Q2Qc (-19000 # 1)); ("68.2", Q2Qc (682 # 10))]%string
  with Some q => Ok q | None => Err ValueError end.
Definition w (s : string) : text := text_of s.
Definition wustite_rec : trecord := mktrec (w "1") (w "298.15") (w "1650") (mkrow (w "50.278", w "0") (Some (w "3.6511e-3", w "1"))) [mkrow (w "-1.9e4", w "-2") None].
Definition wustite : tphase := mktph (w "S1") (w "-272044") (w "60.752") wustite_rec [].
Definition melt (no : string) : tphase := mktph (w "L1") (w "-251000") (w "73.6") (mktrec (w no) (w "1650") (w "3687") (mkrow (w "68.2", w "0") None) []) [].
Definition line (s : string) : text := text_of s ++ [nl].
Definition good_file (no : string) : list text :=
  [line "Compound FeO (wustite)"; line ""; line "____"; line "S1 1  -272044  60.752   50.278 0   3.6511e-3 1  298 - 1650 "; line "S1 1 -1.9e4 -2 298 - 1650"; line "   ";
   text_of "L1 " ++ text_of no ++ line " -251000 73.6 68.2  0  1650  - 3687"; line "____"; line "end"].

Lemma plain_by (t : text) : forallb (fun c => negb (Ascii.eqb c " "%char || Ascii.eqb c "009"%char || Ascii.eqb c "010"%char)) t = true -> t <> [] -> plain t.
Proof.
  intros H N. split; auto. intros c I. rewrite forallb_forall in H. specialize (H c I). apply negb_true_iff in H. apply orb_false_iff in H. destruct H as [H H3]. apply orb_false_iff in H. destruct H as [H1 H2].
  apply Ascii.eqb_neq in H1, H2, H3. auto.
Qed.
Ltac plain_tac := apply plain_by; [vm_compute; reflexivity|discriminate].
Ltac words_tac := repeat (constructor; [plain_tac|]); constructor.
Ltac twice_tac := cbn [no_twice]; repeat split; try (intros [X Y]; discriminate); try discriminate; try (intros X; discriminate).
Lemma good_file_ok : forall no, no = "2"%string \/ no = "1"%string -> factsage_file (w "FeO") (listing [wustite; melt no]) (good_file no).
Proof.
  intros no NO. exists (text_of "Compound"), (line "(wustite)"), [line ""], (line "____"),
    [line "S1 1  -272044  60.752   50.278 0   3.6511e-3 1  298 - 1650 "; line "S1 1 -1.9e4 -2 298 - 1650"; line "   "; text_of "L1 " ++ text_of no ++ line " -251000 73.6 68.2  0  1650  - 3687"],
    [line "____"; line "end"].
  split; [cbn; intuition discriminate|]. split; [cbn; intuition discriminate|]. cbn zeta.
  split; [repeat constructor; intros [l' X]; discriminate|]. split; [eexists; reflexivity|]. split.
  - assert (L : listing [wustite; melt no] =
      [w "S1" :: meaning [w "1"; w "-272044"; w "60.752"; w "50.278"; w "0"; w "3.6511e-3"; w "1"; w "298"; w "-"; w "1650"];
       w "S1" :: meaning [w "1"; w "-1.9e4"; w "-2"; w "298"; w "-"; w "1650"];
       w "L1" :: meaning [w no; w "-251000"; w "73.6"; w "68.2"; w "0"; w "1650"; w "-"; w "3687"]]) by (destruct NO as [-> | ->]; reflexivity).
    rewrite L. apply sh_line; [|apply sh_line; [|apply (sh_blank 3); apply sh_line; [|apply sh_nil]]].
    + split; [plain_tac|]. split; [words_tac|]. split; [twice_tac|]. split; [twice_tac|].
      exists [1; 2; 2; 3; 1; 3; 1; 2; 1; 1]%nat, [" "%char; nl]. split; [reflexivity|]. split; [repeat constructor|]. split; [right; exists 1%nat; reflexivity|]. reflexivity.
    + split; [plain_tac|]. split; [words_tac|]. split; [twice_tac|]. split; [twice_tac|].
      exists [1; 1; 1; 1; 1; 1]%nat, [nl]. split; [reflexivity|]. split; [repeat constructor|]. split; [right; exists 0%nat; reflexivity|]. reflexivity.
    + split; [plain_tac|]. split; [destruct NO as [-> | ->]; words_tac|]. split; [destruct NO as [-> | ->]; twice_tac|]. split; [destruct NO as [-> | ->]; twice_tac|].
      exists [1; 1; 1; 1; 2; 2; 2; 1]%nat, [nl]. split; [reflexivity|]. split; [repeat constructor|]. split; [right; exists 0%nat; reflexivity|]. destruct NO as [-> | ->]; reflexivity.
  - split; [right; do 2 eexists; split; [reflexivity|eexists; reflexivity]|]. destruct NO as [-> | ->]; reflexivity.
Qed.
Definition wustite_read : text * fs_phase :=
  (w "S1", mkfp (w "S1") (Q2Qc (-272044 # 1)) (Q2Qc (60752 # 1000)) [(Q2Qc (1650 # 1), mkfr (Q2Qc (29815 # 100)) (Q2Qc (1650 # 1)) [(Q2Qc (50278 # 1000), 0%Qc); (Q2Qc (36511 # 10000000), 1%Qc); (Q2Qc (-19000 # 1), Q2Qc (-2 # 1))])]).
Definition melt_read : text * fs_phase :=
  (w "L1", mkfp (w "L1") (Q2Qc (-251000 # 1)) (Q2Qc (736 # 10)) [(Q2Qc (3687 # 1), mkfr (Q2Qc (1650 # 1)) (Q2Qc (3687 # 1)) [(Q2Qc (682 # 10), 0%Qc)])]).
Lemma wustite_is : phase_is some_float wustite wustite_read.
Proof.
  repeat split; try reflexivity. - constructor; [|constructor]. repeat split; try reflexivity. repeat constructor; reflexivity. - repeat constructor; cbn; tauto.
Qed.
Lemma melt_is no : phase_is some_float (melt no) melt_read.
Proof.
  repeat split; try reflexivity. - constructor; [|constructor]. repeat split; try reflexivity. repeat constructor; reflexivity. - repeat constructor; cbn; tauto.
Qed.
(** The hypotheses of [C70_listing_read] and [C70_anchored] are met: *)
Example C70_case : exists vs', read_factsage some_float (good_file "2") = Ok (w "FeO", vs') /\
    Forall2 (fun p v' => exists h s, some_float (ph_H p) = Ok h /\ some_float (ph_S p) = Ok s /\
      phase_H (phase_of_fs (snd v')) T_ref = Ok (Q2R (this h)) /\ phase_S (phase_of_fs (snd v')) T_ref = Ok (Q2R (this s))) [wustite; melt "2"] vs'.
Proof.
  apply (C70_anchored some_float (w "FeO") [wustite; melt "2"] [wustite_read; melt_read]).
  - apply good_file_ok. auto.
  - constructor; [apply wustite_is|]. constructor; [apply melt_is|]. constructor.
  - repeat constructor; cbn; intuition discriminate.
  - repeat constructor; intros [l' X]; discriminate.
  - intros p [= <-]. discriminate.
  - cbn. repeat split; discriminate.
  - repeat constructor; reflexivity.
Qed.
(** What the program makes of it: *)
Example C70_case_result : read_factsage some_float (good_file "2") =
  Ok (w "FeO", [wustite_read; (w "L1", mkfp (w "L1") (Q2Qc (-251000 # 1)) (Q2Qc (736 # 10)) [(Q2Qc (3687 # 1), mkfr (Q2Qc (29815 # 100)) (Q2Qc (3687 # 1)) [(Q2Qc (682 # 10), 0%Qc)])])]).
Proof. vm_compute. do 2 f_equal. Qed.
(** The same listing with the record of the melt numbered 1, as the record of
    the solid, is not read. *)
Theorem C70_any_listing_refuted : ~ forall float_of formula ps vs lines,
  factsage_file formula (listing ps) lines -> Forall2 (phase_is float_of) ps vs -> NoDup (map ph_sym ps) ->
  exists r, read_factsage float_of lines = Ok r.
Proof.
  intros H. destruct (H some_float (w "FeO") [wustite; melt "1"] [wustite_read; melt_read] (good_file "1")) as [r E].
  - apply good_file_ok. auto.
  - constructor; [apply wustite_is|]. constructor; [apply melt_is|]. constructor.
  - repeat constructor; cbn; intuition discriminate.
  - assert (X : read_factsage some_float (good_file "1") = Err KeyError) by (vm_compute; reflexivity). rewrite X in E. discriminate.
Qed.
Print Assumptions C70_any_listing_refuted.
Example C70_repeated_case : read_factsage some_float (good_file "1") = Err KeyError.
Proof.
  apply (C70_repeated_number_raises some_float (w "FeO") [wustite] (melt "1") [] [wustite_read] (Q2Qc (-251000 # 1)) (Q2Qc (736 # 10))).
  - apply good_file_ok. auto. - constructor; [apply wustite_is|constructor]. - repeat constructor; cbn; intuition discriminate.
  - repeat constructor; intros [l' X]; discriminate. - intros q [= <-]. discriminate. - cbn. repeat split; discriminate. - reflexivity. - reflexivity. - reflexivity.
Qed.

(** A formula at the end of the first line keeps the newline. *)
Theorem C70_formula_newline : forall float_of a formula lines f vs, ~ In " "%char a -> ~ In " "%char formula ->
  read_factsage float_of ((a ++ " "%char :: formula ++ ["010"%char]) :: lines) = Ok (f, vs) -> f = formula ++ ["010"%char].
Proof.
  intros float_of a formula lines f vs A F H. unfold read_factsage in H.
  assert (E : split_sp (a ++ " "%char :: formula ++ ["010"%char]) = [a; formula ++ ["010"%char]]).
  { change " "%char with M_Text.sp. rewrite P_Table.split_word by (intros c I ->; auto). rewrite P_Table.split_last; auto. intros c I ->. apply in_app_or in I. destruct I as [I|[I|[]]]; auto. discriminate. }
  rewrite E in H. destruct (fs_body _ _ _); [|discriminate]. cbn [bind] in H. destruct (mapM _ _); [|discriminate]. cbn [bind] in H. congruence.
Qed.
Print Assumptions C70_formula_newline.
Example C70_newline_case : read_factsage some_float [line "Compound FeO"] = Ok (line "FeO", []).
Proof. vm_compute. reflexivity. Qed.

(** * The compound made of a listing *)
Lemma str_of_inj a b : str_of a = str_of b -> a = b.
Proof. intros E. rewrite <- (P_Convert.str_text a), <- (P_Convert.str_text b). now rewrite E. Qed.
Lemma lookup_anchored (P : tphase -> text * fs_phase -> Prop) ps vs vs' float_of : Forall2 (phase_is float_of) ps vs -> Forall2 anchored_phase vs vs' -> Forall2 P ps vs' -> NoDup (map ph_sym ps) ->
  forall p, In p ps -> exists v', P p v' /\ lookup (str_of (ph_sym p)) (map (fun kp => (str_of (fst kp), phase_of_fs (snd kp))) vs') = Some (phase_of_fs (snd v')).
Proof.
  intros V. revert vs'. induction V as [|q v ps vs H V IH]; intros vs' A FP N p I; [destruct I|]. inversion A as [|? v' ? vs1 A1 A2]; subst. inversion FP; subst. inversion N as [|? ? N1 N2]; subst.
  assert (E : fst v' = ph_sym q) by (destruct A1 as [-> _]; apply H). cbn [map lookup]. rewrite E. destruct I as [<-|I].
  - exists v'. split; auto. now rewrite String.eqb_refl.
  - destruct (String.eqb_spec (str_of (ph_sym p)) (str_of (ph_sym q))) as [X|X]; [|now apply IH]. apply str_of_inj in X. exfalso. apply N1. rewrite <- X. now apply in_map.
Qed.
(** The compound made of a listing with a correct formula: it has this formula, its
    molar mass is the formula's, and for every phase of the listing its enthalpy and
    entropy at 298.15 K are those of the listing. *)
Theorem C70_compound : forall float_of formula f ps vs lines,
  factsage_file formula (listing ps) lines -> Forall2 (phase_is float_of) ps vs ->
  NoDup (map ph_sym ps) -> Forall (fun p => ~ underscored (ph_sym p)) ps ->
  (forall p, hd_error ps = Some p -> ph_sym p <> text_of "zz") ->
  changing (text_of "0") (numbers ps) -> Forall (fun v => following (fp_records (snd v))) vs -> Spec_Stoich.proper (str_of formula) f ->
  exists c, load_factsage float_of lines = Ok c /\ tc_formula c = str_of formula /\
    (1000 * tc_molar_mass c = Q2R (this (Spec_Stoich.weight (fun s => Spec_Stoich.atoms s f))))%R /\
    forall p, In p ps -> exists h s, float_of (ph_H p) = Ok h /\ float_of (ph_S p) = Ok s /\
      compound_of phase_H c (str_of (ph_sym p)) T_ref = Ok (Q2R (this h)) /\ compound_of phase_S c (str_of (ph_sym p)) T_ref = Ok (Q2R (this s)).
Proof.
  intros float_of formula f ps vs lines F V N U Z C FO PF. destruct (reads_listing float_of formula ps vs lines F V N U Z C) as (vs' & E & A).
  destruct (C70_anchored float_of formula ps vs lines F V N U Z C FO) as (vs2 & E2 & A2). assert (vs2 = vs') by congruence. subst vs2.
  unfold load_factsage. rewrite E. cbn [bind fst snd].
  destruct (C36_molar_mass (str_of formula) f (map (fun kp => (str_of (fst kp), phase_of_fs (snd kp))) vs') PF) as (c & EC & _ & M). exists c. split; auto.
  assert (S : tc_formula c = str_of formula /\ tc_phases c = map (fun kp => (str_of (fst kp), phase_of_fs (snd kp))) vs').
  { unfold new_compound in EC. destruct (molar_mass _); cbn [bind] in EC; [|discriminate]. injection EC as <-. auto. }
  destruct S as [S1 S2]. split; auto. split; auto. intros p I.
  destruct (lookup_anchored _ ps vs vs' float_of V A A2 N p I) as (v' & (h & s & Hh & Hs & GH & GS) & L). exists h, s. split; auto. split; auto. unfold compound_of. rewrite S2, L. auto.
Qed.
Print Assumptions C70_compound.
Example C70_compound_case : exists c, load_factsage some_float (good_file "2") = Ok c /\ tc_formula c = "FeO"%string /\
  compound_of phase_H c "S1" T_ref = Ok (Q2R (-272044 # 1)) /\ compound_of phase_S c "L1" T_ref = Ok (Q2R (this (Q2Qc (736 # 10)))).
Proof.
  destruct (P_Convert.check "FeO") as [f|] eqn:EF; [|vm_compute in EF; discriminate]. apply P_Convert.check_proper in EF.
  destruct (C70_compound some_float (w "FeO") f [wustite; melt "2"] [wustite_read; melt_read] (good_file "2")) as (c & L & Fo & _ & P).
  - apply good_file_ok. auto.
  - constructor; [apply wustite_is|]. constructor; [apply melt_is|]. constructor.
  - repeat constructor; cbn; intuition discriminate.
  - repeat constructor; intros [l' X]; discriminate.
  - intros p [= <-]. discriminate.
  - cbn. repeat split; discriminate.
  - repeat constructor; reflexivity.
  - exact EF.
  - exists c. split; auto. split; auto. split.
    + destruct (P wustite) as (h & s & Hh & _ & G & _); [cbn; auto|]. change (str_of (ph_sym wustite)) with "S1"%string in G. rewrite G. do 2 f_equal. injection Hh as <-. reflexivity.
    + destruct (P (melt "2")) as (h & s & _ & Hs & _ & G); [cbn; auto|]. change (str_of (ph_sym (melt "2"))) with "L1"%string in G. rewrite G. do 2 f_equal. injection Hs as <-. reflexivity.
Qed.

(** Its heat capacity, from 298.15 K on and within the range of a record of the
    listing, is the sum of this record's coefficients times the powers of T. *)
Lemma lower_or_least k (rs : list (Qc * fs_record)) : (forall q, In q rs -> (k <= fst q)%Qc) \/ exists q, In q rs /\ (fst q < k)%Qc.
Proof.
  induction rs as [|r rs [IH|(q & I & L)]]; [left; intros q []| |right; exists q; split; [right|]; auto].
  destruct (Qclt_le_dec (fst r) k) as [L|L]; [right; exists r; split; [left|]; auto|left; intros q [<-|I]; auto].
Qed.
Theorem C70_heat_capacity : forall float_of formula f ps vs lines,
  factsage_file formula (listing ps) lines -> Forall2 (phase_is float_of) ps vs ->
  NoDup (map ph_sym ps) -> Forall (fun p => ~ underscored (ph_sym p)) ps ->
  (forall p, hd_error ps = Some p -> ph_sym p <> text_of "zz") ->
  changing (text_of "0") (numbers ps) -> Forall (fun v => following (fp_records (snd v))) vs -> Spec_Stoich.proper (str_of formula) f ->
  exists c, load_factsage float_of lines = Ok c /\
    forall p rc, In p ps -> In rc (records_of p) -> exists lo hi terms, float_of (rec_lo rc) = Ok lo /\ float_of (rec_hi rc) = Ok hi /\
      Forall2 (fun t ce => exists x y, float_of (fst t) = Ok x /\ float_of (snd t) = Ok y /\ ce = (Q2R (this x), Q2R (this y))) (rec_terms rc) terms /\
      forall T, (Q2R (29815 # 100) <= T)%R -> (Q2R (this lo) <= T < Q2R (this hi))%R ->
        compound_of phase_Cp c (str_of (ph_sym p)) T = Ok (fold_right (fun ce a => (fst ce * Rpower T (snd ce) + a)%R) 0%R terms).
Proof.
  intros float_of formula f ps vs lines F V N U Z C FO PF. destruct (reads_listing float_of formula ps vs lines F V N U Z C) as (vs' & E & A).
  unfold load_factsage. rewrite E. cbn [bind fst snd].
  destruct (C36_molar_mass (str_of formula) f (map (fun kp => (str_of (fst kp), phase_of_fs (snd kp))) vs') PF) as (c & EC & _ & M). exists c. split; auto.
  assert (S2 : tc_phases c = map (fun kp => (str_of (fst kp), phase_of_fs (snd kp))) vs').
  { unfold new_compound in EC. destruct (molar_mass _); cbn [bind] in EC; [|discriminate]. injection EC as <-. auto. }
  set (P := fun (p : tphase) (v' : text * fs_phase) => forall rc, In rc (records_of p) -> exists lo hi terms, float_of (rec_lo rc) = Ok lo /\ float_of (rec_hi rc) = Ok hi /\
      Forall2 (fun t ce => exists x y, float_of (fst t) = Ok x /\ float_of (snd t) = Ok y /\ ce = (Q2R (this x), Q2R (this y))) (rec_terms rc) terms /\
      forall T, (Q2R (29815 # 100) <= T)%R -> (Q2R (this lo) <= T < Q2R (this hi))%R -> phase_Cp (phase_of_fs (snd v')) T = Ok (polynomial terms T)).
  assert (FP : Forall2 P ps vs').
  { clear - V A FO. revert vs' A. induction V as [|p v ps vs H V IH]; intros vs' A; inversion A as [|? v' ? vs1 A1 A2]; subst; constructor; [|apply IH; auto; now inversion FO].
    inversion FO as [|? ? FO1 FO2]; subst. destruct H as (_ & _ & HH & HS & R & _). intros rc I.
    assert (KT : forall r, In r (fp_records (snd v)) -> fst r = fr_Tmax (snd r)).
    { clear - R. revert R. generalize (fp_records (snd v)). generalize (records_of p). intros l l' R. induction R as [|x y l l' H R IH]; intros r I; [destruct I|]. destruct I as [<-|I]; auto. destruct H as (_ & _ & H & _). auto. }
    assert (G : regular (phase_of_fs (snd v'))) by (apply (following_regular v v' A1 FO1 (fun r I => eq_sym (KT r I)))).
    destruct A1 as (_ & _ & _ & _ & AR). unfold anchored_records in AR.
    assert (X : forall (all l l' : list (Qc * fs_record)) rcs, Forall2 (fun r r' => fst r' = fst r /\ fr_Tmax (snd r') = fr_Tmax (snd r) /\ fr_terms (snd r') = fr_terms (snd r) /\
        ((forall q, In q all -> (fst r <= fst q)%Qc) -> fr_Tmin (snd r') = Q2Qc (29815 # 100)) /\ ((exists q, In q all /\ (fst q < fst r)%Qc) -> fr_Tmin (snd r') = fr_Tmin (snd r))) l l' ->
      In rc rcs -> Forall2 (record_is float_of) rcs l -> exists r r', record_is float_of rc r /\ In r' l' /\ fst r' = fst r /\ fr_terms (snd r') = fr_terms (snd r) /\
      ((forall q, In q all -> (fst r <= fst q)%Qc) -> fr_Tmin (snd r') = Q2Qc (29815 # 100)) /\ ((exists q, In q all /\ (fst q < fst r)%Qc) -> fr_Tmin (snd r') = fr_Tmin (snd r))).
    { clear. intros all l l' rcs B I R. revert l' B.
      induction R as [|x y rcs l H R IH]; intros l' B; [destruct I|]. inversion B as [|? y' ? l1 B1 B2]; subst. destruct I as [<-|I].
      - destruct B1 as (B11 & _ & B13 & B14 & B15). exists y, y'. split; auto. split; [left; auto|]. auto.
      - destruct (IH I l1 B2) as (r & r' & X1 & X2 & X3). exists r, r'. split; auto. split; [right; auto|]. auto. }
    specialize (X _ _ _ _ AR I R).
    destruct X as (r & r' & (L1 & L2 & L3 & L4) & I' & K1 & K2 & K3 & K4). exists (fr_Tmin (snd r)), (fr_Tmax (snd r)), (map (fun ce => (Q2R (this (fst ce)), Q2R (this (snd ce)))) (fr_terms (snd r))). split; auto. split; auto. split.
    { clear - L4. induction L4 as [|t ce ts ces [H1 H2] F IH]; cbn [map]; constructor; auto. exists (fst ce), (snd ce). auto. }
    intros T T0 [T1 T2]. rewrite (P_Magnetic.regular_Cp_record (phase_of_fs (snd v')) T (Q2R (this (fst r'))) (cp_of_fs (snd r'))); auto.
    - cbn [cp_of_fs cr_terms]. now rewrite K2.
    - cbn [phase_of_fs ph_records]. apply in_map_iff. exists r'. auto.
    - rewrite K1, L3. split; auto. cbn [cp_of_fs cr_Tmin]. destruct (lower_or_least (fst r) (fp_records (snd v))) as [Q|Q]; [rewrite (K3 Q)|rewrite (K4 Q)]; auto. eapply Rle_trans; [|exact T0]. apply Req_le, Qeq_eqR. cbn [this Q2Qc]. apply Qred_correct. }
  intros p rc Ip Ir. destruct (lookup_anchored P ps vs vs' float_of V A FP N p Ip) as (v' & Hp & L). destruct (Hp rc Ir) as (lo & hi & terms & E1 & E2 & E3 & E4). exists lo, hi, terms. repeat (split; auto).
  intros T T0 T1. unfold compound_of. rewrite S2, L. now apply E4.
Qed.
Print Assumptions C70_heat_capacity.
Example C70_heat_capacity_case : exists c, load_factsage some_float (good_file "2") = Ok c /\ exists lo hi terms,
  some_float (rec_lo (ph_rec wustite)) = Ok lo /\ some_float (rec_hi (ph_rec wustite)) = Ok hi /\ (Q2R (this lo) <= 400 < Q2R (this hi))%R /\ terms <> [] /\
  compound_of phase_Cp c "S1" 400 = Ok (fold_right (fun ce a => (fst ce * Rpower 400 (snd ce) + a)%R) 0%R terms).
Proof.
  destruct (P_Convert.check "FeO") as [f|] eqn:EF; [|vm_compute in EF; discriminate]. apply P_Convert.check_proper in EF.
  destruct (C70_heat_capacity some_float (w "FeO") f [wustite; melt "2"] [wustite_read; melt_read] (good_file "2")) as (c & L & P).
  - apply good_file_ok. auto.
  - constructor; [apply wustite_is|]. constructor; [apply melt_is|]. constructor.
  - repeat constructor; cbn; intuition discriminate.
  - repeat constructor; intros [l' X]; discriminate.
  - intros p [= <-]. discriminate.
  - cbn. repeat split; discriminate.
  - repeat constructor; reflexivity.
  - exact EF.
  - exists c. split; auto. destruct (P wustite (ph_rec wustite)) as (lo & hi & terms & E1 & E2 & E3 & E4); [left; auto|left; auto|]. exists lo, hi, terms. split; auto. split; auto.
    assert (B : (Q2R (this lo) <= 400 < Q2R (this hi))%R).
    { clear - E1 E2. vm_compute in E1, E2. injection E1 as <-. injection E2 as <-. unfold Q2R. cbn. Lra.lra. }
    split; auto. split; [intros ->; inversion E3|]. apply E4; auto. unfold Q2R. cbn. Lra.lra.
Qed.
