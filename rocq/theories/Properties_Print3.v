(** C90: what printed thermo packages and streams show. *)
From Verif Require Import Prelude M_Stoichiometry M_Text M_Lists M_Csv M_Tables M_Thermochem M_ThermoMat M_Streams M_Print Spec_Stoich Spec_Thermo Spec_ThermoMat Spec_Text Spec_File Spec_Tables Spec_Print.
From Verif Require Import P_Convert P_Content P_Text P_File P_ThermoMat P_Print P_Print2 P_Print3 P_Print4.
From Verif Require M_Chem Properties_ThermoMat Properties_Streams Properties_CoalStream P_ThermoElem P_Streams P_CoalStream.
From Coq Require Import Reals Lra Permutation.
Local Open Scope string_scope.
Local Open Scope list_scope.
Local Open Scope R_scope.

(** Every number is shown with nine digits, correctly rounded; two numbers with the
    same text differ by one part in 99999999 at most. *)
Theorem C90_nine_digits : forall x, shows9 x (sci x) /\ forall y, sci y = sci x -> 99999999 * Rabs (x - y) <= Rabs x.
Proof. intros x. split; [apply sci_shows|]. intros y E. eapply shows9_near; [apply sci_shows|]. rewrite <- E. apply sci_shows. Qed.
Print Assumptions C90_nine_digits.
Example C90_nine_digits_case : shows9 (-123456789.6) (text_of "-1.23456790e+08") /\ shows9 0 (text_of "0.00000000e+00") /\ shows9 1 (text_of "1.00000000e+00").
Proof.
  split; [|split].
  - right. split; [lra|]. exists 123456790%Z, 8%Z. split; [|split; [lia|]]. + destruct (Rlt_dec (-123456789.6) 0); [|lra]. exists "1"%char, (text_of "23456790"), "+"%char, (text_of "08"). repeat split; try (repeat constructor).
    + rewrite (Rabs_left (-123456789.6)) by lra. change (powerRZ 10 (8 - 8)) with 1. apply Rabs_le. lra.
  - left. split; auto. exists "0"%char, (text_of "00000000"), "+"%char, (text_of "00"). repeat split; try (repeat constructor).
  - right. split; [lra|]. exists 100000000%Z, 0%Z. split; [|split; [lia|]]. + destruct (Rlt_dec 1 0); [lra|]. exists "1"%char, (text_of "00000000"), "+"%char, (text_of "00"). repeat split; try (repeat constructor).
    + rewrite (Rabs_pos_eq 1) by lra. change (powerRZ 10 (0 - 8)) with (/ 10 ^ 8). cbn [pow]. rewrite Rabs_pos_eq; lra.
Qed.

(** What can be printed well: names that fit their columns, formulas for compounds,
    one mass per compound and none negative. *)
Definition printable (name : text) (p : package) (F : string -> formula) (props : list (string * R)) : Prop :=
  one_line name /\ wf p /\ not_negative p /\ (forall c, In c (tm_compounds (tp_material p)) -> cell 20 (text_of c) /\ proper c (F c) /\ has_atoms (F c)) /\
  NoDup (map fst props) /\ (forall k, In k (map fst props) -> cell 20 (text_of k)).
Definition title (s : string) (name : text) : list (text -> Prop) := [ruled "="%char; eq (text_of s); ruled "="%char; labelled (text_of "Material") name].
(** The table of compounds: mass, mass fraction, mole fraction. *)
Definition compound_table (p : package) (F : string -> formula) : list (text -> Prop) :=
  [ruled "-"%char; eq (text_of "Compound Details"); words_are (map text_of ["Formula"; "Mass"; "Mass"; "Fraction"; "Mole"; "Fraction"]); ruled "-"%char] ++
  map (fun c l => exists a b d, shows9 (has p c) a /\ shows9 (fraction (has p c) (mass_of p)) b /\
                   shows9 (fraction (moles_per_kg (F c) * has p c) (weigh (fun c => moles_per_kg (F c)) p)) d /\ words_are [text_of c; a; b; d] l) (tm_compounds (tp_material p)).
(** The custom properties in alphabetical order, if there are any. *)
Definition property_table (props : list (string * R)) (ks : list string) : list (text -> Prop) :=
  match props with [] => [] | _ => [ruled "-"%char; eq (text_of "Custom Properties:"); ruled "-"%char] ++
    map (fun k l => exists x t, In (k, x) props /\ shows9 x t /\ words_are [text_of k; t] l) ks end.

Lemma reads_app ds ds' t t' : reads ds t -> reads ds' t' -> reads (ds ++ ds') (t ++ t').
Proof. intros (ls & L & D) (ls' & L' & D'). exists (ls ++ ls'). split; [now apply lines_app|]. now apply Forall2_app. Qed.
Lemma reads_one (P : text -> Prop) l : one_line l -> P l -> reads [P] (l ++ nl).
Proof. intros O H. exists [l]. split; [now apply lines_one|]. constructor; [auto|constructor]. Qed.
Lemma reads_cons (P : text -> Prop) ds l t : one_line l -> P l -> reads ds t -> reads (P :: ds) (l ++ nl ++ t).
Proof. intros O H R. rewrite app_assoc. apply (reads_app [P]); auto. now apply reads_one. Qed.
Lemma reads_rule c n : (0 < n)%nat -> c <> "010"%char -> c <> "013"%char -> reads [ruled c] (rule c n).
Proof. intros. destruct (rule_ok c n) as [A B]; auto. now apply reads_one. Qed.
Lemma one_line_check t : forallb (fun c => negb (Ascii.eqb c "010" || Ascii.eqb c "013"))%char t = true -> one_line t.
Proof. intros H c I. rewrite forallb_forall in H. apply H in I. apply negb_true_iff, orb_false_iff in I. destruct I as [A B]. apply Ascii.eqb_neq in A, B. auto. Qed.
Lemma solid_check t : (negb (Nat.eqb (length t) 0) && forallb (fun c => negb (is_space c)) t)%bool = true -> solid t.
Proof. intros H. apply andb_true_iff in H. destruct H as [A B]. split; [intros ->; discriminate|]. intros c I. rewrite forallb_forall in B. apply B in I. now apply negb_true_iff in I. Qed.
Lemma solids_check ws : forallb (fun t => negb (Nat.eqb (length t) 0) && forallb (fun c => negb (is_space c)) t)%bool ws = true -> Forall solid ws.
Proof. intros H. apply Forall_forall. intros w I. rewrite forallb_forall in H. apply solid_check. now apply H. Qed.
Ltac literal := apply one_line_check; reflexivity.
Ltac solids := apply solids_check; reflexivity.
Lemma reads_quantity l ws x u : ws <> [] -> joined ws = text_of l -> Forall solid ws -> (length (text_of l) < 20)%nat -> solid u -> reads [quantity_line ws x u] (quantity l x u).
Proof. intros A B C D E. destruct (quantity_says l ws x u A B C D E) as (q & -> & O & H). now apply reads_one. Qed.
Lemma reads_title s name : one_line (text_of s) -> one_line name -> reads (title s name) (rule "=" 67 ++ text_of s ++ nl ++ rule "=" 67 ++ ljust 20 (text_of "Material") ++ name ++ nl).
Proof.
  intros S N. unfold title. apply (reads_app [_]); [apply reads_rule; [lia|discriminate|discriminate]|]. apply reads_cons; auto. apply (reads_app [_]); [apply reads_rule; [lia|discriminate|discriminate]|].
  rewrite app_assoc. apply reads_one; [apply one_line_app; auto; apply one_line_ljust; literal|]. apply labelled_ljust. cbn. lia.
Qed.
Lemma reads_compounds p F t : wf p -> not_negative p -> (forall c, In c (tm_compounds (tp_material p)) -> cell 20 (text_of c) /\ proper c (F c) /\ has_atoms (F c)) -> compound_rows p = Ok t -> reads (compound_table p F) (compound_head ++ t).
Proof.
  intros W N G E. destruct (compound_rows_ok p F W N G) as (t' & ls & E' & L & R). rewrite E in E'. injection E' as <-. unfold compound_table. apply reads_app.
  - unfold compound_head. apply (reads_app [_]); [apply reads_rule; [lia|discriminate|discriminate]|]. apply reads_cons; [literal|reflexivity|].
    set (h := ljust 20 (text_of "Formula") ++ ljust 16 (text_of "Mass") ++ ljust 16 (text_of "Mass Fraction") ++ ljust 16 (text_of "Mole Fraction")).
    replace (ljust 20 (text_of "Formula") ++ ljust 16 (text_of "Mass") ++ ljust 16 (text_of "Mass Fraction") ++ ljust 16 (text_of "Mole Fraction") ++ nl ++ rule "-" 67) with (h ++ nl ++ rule "-" 67) by (unfold h; rewrite <- !app_assoc; reflexivity).
    apply reads_cons; [unfold h; literal| |apply reads_rule; [lia|discriminate|discriminate]].
    apply says_solid; [|solids]. pose proof (words_ok h) as X. unfold h in X at 2. vm_compute (words _) in X. exact X.
  - exists ls. split; auto. apply Forall2_map_l. exact R.
Qed.
Lemma reads_properties props t : NoDup (map fst props) -> (forall k, In k (map fst props) -> cell 20 (text_of k)) -> own_properties props = Ok t ->
  exists ks, Permutation ks (map fst props) /\ in_order ks /\ reads (property_table props ks) t.
Proof.
  intros D C E. destruct (own_ok props D C) as (t' & ls & E' & L & R). rewrite E in E'. injection E' as <-. exists (M_Chem.sorted (map fst props)). split; [apply Permutation_sym, sorted_perm|]. split; [now apply sorted_increasing|].
  exists ls. split; auto.
Qed.

Ltac quant := apply (reads_app [_]); [apply reads_quantity; [discriminate|reflexivity|solids|cbn; lia|apply solid_check; reflexivity]|].
Theorem C90_thermo_package : forall name p F props, printable name p F props ->
  exists s ks, thermo_package name p props = Ok s /\ Permutation ks (map fst props) /\ in_order ks /\
    reads (title "MaterialPackage" name ++
           [quantity_line [text_of "Mass"] (mass_of p) (text_of "kg"); quantity_line [text_of "Amount"] (weigh (fun c => moles_per_kg (F c)) p) (text_of "kmol");
            quantity_line [text_of "Pressure"] (tp_P p) (text_of "atm"); quantity_line [text_of "Temperature"] (tp_T p) ["176"%char; "C"%char];
            quantity_line [text_of "Enthalpy"] (tp_H p) (text_of "kWh")] ++
           compound_table p F ++ property_table props ks ++ [ruled "="%char]) s.
Proof.
  intros name p F props (O & W & N & G & D & C). assert (G' : forall c, In c (tm_compounds (tp_material p)) -> proper c (F c) /\ has_atoms (F c)) by (intros c I; now apply G).
  destruct (compound_rows_ok p F W N G) as (rows & _ & E1 & _). destruct (own_ok props D C) as (own & _ & E2 & _). destruct (reads_properties props own D C E2) as (ks & P & I & R).
  eexists. exists ks. split; [|split; [exact P|split; [exact I|]]].
  - unfold thermo_package. rewrite (P_ThermoElem.get_amount_ok p F W G'). cbn [bind]. rewrite E1. cbn [bind]. rewrite E2. cbn [bind]. reflexivity.
  - rewrite (rsum_weigh p W). set (T := title _ _). set (a := rule "=" 67 ++ text_of "MaterialPackage" ++ nl ++ rule "=" 67 ++ ljust 20 (text_of "Material") ++ name ++ nl).
    match goal with |- reads _ ?t => replace t with (a ++ quantity "Mass" (mass_of p) (text_of "kg") ++ quantity "Amount" (weigh (fun c => moles_per_kg (F c)) p) (text_of "kmol") ++ quantity "Pressure" (tp_P p) (text_of "atm") ++
      quantity "Temperature" (tp_T p) degrees ++ quantity "Enthalpy" (tp_H p) (text_of "kWh") ++ (compound_head ++ rows) ++ own ++ rule "=" 67) by (unfold a; rewrite <- !app_assoc; reflexivity) end.
    apply reads_app; [apply reads_title; [literal|auto]|]. cbn [app].
    quant. quant. quant. quant. quant. apply reads_app; [now apply reads_compounds|]. apply reads_app; [exact R|]. apply reads_rule; [lia|discriminate|discriminate].
Qed.
Print Assumptions C90_thermo_package.
(** A stream: the heating value is shown for coal. *)
Theorem C90_thermo_stream : forall name s F props, printable name (s_body s) F props -> (tp_coal (s_body s) = true -> tp_HHV (s_body s) <> None) ->
  exists t ks, thermo_stream name s props = Ok t /\ Permutation ks (map fst props) /\ in_order ks /\
    reads (title "MaterialStream" name ++
           [quantity_line [text_of "Mass"; text_of "Flow"; text_of "Rate"] (mass_of (s_body s)) (text_of "kg/h");
            quantity_line [text_of "Amount"; text_of "Flow"; text_of "Rate"] (weigh (fun c => moles_per_kg (F c)) (s_body s)) (text_of "kmol/h");
            quantity_line [text_of "Pressure"] (tp_P (s_body s)) (text_of "atm"); quantity_line [text_of "Temperature"] (tp_T (s_body s)) ["176"%char; "C"%char];
            quantity_line [text_of "Enthalpy"; text_of "Flow"; text_of "Rate"] (tp_H (s_body s)) (text_of "kWh/h")] ++
           (if tp_coal (s_body s) then match tp_HHV (s_body s) with Some h => [quantity_line [text_of "HHV"] h (text_of "MJ/kg")] | None => [] end else []) ++
           compound_table (s_body s) F ++ property_table props ks ++ [ruled "="%char]) t.
Proof.
  intros name s F props (O & W & N & G & D & C) HV. set (p := s_body s) in *. assert (G' : forall c, In c (tm_compounds (tp_material p)) -> proper c (F c) /\ has_atoms (F c)) by (intros c I; now apply G).
  destruct (compound_rows_ok p F W N G) as (rows & _ & E1 & _). destruct (own_ok props D C) as (own & _ & E2 & _). destruct (reads_properties props own D C E2) as (ks & P & I & R).
  assert (H : exists h, (if tp_coal p then match tp_HHV p with Some h => Ok (quantity "HHV" h (text_of "MJ/kg")) | None => Err TypeError end else Ok []) = Ok h /\
    reads (if tp_coal p then match tp_HHV p with Some h => [quantity_line [text_of "HHV"] h (text_of "MJ/kg")] | None => [] end else []) h).
  { destruct (tp_coal p); [destruct (tp_HHV p) as [h|]; [|exfalso; now apply HV]|].
    - eexists. split; [reflexivity|]. apply reads_quantity; [discriminate|reflexivity|solids|cbn; lia|apply solid_check; reflexivity].
    - exists []. split; auto. exists []. split; constructor. }
  destruct H as (h & E3 & RH). eexists. exists ks. split; [|split; [exact P|split; [exact I|]]].
  - unfold thermo_stream, get_afr. cbv zeta. fold p. rewrite (P_ThermoElem.get_amount_ok p F W G'). cbn [bind]. rewrite E3. cbn [bind]. rewrite E1. cbn [bind]. rewrite E2. cbn [bind]. reflexivity.
  - change (mfr s) with (get_mass p). rewrite (rsum_weigh p W). set (T := title _ _). set (a := rule "=" 67 ++ text_of "MaterialStream" ++ nl ++ rule "=" 67 ++ ljust 20 (text_of "Material") ++ name ++ nl).
    match goal with |- reads _ ?t => replace t with (a ++ quantity "Mass Flow Rate" (mass_of p) (text_of "kg/h") ++ quantity "Amount Flow Rate" (weigh (fun c => moles_per_kg (F c)) p) (text_of "kmol/h") ++ quantity "Pressure" (tp_P p) (text_of "atm") ++
      quantity "Temperature" (tp_T p) degrees ++ quantity "Enthalpy Flow Rate" (tp_H p) (text_of "kWh/h") ++ h ++ (compound_head ++ rows) ++ own ++ rule "=" 67) by (unfold a; rewrite <- !app_assoc; reflexivity) end.
    apply reads_app; [apply reads_title; [literal|auto]|]. cbn [app].
    quant. quant. quant. quant. quant. apply reads_app; [exact RH|]. apply reads_app; [now apply reads_compounds|]. apply reads_app; [exact R|]. apply reads_rule; [lia|discriminate|discriminate].
Qed.
Print Assumptions C90_thermo_stream.
(** What a package prints tells its compounds and, to nine digits, its temperature,
    pressure, enthalpy and the masses of the compounds. *)
Definition same9 (x y : R) : Prop := 99999999 * Rabs (x - y) <= Rabs x.
Lemma quantity_same ws ws' x y u u' l : length ws = length ws' -> quantity_line ws x u l -> quantity_line ws' y u' l -> same9 x y.
Proof.
  intros L (t & S & W) (t' & S' & W'). pose proof (says_unique _ _ _ W W') as E. apply P_Tables.app_inj_len in E; auto. destruct E as [_ E]. assert (t = t') by congruence. subst t'. eapply shows9_near; eauto.
Qed.
Lemma split_rows {X} (Q : X -> Prop) (a b a' b' : list X) : Forall Q a -> Forall Q a' -> (exists x r, b = x :: r /\ ~ Q x) -> (exists x r, b' = x :: r /\ ~ Q x) -> a ++ b = a' ++ b' -> a = a' /\ b = b'.
Proof.
  intros A. revert a'. induction A as [|x a Hx A IH]; intros a' A' B B' E.
  - destruct A' as [|y a' Hy A']; auto. destruct B as (z & r & -> & N). cbn [app] in E. injection E as -> _. contradiction.
  - destruct A' as [|y a' Hy A']; [destruct B' as (z & r & -> & N); cbn [app] in E; injection E as -> _; contradiction|]. cbn [app] in E. injection E as -> E. destruct (IH a' A' B B' E) as [-> ->]. auto.
Qed.
Definition four_words (l : text) : Prop := exists a b c d, says l [a; b; c; d].
Lemma ruled_not_four c l : c <> " "%char -> c <> "009"%char -> is_space c = false -> ruled c l -> ~ four_words l.
Proof.
  intros N1 N2 N3 [A B] (a & b & d & e & H). assert (S : solid l) by (split; auto; intros x I; apply B in I; now subst).
  assert (W : says l [l]). { apply says_solid; [|constructor; auto]. rewrite <- (app_nil_r l) at 1. apply hw_solid; auto; [now left|constructor]. } pose proof (says_unique _ _ _ H W). discriminate.
Qed.
Lemma Forall2_split {X Y} (P : X -> Y -> Prop) a b l : Forall2 P (a ++ b) l -> exists la lb, l = la ++ lb /\ Forall2 P a la /\ Forall2 P b lb.
Proof. intros H. apply Forall2_app_inv_l in H. destruct H as (la & lb & A & B & E). eauto. Qed.
Theorem C90_thermo_package_tells : forall name name' p p' F F' props props' s, printable name p F props -> printable name' p' F' props' -> thermo_package name p props = Ok s -> thermo_package name' p' props' = Ok s ->
  tm_compounds (tp_material p) = tm_compounds (tp_material p') /\ same9 (tp_T p) (tp_T p') /\ same9 (tp_P p) (tp_P p') /\ same9 (tp_H p) (tp_H p') /\ forall c, same9 (has p c) (has p' c).
Proof.
  intros name name' p p' F F' props props' s V V' E E'. destruct (C90_thermo_package name p F props V) as (s1 & ks & E1 & _ & _ & ls & L & R). rewrite E in E1. injection E1 as <-.
  destruct (C90_thermo_package name' p' F' props' V') as (s1 & ks' & E1 & _ & _ & ls' & L' & R'). rewrite E' in E1. injection E1 as <-. pose proof (lines_unique _ _ _ L L') as X. subst ls'. clear L L' E E'.
  apply Forall2_split in R, R'. destruct R as (t1 & r1 & -> & T1 & R). destruct R' as (t1' & r1' & X & T1' & R'). apply P_Tables.app_inj_len in X; [|apply Forall2_length in T1, T1'; cbn in *; congruence]. destruct X as [<- <-].
  apply Forall2_split in R, R'. destruct R as (t2 & r2 & -> & T2 & R). destruct R' as (t2' & r2' & X & T2' & R'). apply P_Tables.app_inj_len in X; [|apply Forall2_length in T2, T2'; cbn in *; congruence]. destruct X as [<- <-].
  unfold compound_table in R, R'. rewrite <- !app_assoc in R, R'.
  apply Forall2_split in R, R'. destruct R as (t3 & r3 & -> & T3 & R). destruct R' as (t3' & r3' & X & T3' & R'). apply P_Tables.app_inj_len in X; [|apply Forall2_length in T3, T3'; cbn in *; congruence]. destruct X as [<- <-].
  apply Forall2_split in R, R'. destruct R as (t4 & r4 & -> & T4 & R). destruct R' as (t4' & r4' & X & T4' & R').
  assert (Q4 : forall p F cs ls, Forall2 (fun (P : text -> Prop) l => P l) (map (compound_line p F) cs) ls -> Forall four_words ls).
  { clear. intros p F cs ls H. rewrite Forall2_map_l in H. induction H as [|c l cs ls (a & b & d & _ & _ & _ & H) _ IH]; constructor; auto. now exists (text_of c), a, b, d. }
  assert (Q5 : forall props ks r, Forall2 (fun (P : text -> Prop) l => P l) (property_table props ks ++ [ruled "="%char]) r -> exists x q, r = x :: q /\ ~ four_words x).
  { clear. intros props ks r H. destruct props as [|kv props]; cbn [property_table app] in H; inversion H as [|? x ? q U]; subst; exists x, q; (split; [reflexivity|]); [apply (ruled_not_four "="%char)|apply (ruled_not_four "-"%char)]; auto; discriminate. }
  destruct (split_rows four_words t4 r4 t4' r4') as [<- <-]; [exact (Q4 _ _ _ _ T4)|exact (Q4 _ _ _ _ T4')|exact (Q5 _ _ _ R)|exact (Q5 _ _ _ R')|exact X|].
  assert (Q6 : map fst (map (fun c => (c, has p c)) (tm_compounds (tp_material p))) = map fst (map (fun c => (c, has p' c)) (tm_compounds (tp_material p'))) /\ forall c, In c (tm_compounds (tp_material p)) -> same9 (has p c) (has p' c)).
  { rewrite !map_map. cbn [fst]. rewrite !map_id. rewrite Forall2_map_l in T4, T4'. clear - T4 T4'. revert T4'. generalize (tm_compounds (tp_material p')). induction T4 as [|c l cs ls A T4 IH]; intros cs' B; inversion B as [|c' ? cs'' ? B1 B2]; subst; [split; [reflexivity|intros c []]|].
    destruct (IH _ B2) as [-> K]. destruct A as (a & b & d & A1 & _ & _ & A2). destruct B1 as (a' & b' & d' & B1 & _ & _ & B3). pose proof (says_unique _ _ _ A2 B3) as Z.
    assert (Zc : text_of c = text_of c') by congruence. assert (Za : a = a') by congruence. apply (f_equal str_of) in Zc. rewrite !text_str in Zc. subst c' a'. split; auto. intros k [<-|I]; auto. eapply shows9_near; eauto. }
  destruct Q6 as [Q6 Q7]. rewrite !map_map in Q6. cbn [fst] in Q6. rewrite !map_id in Q6. split; auto.
  inversion T2 as [|? ? ? ? A1 T2a]; subst. inversion T2a as [|? ? ? ? A2 T2b]; subst. inversion T2b as [|? ? ? ? A3 T2c]; subst. inversion T2c as [|? ? ? ? A4 T2d]; subst. inversion T2d as [|? ? ? ? A5 T2e]; subst.
  inversion T2' as [|? ? ? ? B1 U2a]; subst. inversion U2a as [|? ? ? ? B2 U2b]; subst. inversion U2b as [|? ? ? ? B3 U2c]; subst. inversion U2c as [|? ? ? ? B4 U2d]; subst. inversion U2d as [|? ? ? ? B5 U2e]; subst.
  split; [eapply quantity_same; [|exact A4|exact B4]; reflexivity|]. split; [eapply quantity_same; [|exact A3|exact B3]; reflexivity|]. split; [eapply quantity_same; [|exact A5|exact B5]; reflexivity|].
  intros c. destruct (in_dec string_dec c (tm_compounds (tp_material p))) as [I|I]; auto.
  assert (Z : forall q, tm_compounds (tp_material q) = tm_compounds (tp_material p) -> has q c = 0).
  { intros q Eq. unfold has, weigh. rewrite Eq. rewrite (weigh_ext _ (fun _ => 0 * 0)). - rewrite (weigh_mul 0). ring. - intros d Hd. destruct (string_dec d c); [subst; contradiction|ring]. }
  unfold same9. rewrite (Z p), (Z p') by auto. rewrite Rminus_0_r, Rabs_R0. lra.
Qed.
Print Assumptions C90_thermo_package_tells.
