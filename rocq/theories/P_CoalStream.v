(** Proofs about streams of coal. *)
From Verif Require Import Prelude M_Elements M_Stoichiometry M_Lists M_Thermochem M_Coals M_ThermoMat M_Streams Spec_Stoich Spec_Thermo Spec_ThermoMat Spec_Coals Spec_Streams
  P_ThermoApi P_Content P_ThermoMat P_Coals P_Streams.
From Verif Require P_Convert P_Chem P_ThermoElem.
From Coq Require Import Reals Qreals Lra.
Local Open Scope list_scope.
Local Open Scope R_scope.

Lemma Q2R_one (q : Qc) : Qc_eq_bool q 1 = if Req_EM_T (Q2R (this q)) 1 then true else false.
Proof.
  unfold Qc_eq_bool. destruct (Qc_eq_dec q 1) as [->|N]; destruct (Req_EM_T _ 1) as [E|E]; auto.
  - exfalso. apply E. unfold Q2R. cbn. field.
  - exfalso. apply N. apply Qc_is_canon. apply eqR_Qeq. rewrite E. unfold Q2R. cbn. field.
Qed.
Lemma first_whole_ok c F : proper (formula_part c) (F c) -> has_atoms (F c) -> first_whole (formula_part c) daf_elements = Ok (pure_element F c).
Proof.
  intros P A. unfold pure_element, daf_elements. generalize ["C"%string; "H"%string; "O"%string; "N"%string; "S"%string]. intros l.
  induction l as [|e l IH]; cbn [first_whole find]; auto. rewrite (P_Chem.efrac_ok _ _ e P A). cbn [bind]. rewrite Q2R_one. pose proof (P_ThermoElem.efrac_share _ _ e P A) as S. unfold P_ThermoElem.q2 in S. rewrite S.
  destruct (Req_EM_T (element_share e (F c)) 1); auto.
Qed.

Definition is_e (F : string -> formula) (e c : string) : R := match pure_element F c with Some d => if string_dec d e then 1 else 0 | None => 0 end.
Lemma daf_in_ok db b F : wf b -> known db (tp_material b) -> formula_of (tp_material b) F ->
  exists m, daf_in db b = Ok (m, elements_enthalpy db F b) /\ forall e, m e = daf_mass F b e.
Proof.
  intros [N L] K Fo. unfold daf_in, get_compound_index, elements_enthalpy, daf_mass, weigh.
  assert (G : forall suf msuf pre mpre m0 a, tm_compounds (tp_material b) = pre ++ suf -> tp_masses b = mpre ++ msuf -> length pre = length mpre -> length suf = length msuf ->
    exists m, foldM (fun s c => do i <- index_of string_dec c (tm_compounds (tp_material b)); do e <- first_whole (formula_part c) daf_elements;
        match e with None => Ok s | Some e => do x <- get (tp_masses b) i; do h <- thermo_H db c 25 x; Ok (add_daf (fst s) e x, snd s + h) end) suf (m0, a)
      = Ok (m, a + weigh_list (fun c => match pure_element F c with Some _ => specific_H db c 25 | None => 0 end) suf msuf) /\ forall e, m e = m0 e + weigh_list (is_e F e) suf msuf).
  { induction suf as [|c suf IH]; intros [|x msuf] pre mpre m0 a E1 E2 L1 L2; try discriminate; cbn [foldM].
    - exists m0. unfold weigh_list. cbn. split; [do 2 f_equal; ring|intros; ring].
    - assert (Nc : nth_error (tm_compounds (tp_material b)) (length pre) = Some c) by (rewrite E1; apply nth_at). assert (Ic := nth_error_In _ _ Nc).
      rewrite (index_nth string_dec _ (length pre) c N Nc). cbn [bind]. destruct (Fo c Ic) as [P A]. rewrite (first_whole_ok c F P A). cbn [bind].
      assert (Nx : get (tp_masses b) (length pre) = Ok x) by (unfold get; now rewrite E2, L1, nth_at).
      assert (E1' : tm_compounds (tp_material b) = (pre ++ [c]) ++ suf) by (now rewrite <- app_assoc). assert (E2' : tp_masses b = (mpre ++ [x]) ++ msuf) by (now rewrite <- app_assoc).
      assert (L1' : length (pre ++ [c]) = length (mpre ++ [x])) by (rewrite !app_length; cbn; congruence). cbn in L2. injection L2 as L2.
      destruct (pure_element F c) as [e|] eqn:Pe.
      + rewrite Nx. cbn [bind]. rewrite (known_H db (tp_material b)) by auto. cbn [bind fst snd]. destruct (IH msuf _ _ (add_daf m0 e x) (a + specific_H db c 25 * x) E1' E2' L1' L2) as (m & Em & Vm). exists m. rewrite Em. split.
        * rewrite weigh_cons. rewrite Pe. do 2 f_equal. ring.
        * intros k. rewrite Vm, weigh_cons. unfold is_e at 2. rewrite Pe. unfold add_daf. destruct (string_dec k e), (string_dec e k); subst; try congruence; ring.
      + destruct (IH msuf _ _ m0 a E1' E2' L1' L2) as (m & Em & Vm). cbn [bind]. exists m. rewrite Em. split.
        * rewrite weigh_cons, Pe. do 2 f_equal. ring. * intros k. rewrite Vm, weigh_cons. unfold is_e at 2. rewrite Pe. ring. }
  destruct (G (tm_compounds (tp_material b)) (tp_masses b) [] [] (fun _ => 0) 0) as (m & E & V); auto. exists m. rewrite E. split; [do 2 f_equal; ring|]. intros e. rewrite V. unfold is_e. ring.
Qed.
Lemma coal_parts_ok db b F T : wf b -> known db (tp_material b) -> formula_of (tp_material b) F ->
  exists m, coal_parts db b T = Ok (m, ash_enthalpy db F b T) /\ forall e, m e = daf_mass F b e.
Proof.
  intros [N L] K Fo. unfold coal_parts, get_compound_index, ash_enthalpy, daf_mass, weigh.
  assert (G : forall suf msuf pre mpre m0 a, tm_compounds (tp_material b) = pre ++ suf -> tp_masses b = mpre ++ msuf -> length pre = length mpre -> length suf = length msuf ->
    exists m, foldM (fun s c => do i <- index_of string_dec c (tm_compounds (tp_material b)); do e <- first_whole (formula_part c) daf_elements; do x <- get (tp_masses b) i;
        match e with Some e => Ok (add_daf (fst s) e x, snd s) | None => do h <- thermo_H db c T x; Ok (fst s, snd s + h) end) suf (m0, a)
      = Ok (m, a + weigh_list (fun c => match pure_element F c with Some _ => 0 | None => specific_H db c T end) suf msuf) /\ forall e, m e = m0 e + weigh_list (is_e F e) suf msuf).
  { induction suf as [|c suf IH]; intros [|x msuf] pre mpre m0 a E1 E2 L1 L2; try discriminate; cbn [foldM].
    - exists m0. unfold weigh_list. cbn. split; [do 2 f_equal; ring|intros; ring].
    - assert (Nc : nth_error (tm_compounds (tp_material b)) (length pre) = Some c) by (rewrite E1; apply nth_at). assert (Ic := nth_error_In _ _ Nc).
      rewrite (index_nth string_dec _ (length pre) c N Nc). cbn [bind]. destruct (Fo c Ic) as [P A]. rewrite (first_whole_ok c F P A). cbn [bind].
      assert (Nx : get (tp_masses b) (length pre) = Ok x) by (unfold get; now rewrite E2, L1, nth_at). rewrite Nx. cbn [bind].
      assert (E1' : tm_compounds (tp_material b) = (pre ++ [c]) ++ suf) by (now rewrite <- app_assoc). assert (E2' : tp_masses b = (mpre ++ [x]) ++ msuf) by (now rewrite <- app_assoc).
      assert (L1' : length (pre ++ [c]) = length (mpre ++ [x])) by (rewrite !app_length; cbn; congruence). cbn in L2. injection L2 as L2.
      destruct (pure_element F c) as [e|] eqn:Pe.
      + cbn [bind fst snd]. destruct (IH msuf _ _ (add_daf m0 e x) a E1' E2' L1' L2) as (m & Em & Vm). exists m. rewrite Em. split.
        * rewrite weigh_cons. rewrite Pe. do 2 f_equal. ring.
        * intros k. rewrite Vm, weigh_cons. unfold is_e at 2. rewrite Pe. unfold add_daf. destruct (string_dec k e), (string_dec e k); subst; try congruence; ring.
      + rewrite (known_H db (tp_material b)) by auto. cbn [bind fst snd]. destruct (IH msuf _ _ m0 (a + specific_H db c T * x) E1' E2' L1' L2) as (m & Em & Vm). exists m. rewrite Em. split.
        * rewrite weigh_cons, Pe. do 2 f_equal. ring. * intros k. rewrite Vm, weigh_cons. unfold is_e at 2. rewrite Pe. ring. }
  destruct (G (tm_compounds (tp_material b)) (tp_masses b) [] [] (fun _ => 0) 0) as (m & E & V); auto. exists m. rewrite E. split; [do 2 f_equal; ring|]. intros e. rewrite V. unfold is_e. ring.
Qed.

(** * Combustion *)
Lemma rconvert_lit x s t el qs qt v : element_mass_fraction t el = Ok qt -> Qc_eq_bool qt 0 = false -> element_mass_fraction s el = Ok qs -> Q2R (this qs) / Q2R (this qt) = v -> rconvert x s t el = Ok (x * v).
Proof. intros E N S <-. unfold rconvert. rewrite E. cbn [bind]. rewrite N, S. cbn [bind]. f_equal. unfold Rdiv. ring. Qed.
Lemma carbon x : rconvert x "C" "CO2" "C" = Ok (x * (44.0095 / 12.0107)).
Proof. eapply rconvert_lit; [vm_compute; reflexivity|vm_compute; reflexivity|vm_compute; reflexivity|]. unfold Q2R. cbn. lra. Qed.
Lemma hydrogen x : rconvert x "H" "H2O" "H" = Ok (x * (18.01528 / 2.01588)).
Proof. eapply rconvert_lit; [vm_compute; reflexivity|vm_compute; reflexivity|vm_compute; reflexivity|]. unfold Q2R. cbn. lra. Qed.
Lemma sulphur x : rconvert x "S" "SO2" "S" = Ok (x * (64.0648 / 32.066)).
Proof. eapply rconvert_lit; [vm_compute; reflexivity|vm_compute; reflexivity|vm_compute; reflexivity|]. unfold Q2R. cbn. lra. Qed.
Lemma product_H db c x : products_known db -> In c ["CO2[G]"%string; "H2O[L]"%string; "O2[G]"%string; "N2[G]"%string; "SO2[G]"%string] -> thermo_H db c 25 x = Ok (specific_H db c 25 * x).
Proof. intros K I. destruct (K c I) as [v E]. unfold specific_H, thermo_H in *. rewrite E. cbn [value]. rewrite (thermo_linear _ _ _ _ x v E). f_equal. ring. Qed.
Lemma burnt_ok db b F m : products_known db -> (forall e, m e = daf_mass F b e) -> burnt db m = Ok (burnt_enthalpy db F b).
Proof.
  intros K E. unfold burnt. rewrite carbon. cbn [bind]. rewrite product_H by (cbn; tauto). cbn [bind]. rewrite hydrogen. cbn [bind]. rewrite product_H by (cbn; tauto). cbn [bind]. rewrite !product_H by (cbn; tauto). cbn [bind].
  rewrite sulphur. cbn [bind]. rewrite product_H by (cbn; tauto). cbn [bind]. f_equal. unfold burnt_enthalpy. rewrite !E. ring.
Qed.
Lemma total_ok b F m : (forall e, m e = daf_mass F b e) -> daf_total m = daf F b.
Proof. intros E. unfold daf_total, daf. now rewrite !E. Qed.
Lemma ndiv_ne a b : b <> 0 -> ndiv a b = Ok (a / b). Proof. intros H. unfold ndiv. destruct (Req_EM_T b 0); [contradiction|auto]. Qed.
Lemma DH298_given db b F h : wf b -> known db (tp_material b) -> formula_of (tp_material b) F -> products_known db -> daf F b <> 0 -> tp_HHV b = Some h ->
  DH298_coal db b = Ok ((heat_of_combustion h b + burnt_enthalpy db F b) / daf F b).
Proof.
  intros W K Fo Pk D Hh. unfold DH298_coal. destruct (daf_in_ok db b F W K Fo) as (m & E & V). rewrite E. cbn [bind fst snd]. rewrite (burnt_ok db b F m Pk V). cbn [bind]. rewrite (total_ok b F m V).
  rewrite ndiv_ne by auto. cbn [bind]. rewrite Hh. rewrite ndiv_ne by auto. cbn [bind]. f_equal. unfold heat_of_combustion. rewrite mass_rsum by auto. unfold get_mass. replace 3.6 with (36 / 10) by lra. field. auto.
Qed.
Lemma DH298_none db b F : wf b -> known db (tp_material b) -> formula_of (tp_material b) F -> products_known db -> daf F b <> 0 -> tp_HHV b = None ->
  DH298_coal db b = Ok ((burnt_enthalpy db F b / daf F b - elements_enthalpy db F b) / daf F b + burnt_enthalpy db F b / daf F b).
Proof.
  intros W K Fo Pk D Hh. unfold DH298_coal. destruct (daf_in_ok db b F W K Fo) as (m & E & V). rewrite E. cbn [bind fst snd]. rewrite (burnt_ok db b F m Pk V). cbn [bind]. rewrite (total_ok b F m V).
  rewrite ndiv_ne by auto. cbn [bind]. rewrite Hh. rewrite ndiv_ne by auto. reflexivity.
Qed.

(** * Enthalpy *)
Lemma daf_mass_nonneg F b e : not_negative b -> 0 <= daf_mass F b e.
Proof.
  intros N. unfold daf_mass, weigh, not_negative in *. revert N. generalize (tm_compounds (tp_material b)) (tp_masses b). intros cs. induction cs as [|c cs IH]; intros [|m ms] N; try (unfold weigh_list; cbn; lra).
  rewrite weigh_cons. assert (0 <= m) by (apply N; cbn; auto). assert (0 <= weigh_list (fun c0 => match pure_element F c0 with Some d => if string_dec d e then 1 else 0 | None => 0 end) cs ms) by (apply IH; intros; apply N; cbn; auto).
  destruct (pure_element F c) as [d|]; [destruct (string_dec d e)|]; lra.
Qed.
Lemma daf_atoms F b : not_negative b -> 0 < daf F b ->
  0 < atoms_per_kg (daf_mass F b "C" / daf F b) (daf_mass F b "H" / daf F b) (daf_mass F b "O" / daf F b) (daf_mass F b "N" / daf F b) (daf_mass F b "S" / daf F b).
Proof.
  intros N D. pose proof (daf_mass_nonneg F b "C" N). pose proof (daf_mass_nonneg F b "H" N). pose proof (daf_mass_nonneg F b "O" N). pose proof (daf_mass_nonneg F b "N" N). pose proof (daf_mass_nonneg F b "S" N).
  unfold atoms_per_kg. unfold daf in *. set (c := daf_mass F b "C") in *. set (h := daf_mass F b "H") in *. set (o := daf_mass F b "O") in *. set (n := daf_mass F b "N") in *. set (s := daf_mass F b "S") in *. set (t := c + h + o + n + s) in *.
  replace (c / t / 12.0107 + h / t / 1.00794 + o / t / 15.9994 + n / t / 14.00674 + s / t / 32.066) with ((c / 12.0107 + h / 1.00794 + o / 15.9994 + n / 14.00674 + s / 32.066) / t) by (field_simplify_eq; [lra|lra]).
  apply Rdiv_lt_0_compat; auto. unfold t in D. lra.
Qed.
Lemma daf_enthalpy_ok F b TK : not_negative b -> 0 < daf F b -> 0 < TK -> forall m, (forall e, m e = daf_mass F b e) ->
  daf_enthalpy (fun k => m k / daf F b) TK = Ok (value (daf_H TK (daf_mass F b "C" / daf F b) (daf_mass F b "H" / daf F b) (daf_mass F b "O" / daf F b) (daf_mass F b "N" / daf F b) (daf_mass F b "S" / daf F b)) / 3600000).
Proof.
  intros N D T m V. unfold daf_enthalpy. rewrite !V. pose proof (daf_atoms F b N D). rewrite daf_H_ok; [|auto|lra]. reflexivity.
Qed.
Lemma Hfr_coal_ok db s F T d : wf (s_body s) -> known db (tp_material (s_body s)) -> formula_of (tp_material (s_body s)) F -> not_negative (s_body s) -> 0 < daf F (s_body s) -> -273.15 < T ->
  s_DH298 s = Some d -> Hfr_coal db s T = Ok (ash_enthalpy db F (s_body s) T + (daf_heat F (s_body s) T + d) * daf F (s_body s)).
Proof.
  intros W K Fo N D HT Hd. unfold Hfr_coal. destruct (coal_parts_ok db (s_body s) F T W K Fo) as (m & E & V). rewrite E. cbn [bind fst snd]. rewrite (total_ok _ F m V). rewrite ndiv_ne by lra. cbn [bind].
  rewrite (daf_enthalpy_ok F _ _ N D) by (auto; lra). cbn [bind]. rewrite (daf_enthalpy_ok F _ _ N D) by (auto; lra). cbn [bind]. rewrite Hd. f_equal. unfold daf_heat.
  replace (T + 273.15) with (T + 27315 / 100) by lra. replace 298.15 with (29815 / 100) by lra. set (h1 := value _). set (h2 := value _). f_equal. f_equal. f_equal. lra.
Qed.

(** * Scaling *)
Lemma daf_mass_scale F b b' k e : (forall w, weigh w b' = k * weigh w b) -> daf_mass F b' e = k * daf_mass F b e.
Proof. intros V. apply V. Qed.
Lemma daf_scale F b b' k : (forall w, weigh w b' = k * weigh w b) -> daf F b' = k * daf F b.
Proof. intros V. unfold daf. rewrite !(daf_mass_scale F b b' k) by auto. ring. Qed.
Lemma daf_heat_scale F b b' k T : (forall w, weigh w b' = k * weigh w b) -> k <> 0 -> daf F b <> 0 -> daf_heat F b' T = daf_heat F b T.
Proof.
  intros V K D. unfold daf_heat. assert (E : forall e, daf_mass F b' e / daf F b' = daf_mass F b e / daf F b) by (intros e; rewrite (daf_mass_scale F b b' k), (daf_scale F b b' k) by auto; field; auto).
  now rewrite !E.
Qed.
Lemma burnt_scale db F b b' k : (forall w, weigh w b' = k * weigh w b) -> burnt_enthalpy db F b' = k * burnt_enthalpy db F b.
Proof. intros V. unfold burnt_enthalpy. rewrite !(daf_mass_scale F b b' k) by auto. ring. Qed.
Lemma heat_scale h b b' k : (forall w, weigh w b' = k * weigh w b) -> heat_of_combustion h b' = k * heat_of_combustion h b.
Proof. intros V. unfold heat_of_combustion, mass_of. rewrite V. ring. Qed.
Lemma coal_scale db F h b b' k T : (forall w, weigh w b' = k * weigh w b) -> k <> 0 -> daf F b <> 0 -> coal_enthalpy db F h b' T = k * coal_enthalpy db F h b T.
Proof.
  intros V K D. unfold coal_enthalpy. rewrite (daf_heat_scale F b b' k), (daf_scale F b b' k), (burnt_scale db F b b' k), (heat_scale h b b' k) by auto. unfold ash_enthalpy. rewrite V. ring.
Qed.
Lemma daf_mass_pos F b : wf b -> not_negative b -> 0 < daf F b -> 0 < rsum (tp_masses b).
Proof.
  intros W N D. destruct (Rlt_le_dec 0 (rsum (tp_masses b))) as [|L]; auto. exfalso. pose proof (rsum_zero _ N L) as Z.
  unfold daf, daf_mass, weigh in D. rewrite !weigh_zero in D by auto. lra.
Qed.
Lemma daf_heat_25 F b : daf_heat F b 25 = 0.
Proof. unfold daf_heat. replace (25 + 273.15) with 298.15 by lra. lra. Qed.

(** * Streams of coal *)
Lemma same_contents F b b' : tp_material b' = tp_material b -> tp_masses b' = tp_masses b -> (forall e, daf_mass F b' e = daf_mass F b e) /\ daf F b' = daf F b /\ mass_of b' = mass_of b.
Proof. intros M X. unfold daf, daf_mass, mass_of, weigh. rewrite M, X. auto. Qed.
Lemma coal_calc db F s h T : coal_stream db F (s_body s) -> tp_HHV (s_body s) = Some h -> DH298_coal db (s_body s) = Ok (value (DH298_coal db (s_body s))) -> s_DH298 s = Some (value (DH298_coal db (s_body s))) -> -273.15 < T ->
  calculate_Hfr db s T = Ok (coal_enthalpy db F h (s_body s) T).
Proof.
  intros (W & K & Fo & Pk & N & D & C) Hh _ Hd HT. unfold calculate_Hfr. rewrite C. rewrite (Hfr_coal_ok db s F T _ W K Fo N D HT Hd). rewrite (DH298_given db _ F h) by (auto; lra). cbn [value]. f_equal. unfold coal_enthalpy. field. lra.
Qed.
Lemma new_coal_ok db F m ms P T h s : new_stream db m ms P T true (Some h) = Ok s -> coal_stream db F (s_body s) -> -273.15 < T ->
  s_DH298 s = Some ((heat_of_combustion h (s_body s) + burnt_enthalpy db F (s_body s)) / daf F (s_body s)) /\ tp_H (s_body s) = coal_enthalpy db F h (s_body s) T.
Proof.
  intros H Cs HT. pose proof Cs as (W & K & Fo & Pk & N & D & C). apply new_stream_shape in H. destruct H as (H0 & B & Hp & _ & Hc & _). destruct (Hc eq_refl) as (d & Ed & Dd).
  assert (Q : DH298_coal db (mktp m ms P T 0 true (Some h)) = DH298_coal db (s_body s)) by (rewrite B; reflexivity). rewrite Q in Dd.
  assert (Hh : tp_HHV (s_body s) = Some h) by now rewrite B.
  pose proof (DH298_given db _ F h W K Fo Pk (Rgt_not_eq _ _ D) Hh) as G. split; [congruence|].
  pose proof (daf_mass_pos F _ W N D) as M. assert (Em : tp_masses (s_body s) = ms) by now rewrite B. rewrite Em in M. specialize (Hp M).
  rewrite (coal_calc db F s h T Cs Hh) in Hp; [|rewrite G; reflexivity|rewrite G; cbn [value]; congruence|auto]. rewrite B at 1. cbn. congruence.
Qed.
Lemma new_coal_none db F m ms P T s : new_stream db m ms P T true None = Ok s -> coal_stream db F (s_body s) -> -273.15 < T ->
  tp_H (s_body s) = ash_enthalpy db F (s_body s) T + daf F (s_body s) * daf_heat F (s_body s) T + burnt_enthalpy db F (s_body s) + burnt_enthalpy db F (s_body s) / daf F (s_body s) - elements_enthalpy db F (s_body s).
Proof.
  intros H (W & K & Fo & Pk & N & D & C) HT. apply new_stream_shape in H. destruct H as (H0 & B & Hp & _ & Hc & _). destruct (Hc eq_refl) as (d & Ed & Dd).
  assert (Q : DH298_coal db (mktp m ms P T 0 true None) = DH298_coal db (s_body s)) by (rewrite B; reflexivity). rewrite Q in Dd.
  assert (Hh : tp_HHV (s_body s) = None) by now rewrite B. rewrite (DH298_none db _ F W K Fo Pk) in Dd by (auto; lra). injection Dd as Dd.
  pose proof (daf_mass_pos F _ W N D) as M. assert (Em : tp_masses (s_body s) = ms) by now rewrite B. rewrite Em in M. specialize (Hp M). unfold calculate_Hfr in Hp. rewrite C in Hp.
  rewrite (Hfr_coal_ok db s F T _ W K Fo N D HT Ed) in Hp. injection Hp as Hp. assert (E0 : tp_H (s_body s) = H0) by now rewrite B. rewrite E0, <- Hp, <- Dd. field. lra.
Qed.
Lemma new_coal_total db F m ms P T h : coal_stream db F (mktp m ms P T 0 true (Some h)) -> -273.15 < T -> exists s, new_stream db m ms P T true (Some h) = Ok s.
Proof.
  intros Cs HT. pose proof Cs as (W & K & Fo & Pk & N & D & C). unfold new_stream, put_HHV. cbn [s_body]. unfold set_HHV. cbn [tp_coal tp_material tp_masses tp_P tp_T tp_H].
  pose proof (DH298_given db _ F h W K Fo Pk (Rgt_not_eq _ _ D) eq_refl) as G. rewrite G. unfold done. cbn [snd fst bind]. destruct (Rlt_dec _ _); [|eauto].
  rewrite (coal_calc db F _ h T); cbn [s_body s_DH298]; [cbn [bind]; eauto|exact Cs|reflexivity|rewrite G; reflexivity|rewrite G; reflexivity|auto].
Qed.
Lemma scaled_coal db F b k T P h h' : coal_stream db F b -> 0 < k -> coal_stream db F (mktp (tp_material b) (rscale (tp_masses b) k) P T h true h').
Proof.
  intros ([N L] & K & Fo & Pk & Nn & D & C) Hk. assert (V : forall w, weigh w (mktp (tp_material b) (rscale (tp_masses b) k) P T h true h') = k * weigh w b) by (intros w; unfold weigh; cbn; apply weigh_scale).
  split; [split; cbn; auto; unfold rscale; now rewrite map_length|]. split; auto. split; auto. split; auto.
  split; [intros x Hx; cbn in Hx; apply In_rscale in Hx; destruct Hx as (y & -> & Hy); apply Rmult_le_pos; [auto|lra]|].
  split; [|reflexivity]. rewrite (daf_scale F b _ k V). apply Rmult_lt_0_compat; auto.
Qed.
