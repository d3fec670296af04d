(** Elements and amounts of thermo packages. *)
From Verif Require Import Prelude M_Elements M_Stoichiometry M_Lists M_Thermochem M_ThermoMat Spec_Stoich Spec_Thermo Spec_ThermoMat P_Count P_Convert P_Content P_ThermoMat.
From Verif Require M_Chem P_Chem P_Stoich.
From Coq Require Import Reals Lra Qreals.
Local Open Scope list_scope.
Local Open Scope R_scope.
Notation weigh := Spec_ThermoMat.weigh.
Notation efrac := P_Chem.efrac.

Lemma Q2R_Qred x : Q2R (Qred x) = Q2R x.
Proof. apply Qeq_eqR, Qred_correct. Qed.
Definition q2 (x : Qc) : R := Q2R (this x).
Lemma q2_plus a b : q2 (a + b)%Qc = q2 a + q2 b.
Proof. unfold q2, Qcplus, Q2Qc. cbn [this]. now rewrite Q2R_Qred, Q2R_plus. Qed.
Lemma q2_mult a b : q2 (a * b)%Qc = q2 a * q2 b.
Proof. unfold q2, Qcmult, Q2Qc. cbn [this]. now rewrite Q2R_Qred, Q2R_mult. Qed.
Lemma q2_0 : q2 0%Qc = 0. Proof. unfold q2, Q2R. cbn. field. Qed.
Lemma q2_1 : q2 1%Qc = 1. Proof. unfold q2, Q2R. cbn. field. Qed.
Lemma q2_inj a b : q2 a = q2 b -> a = b.
Proof. intros H. apply Qc_is_canon. now apply eqR_Qeq. Qed.
Lemma q2_sum l : q2 (Qcsum l) = rsum (map q2 l).
Proof. induction l as [|x l IH]. - apply q2_0. - cbn [map rsum fold_right]. fold (rsum (map q2 l)). rewrite <- IH. change (Qcsum (x :: l)) with (x + Qcsum l)%Qc. apply q2_plus. Qed.

Lemma rsum_map_plus {A} (f g : A -> R) l : rsum (map (fun x => f x + g x) l) = rsum (map f l) + rsum (map g l).
Proof. induction l as [|x l IH]; cbn; [ring|]. fold (rsum (map f l)) (rsum (map g l)) (rsum (map (fun x => f x + g x) l)). rewrite IH. ring. Qed.
Lemma rsum_map_scale {A} (f : A -> R) k l : rsum (map (fun x => k * f x) l) = k * rsum (map f l).
Proof. induction l as [|x l IH]; cbn; [ring|]. fold (rsum (map f l)) (rsum (map (fun x => k * f x) l)). rewrite IH. ring. Qed.

Lemma radd_map {A} (f g : A -> R) l : radd (map f l) (map g l) = Ok (map (fun x => f x + g x) l).
Proof. induction l as [|x l IH]; auto. cbn [map radd]. rewrite IH. reflexivity. Qed.

Lemma element_masses_ok p els : wf p -> formulas (tp_material p) ->
  element_masses p els = Ok (map (fun el => weigh (fun c => q2 (efrac c el)) p) els).
Proof.
  intros W F. unfold element_masses.
  assert (G : forall cs g, incl cs (tm_compounds (tp_material p)) ->
    foldM (fun r c => do x <- get_compound_mass p c; do fs <- element_mass_fractions c els; radd r (map (fun f => x * Q2R (this f)) fs)) cs (map g els)
    = Ok (map (fun el => g el + over cs (fun c => q2 (efrac c el) * has p c)) els)).
  { induction cs as [|c cs IH]; intros g I; cbn [foldM].
    - f_equal. apply map_ext. intros el. cbn. ring.
    - rewrite get_compound_mass_has by auto. cbn [bind]. destruct (F c) as (f & P & A); [apply I; cbn; auto|]. unfold element_mass_fractions at 1.
      rewrite (mapM_ext _ (fun el => Ok (efrac c el))) by (intros; eapply P_Chem.efrac_ok; eauto). rewrite mapM_Ok. cbn [bind]. rewrite map_map, radd_map. cbn [bind].
      rewrite IH by (intros d D; apply I; cbn; auto). f_equal. apply map_ext. intros el. cbn [over]. unfold q2. ring. }
  replace (repeat 0 (length els)) with (map (fun _ : string => 0) els) by (clear; induction els as [|e l IH]; cbn; congruence).
  rewrite (G (tm_compounds (tp_material p)) (fun _ => 0)) by apply incl_refl. f_equal. apply map_ext. intros el. rewrite over_has by auto. ring.
Qed.
Lemma efrac_share c f el : proper c f -> has_atoms f -> q2 (efrac c el) = element_share el f.
Proof.
  intros P A. unfold element_share, q2. f_equal. f_equal. unfold P_Chem.efrac. rewrite (emf_proper c f el P A). unfold element_mass. pose proof (molar_neq _ _ P A) as M.
  destruct (Z.eq_dec (atoms el f) 0) as [Z|Z].
  - rewrite Z. change (q_of_Z 0) with 0%Qc. field. auto.
  - rewrite mass_of_weight. + field. auto. + destruct P as [_ K]. apply K. now apply atoms_symbols.
Qed.
Lemma fractions_one m c : exact_formulas m -> listed m -> In c (tm_compounds m) -> rsum (map (fun el => q2 (efrac c el)) (tm_elements m)) = 1.
Proof.
  intros F L H. unfold listed, M_Chem.create_element_list in L. destruct (elements (tm_compounds m)) as [els|] eqn:E; cbn [bind] in L; [|discriminate]. injection L as L.
  apply elements_spec in E. destruct E as [Ne E]. rewrite <- L. destruct (F c H) as (f & G & K & A). destruct (emfs_sum c f (M_Chem.sorted els)) as (xs & X & S).
  - now apply P_Chem.exact_proper. - auto. - now apply P_Chem.sorted_nodup.
  - intros s Hs. apply P_Chem.elements_sorted_in, E in Hs. destruct Hs as (c' & f' & I' & G' & S'). destruct (F c' I') as (f2 & G2 & K2 & _). apply K2.
    assert (f2 = f') by (apply P_Stoich.grammar_parse_iff in G2, G'; congruence). now subst.
  - intros s Hs. apply P_Chem.elements_sorted_in, E. eauto.
  - unfold element_mass_fractions in X. rewrite (mapM_ext _ (fun el => Ok (efrac c el))) in X by (intros; eapply P_Chem.efrac_ok; eauto; now apply P_Chem.exact_proper).
    rewrite mapM_Ok in X. injection X as <-. rewrite <- q2_1, <- S, q2_sum, map_map. reflexivity.
Qed.
Lemma exact_formulas_formulas m : exact_formulas m -> formulas m.
Proof. intros F c H. destruct (F c H) as (f & G & K & A). exists f. split; auto. now apply P_Chem.exact_proper. Qed.
Lemma sum_weigh (s : string -> string -> R) els cs ms : rsum (map (fun el => weigh_list (s el) cs ms) els) = weigh_list (fun c => rsum (map (fun el => s el c) els)) cs ms.
Proof.
  revert ms. induction cs as [|c cs IH]; intros [|m ms].
  1-3: (transitivity (rsum (map (fun _ : string => 0 * 0) els)); [f_equal; apply map_ext; intros; rewrite ?weigh_nil; unfold weigh_list; cbn; ring | rewrite (rsum_map_scale (fun _ => 0) 0), ?weigh_nil; unfold weigh_list; cbn; ring]).
  rewrite weigh_cons, <- IH. rewrite (Rmult_comm _ m), <- rsum_map_scale, <- rsum_map_plus. f_equal. apply map_ext. intros el. rewrite weigh_cons. ring.
Qed.
Lemma element_total p : wf p -> exact_formulas (tp_material p) -> listed (tp_material p) ->
  rsum (map (fun el => weigh (fun c => q2 (efrac c el)) p) (tm_elements (tp_material p))) = Spec_ThermoMat.mass_of p.
Proof.
  intros W F L. unfold Spec_ThermoMat.weigh, Spec_ThermoMat.mass_of, Spec_ThermoMat.weigh. rewrite (sum_weigh (fun el c => q2 (efrac c el))). apply weigh_ext. intros c H. now apply fractions_one.
Qed.

Lemma ramount_ok c f x : proper c f -> has_atoms f -> ramount c x = Ok (x * moles_per_kg f).
Proof.
  intros P A. unfold ramount. rewrite (molar_mass_proper c f P). cbn [bind]. unfold ndiv. destruct (Req_EM_T _ 0) as [Z|Z].
  - exfalso. fold (q2 (weight (fun e => atoms e f))) in Z. rewrite <- q2_0 in Z. apply q2_inj in Z. now apply molar_neq in P.
  - f_equal. unfold moles_per_kg. field. exact Z.
Qed.
Lemma get_amount_ok p (F : string -> formula) : wf p -> (forall c, In c (tm_compounds (tp_material p)) -> proper c (F c) /\ has_atoms (F c)) ->
  get_amount p = Ok (weigh (fun c => moles_per_kg (F c)) p).
Proof.
  intros W H. unfold get_amount. rewrite <- (over_has _ p W).
  assert (G : forall cs a, incl cs (tm_compounds (tp_material p)) -> foldM (fun r c => do x <- get_compound_amount p c; Ok (r + x)) cs a = Ok (a + over cs (fun c => moles_per_kg (F c) * has p c))).
  { induction cs as [|c cs IH]; intros a I; cbn [foldM over]; [f_equal; ring|]. assert (Ic : In c (tm_compounds (tp_material p))) by (apply I; cbn; auto).
    assert (E : get_compound_amount p c = Ok (has p c * moles_per_kg (F c))).
    { pose proof (get_compound_mass_has p c W) as Gm. unfold get_compound_mass in Gm. assert (Im : member string_dec c (tm_compounds (tp_material p)) = true) by (now apply member_In). rewrite Im in Gm.
      unfold get_compound_amount. destruct (get_compound_index (tp_material p) c) as [i|]; cbn [bind] in *; [|discriminate]. rewrite Gm. cbn [bind]. apply ramount_ok; now apply H. }
    rewrite E. cbn [bind]. rewrite IH by (intros d D; apply I; cbn; auto). f_equal. ring. }
  rewrite G by apply incl_refl. f_equal. ring.
Qed.
