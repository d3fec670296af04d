(** Property C87: what package operations refuse, and how. *)
From Verif Require Import Prelude M_Stoichiometry M_Lists M_Float M_Chem M_Psd M_Slurry Spec_Chem Spec_MisuseChem Spec_MisusePsd Spec_MisuseSlurry
  P_MisuseChem P_MisusePsd P_MisuseSlurry Properties_Chem Properties_Psd Properties_Slurry.
Local Open Scope list_scope.

Theorem C87_psd_extract : forall float_of p a e, Spec_MisusePsd.full p ->
  (snd (M_Psd.extract float_of p a) = Err e <-> Spec_MisusePsd.extract_fault float_of p a e).
Proof. exact P_MisusePsd.extract_failure. Qed.
Print Assumptions C87_psd_extract.
(** Materials are objects: equal identities are equal objects. *)
Theorem C87_psd_add : forall p a e, Spec_MisusePsd.full p ->
  (forall o, a = M_Psd.APackage o -> Spec_MisusePsd.full o /\ (ps_id (pk_material p) = ps_id (pk_material o) -> pk_material p = pk_material o)) ->
  (M_Psd.add p a = Err e <-> Spec_MisusePsd.add_fault p a e).
Proof. exact P_MisusePsd.add_failure. Qed.
Print Assumptions C87_psd_add.
Theorem C87_psd_scale : forall p v e, M_Psd.mul p v = Err e <-> Spec_MisusePsd.mul_fault v e.
Proof. exact P_MisusePsd.mul_failure. Qed.
Print Assumptions C87_psd_scale.
Theorem C87_psd_create : forall m n mass norm e, M_Psd.create_package m (Some n) mass norm = Err e <-> e = KeyError /\ ~ In n (map fst (ps_assays m)).
Proof.
  intros m n mass norm e. unfold M_Psd.create_package, M_Psd.get_assay_total. destruct (P_MisusePsd.find_cases n (ps_assays m)) as [[N [a ->]]|[N ->]]; destruct norm; cbn [bind]; split; intros H; try discriminate; try (destruct H as [-> H]; auto; contradiction); injection H as <-; auto.
Qed.
Print Assumptions C87_psd_create.
Theorem C87_slurry_extract : forall float_of p a e, Spec_MisuseSlurry.full p ->
  (snd (M_Slurry.extract float_of p a) = Err e <-> Spec_MisuseSlurry.extract_fault float_of p a e).
Proof. exact P_MisuseSlurry.extract_failure. Qed.
Print Assumptions C87_slurry_extract.
Theorem C87_slurry_add : forall p a e, Spec_MisuseSlurry.full p ->
  (forall o, a = M_Slurry.APackage o -> Spec_MisuseSlurry.full o /\ (sl_id (sk_material p) = sl_id (sk_material o) -> sk_material p = sk_material o)) ->
  (M_Slurry.add p a = Err e <-> Spec_MisuseSlurry.add_fault p a e).
Proof. exact P_MisuseSlurry.add_failure. Qed.
Print Assumptions C87_slurry_add.
Theorem C87_slurry_scale : forall p v e, M_Slurry.mul p v = Err e <-> Spec_MisuseSlurry.mul_fault v e.
Proof. exact P_MisuseSlurry.mul_failure. Qed.
Print Assumptions C87_slurry_scale.
Lemma ndict_cases n d : (In n (map fst d) /\ exists x, ndict_get d n = Ok x) \/ (~ In n (map fst d) /\ ndict_get d n = Err KeyError).
Proof.
  induction d as [|[k v] d IH]; cbn [ndict_get map fst]; [right; split; auto; intros []|]. destruct (String.eqb k n) eqn:E.
  - apply String.eqb_eq in E. left. split; eauto. left; auto.
  - apply String.eqb_neq in E. destruct IH as [[N H]|[N H]]; [left; split; auto; right; auto|right; split; auto; intros [Q|I]; auto].
Qed.
(** The assay, its density and its water content must all be there. *)
Theorem C87_slurry_create : forall m n mass norm e, M_Slurry.create_package m (Some n) mass norm = Err e <->
  e = KeyError /\ ~ (In n (map fst (sl_assays m)) /\ In n (map fst (sl_densities m)) /\ In n (map fst (sl_water m))).
Proof.
  intros m n mass norm e. unfold M_Slurry.create_package, M_Slurry.get_assay_total.
  destruct (P_MisuseSlurry.find_cases n (sl_assays m)) as [[Na [a ->]]|[Na ->]]; destruct (ndict_cases n (sl_water m)) as [[Nw [w ->]]|[Nw ->]]; destruct (ndict_cases n (sl_densities m)) as [[Nd [d ->]]|[Nd ->]];
    destruct norm; cbn [bind]; split; intros H; try discriminate; try (destruct H as [-> H]; auto; exfalso; tauto); injection H as <-; tauto.
Qed.
Print Assumptions C87_slurry_create.
Theorem C87_chem_extract : forall p a e, wf p -> (snd (M_Chem.extract p a) = Err e <-> Spec_MisuseChem.extract_fault p a e).
Proof. exact P_MisuseChem.extract_failure. Qed.
Print Assumptions C87_chem_extract.
Theorem C87_chem_add : forall p a e, wf p -> (forall o, a = M_Chem.APackage o -> wf o) -> (M_Chem.add p a = Err e <-> Spec_MisuseChem.add_fault p a e).
Proof. exact P_MisuseChem.add_failure. Qed.
Print Assumptions C87_chem_add.
Theorem C87_chem_scale : forall p v e, M_Chem.mul p v = Err e <-> Spec_MisuseChem.mul_fault v e.
Proof. exact P_MisuseChem.mul_failure. Qed.
Print Assumptions C87_chem_scale.
Lemma chem_find n l : (In n (map fst l) /\ exists a, M_Chem.find_assay n l = Ok a /\ In (n, a) l) \/ (~ In n (map fst l) /\ M_Chem.find_assay n l = Err KeyError).
Proof.
  induction l as [|[k v] l IH]; cbn [M_Chem.find_assay map fst]; [right; split; auto; intros []|]. destruct (String.eqb k n) eqn:E.
  - apply String.eqb_eq in E. subst k. left. split; [left; auto|]. exists v. split; auto. left; auto.
  - apply String.eqb_neq in E. destruct IH as [[N (a & H & I)]|[N H]]; [left; split; [right; auto|]; exists a; split; auto; right; auto|right; split; auto; intros [Q|I]; auto].
Qed.
Theorem C87_chem_create : forall m n mass norm e, M_Chem.create_package m (Some n) mass norm = Err e <->
  e = KeyError /\ ~ In n (map fst (m_assays m)) \/
  e = ZeroDivisionError /\ norm = true /\ exists a, M_Chem.find_assay n (m_assays m) = Ok a /\ a <> [] /\ val (nsum a) = 0%Qc.
Proof.
  intros m n mass norm e. unfold M_Chem.create_package, M_Chem.get_assay_total.
  destruct (chem_find n (m_assays m)) as [[N (a & E & _)]|[N ->]].
  2:{ destruct norm; cbn [bind]; (split; [intros H; injection H as <-; auto|]); intros [[-> _]|(_ & _ & a & Q & _)]; auto; discriminate. }
  rewrite E.
  assert (D : forall t, let r := mapM (fun x => ndiv (nmul mass x) t) a in
     (val t = 0%Qc /\ a <> [] /\ r = Err ZeroDivisionError) \/ (~ (val t = 0%Qc /\ a <> []) /\ exists ms, r = Ok ms)).
  { intros t r. unfold r. clear r E. destruct (Qc_eq_bool (val t) 0) eqn:Z.
    - apply Qc_eq_bool_correct in Z. destruct a as [|x a]; [right; split; [tauto|eexists; reflexivity]|]. left. split; auto. split; [discriminate|].
      cbn [mapM]. unfold ndiv at 1, pydiv. rewrite Z. assert (Q : Qc_eq_bool 0 0 = true) by reflexivity. rewrite Q. reflexivity.
    - right. split; [intros [Q _]; rewrite Q in Z; vm_compute in Z; discriminate|]. induction a as [|x a [ms IH]]; cbn [mapM]; [eauto|]. unfold ndiv at 1, pydiv. rewrite Z. cbn [bind]. rewrite IH. cbn [bind]. eauto. }
  destruct norm; cbn [bind].
  - destruct (D (nsum a)) as [(Z & A & ->)|(Z & ms & ->)]; cbn [bind]; split; intros H.
    + injection H as <-. right. eauto 6.
    + destruct H as [[_ H]|(-> & _)]; [contradiction|auto].
    + discriminate.
    + destruct H as [[_ H]|(-> & _ & a' & Q & A & V)]; [contradiction|]. injection Q as <-. tauto.
  - destruct (D (NFloat 1)) as [(Z & _)|(_ & ms & ->)]; [discriminate Z|]. cbn [bind]. split; [discriminate|]. intros [[_ H]|(_ & Q & _)]; [contradiction|discriminate].
Qed.
Print Assumptions C87_chem_create.

Definition heap : M_Psd.package := mkpsd sand (map Fin [Properties_Psd.q 1 1; Properties_Psd.q 2 1; Properties_Psd.q 3 1]).
Definition sump : M_Slurry.package := mksl pulp (Fin (Properties_Slurry.q 4 1)) (Fin (Properties_Slurry.q 1 1)) (map Fin [Properties_Slurry.q 1 1; Properties_Slurry.q 2 1]).
Definition pile : M_Chem.package := mkpkg ore [fq 3 1; fq 6 1].
Example C87_case : let no := fun _ => Err ValueError in
  Spec_MisusePsd.full heap /\ Spec_MisuseSlurry.full sump /\ wf pile /\
  snd (M_Psd.extract no heap (M_Psd.AVal (NvFloat (Fin (Properties_Psd.q 7 1))))) = Err PyException /\
  is_ok (snd (M_Psd.extract no heap (M_Psd.AVal (NvFloat (Fin (Properties_Psd.q 6 1)))))) = true /\
  snd (M_Psd.extract no heap (M_Psd.ATuple [NvFloat (Inf false); NvFloat (Fin 0)])) = Err ValueError /\
  M_Psd.add heap (M_Psd.AVal NvOther) = Err TypeError /\
  snd (M_Slurry.extract no sump (M_Slurry.ATuple [NvStr "H2O"%string; NvFloat (Fin (Properties_Slurry.q 2 1))])) = Err PyException /\
  M_Slurry.create_package tail (Some "A"%string) (Fin 0) true = Err KeyError /\
  M_Chem.mul pile (VNum (NInt 2)) = Err TypeError /\
  snd (M_Chem.extract pile (M_Chem.AVal (VStr "CaO"%string))) = Err ValueError.
Proof. cbv zeta. repeat split; vm_compute; reflexivity. Qed.
