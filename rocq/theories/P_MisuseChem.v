(** How chem packages fail. *)
From Verif Require Import Prelude M_Lists M_Float M_Chem Spec_Chem Spec_MisuseChem P_Content P_Float P_Chem.
Local Open Scope list_scope.

Lemma pair_as l c x : is_pair l c x <-> compound_mass_tuple (ATuple l) = Some (c, x).
Proof.
  unfold is_pair. split; [intros ->; reflexivity|]. destruct l as [|[s|[z|k]|] [|[s'|[z'|k']|] [|? ?]]]; cbn; try discriminate. intros Q. injection Q as -> ->. reflexivity.
Qed.
Lemma qlt_spec a b : qlt a b = true <-> (a < b)%Qc.
Proof. unfold qlt. destruct (Qclt_le_dec a b) as [H|H]; split; auto; try discriminate. intros L. exfalso. exact (Qcle_not_lt _ _ H L). Qed.
Lemma qlt_not a b : qlt a b = false <-> (b <= a)%Qc.
Proof. unfold qlt. destruct (Qclt_le_dec a b) as [H|H]; split; auto; try discriminate. intros L. exfalso. exact (Qcle_not_lt _ _ L H). Qed.

Lemma compound_cases p c : wf p -> (~ has_compound p c /\ get_compound_index (p_material p) c = Err ValueError) \/
  (has_compound p c /\ exists i y, get_compound_index (p_material p) c = Ok i /\ get (p_masses p) i = Ok y /\ (i < length (p_masses p))%nat /\ get_compound_mass p c = Ok y).
Proof.
  intros F. unfold has_compound, get_compound_index. destruct (in_dec string_dec c (m_compounds (p_material p))) as [I|I].
  - right. split; auto. destruct (index_total string_dec c _ I) as [i E]. destruct (index_ok string_dec _ _ _ E) as [N _]. assert (L : (i < length (p_masses p))%nat) by (rewrite F; apply nth_error_Some; congruence).
    destruct (nth_error (p_masses p) i) as [y|] eqn:G; [|apply nth_error_None in G; Lia.lia]. apply get_ok in G. exists i, y. repeat split; auto. unfold get_compound_mass, get_compound_index. now rewrite E.
  - left. split; auto. apply (index_absent string_dec); auto.
Qed.
Lemma add_compound_cases p c x : wf p -> (~ has_compound p c /\ add_compound p c x = Err ValueError) \/ (has_compound p c /\ exists r, add_compound p c x = Ok r /\ wf r /\ p_material r = p_material p).
Proof.
  intros F. unfold add_compound. destruct (compound_cases p c F) as [[N E] | (H & i & y & E & G & L & _)]; rewrite E; cbn [bind]; [auto|]. right. split; auto.
  rewrite G. cbn [bind]. rewrite set_nth_put by auto. cbn [bind]. eexists. split; [reflexivity|]. split; [|reflexivity]. unfold wf. cbn. now rewrite put_length by auto.
Qed.

Lemma mul_failure p v e : mul p v = Err e <-> mul_fault v e.
Proof.
  destruct v as [s|[z|k]|]; cbn [mul].
  - split; intros H; [injection H as <-; constructor; discriminate|inversion H; auto].
  - split; intros H; [injection H as <-; constructor; discriminate|inversion H; auto].
  - destruct (qlt k 0) eqn:Q; split; intros H.
    + injection H as <-. constructor. now apply qlt_spec.
    + inversion H as [k' N|v N]; subst; auto. exfalso. eapply N; eauto.
    + discriminate.
    + inversion H as [k' N|v N]; subst; exfalso; [|eapply N; eauto]. apply qlt_spec in N. congruence.
  - split; intros H; [injection H as <-; constructor; discriminate|inversion H; auto].
Qed.

Lemma package_failure p o e : wf p -> wf o -> forall cs r, incl cs (m_compounds (p_material o)) -> wf r -> p_material r = p_material p ->
  (foldM (add_step p o) cs r = Err e <-> exists before c after, cs = before ++ c :: after /\ (forall d e', In d before -> ~ compound_fault p o d e') /\ compound_fault p o c e).
Proof.
  intros Fp Fo. induction cs as [|c cs IH]; intros r Ic Fr Mr; cbn [foldM].
  { split; [discriminate|]. intros ([|? ?] & ? & ? & Q & _); discriminate. }
  destruct (member string_dec c (m_compounds (p_material p))) eqn:Mc.
  - assert (I : has_compound p c) by (unfold has_compound, member in *; destruct (in_dec string_dec c _); [auto|discriminate]).
    destruct (compound_cases o c Fo) as [[N _] | (_ & i & y & _ & _ & _ & Gm)]; [exfalso; apply N, Ic; left; auto|].
    unfold add_step at 1. rewrite Mc. cbn [negb]. rewrite Gm. cbn [bind]. destruct y as [z|x].
    + cbn [bind]. split.
      * intros Q. injection Q as <-. exists [], c, cs. split; [auto|]. split; [intros d e' []|]. right. eauto.
      * intros (b & d & a & Q & N & Fd). destruct b as [|c' b]; cbn [app] in Q; injection Q as <- ->.
        { destruct Fd as [[Fd _]|(_ & _ & ->)]; [contradiction|auto]. }
        exfalso. apply (N c TypeError); [left; auto|]. right. eauto.
    + destruct (add_compound_cases r c x Fr) as [[N _] | (_ & r' & -> & Fr' & Mr')]; [exfalso; apply N; unfold has_compound in *; rewrite Mr; auto|]. cbn [bind].
      assert (Nf : forall e', ~ compound_fault p o c e') by (intros e' [[? _]|(_ & (z & Z) & _)]; [contradiction|congruence]).
      rewrite IH by (auto; try congruence; intros d D; apply Ic; right; auto). split.
      * intros (b & d & a & -> & N & Fd). exists (c :: b), d, a. split; [auto|]. split; [|auto]. intros d' e' [<-|D]; [apply Nf|eauto].
      * intros (b & d & a & Q & N & Fd). destruct b as [|c' b]; cbn [app] in Q; injection Q as <- ->; [exfalso; eapply Nf; eauto|]. exists b, d, a. split; [auto|]. split; [|auto]. intros d' e' D. apply N. right; auto.
  - assert (I : ~ has_compound p c) by (unfold has_compound, member in *; destruct (in_dec string_dec c _); [discriminate|auto]).
    unfold add_step at 1. rewrite Mc. cbn [negb bind]. split.
    + intros Q. injection Q as <-. exists [], c, cs. split; [auto|]. split; [intros d e' []|]. left. auto.
    + intros (b & d & a & Q & N & Fd). destruct b as [|c' b]; cbn [app] in Q; injection Q as <- ->.
      { destruct Fd as [[_ ->]|(? & _)]; [auto|contradiction]. }
      exfalso. apply (N c PyException); [left; auto|]. left. auto.
Qed.

Lemma add_failure p a e : wf p -> (forall o, a = APackage o -> wf o) -> (add p a = Err e <-> add_fault p a e).
Proof.
  intros F O. destruct a as [o|l|v].
  - specialize (O o eq_refl). destruct (m_id (p_material p) =? m_id (p_material o))%Z eqn:E.
    + unfold add. rewrite E. apply Z.eqb_eq in E. split; [discriminate|]. intros H. inversion H; subst. contradiction.
    + apply Z.eqb_neq in E. rewrite add_different by auto. rewrite package_failure by (auto; apply incl_refl). split.
      * intros (b & c & a & Q & N & Fc). eapply add_package; eauto.
      * intros H. inversion H; subst. eauto 8.
  - unfold add. destruct (compound_mass_tuple (ATuple l)) as [[c x]|] eqn:E.
    + apply pair_as in E. destruct (add_compound_cases p c x F) as [[N ->] | (Hc & r & -> & _)]; split; intros H.
      * injection H as <-. eapply add_unknown; eauto.
      * inversion H as [l' c' x' P Q|?|l' P|?]; subst; auto. exfalso. eapply P; eauto.
      * discriminate.
      * inversion H as [l' c' x' P Q|?|l' P|?]; subst; exfalso; [|eapply P; eauto]. unfold is_pair in *. congruence.
    + split; intros H.
      * injection H as <-. apply add_bad_tuple. intros c x P. apply pair_as in P. congruence.
      * inversion H as [l' c' x' P Q|?|l' P|?]; subst; auto. apply pair_as in P. congruence.
  - unfold add. cbn. split; intros H; [injection H as <-; constructor|inversion H; auto].
Qed.

Lemma extract_failure p a e : wf p -> (snd (extract p a) = Err e <-> extract_fault p a e).
Proof.
  intros F. destruct a as [o|l|v].
  - cbn. split; intros H; [injection H as <-; constructor|inversion H; auto].
  - unfold extract. destruct (compound_mass_tuple (ATuple l)) as [[c x]|] eqn:E.
    + apply pair_as in E. destruct (compound_cases p c F) as [[N ->] | (Hc & i & y & -> & G & L & Gm)]; cbn [snd].
      * split; intros H; [injection H as <-; eapply extract_pair_unknown; eauto|].
        inversion H as [| | |l' c' x' P|l' c' x' y' P Py|l' P| | |]; subst; auto; exfalso; [|eapply P; eauto]. unfold is_pair in *. rewrite E in P. injection P as <- <-.
        unfold get_compound_mass in Py. destruct (compound_cases p c F) as [[_ Ei]|[? _]]; [rewrite Ei in Py; discriminate|contradiction].
      * rewrite G. destruct (qlt (val y) x) eqn:X; cbn [snd]; [apply qlt_spec in X|].
        { split; intros H; [injection H as <-; eapply extract_pair_too_much; eauto|]. inversion H as [| | |l' c' x' P Q|l' c' x' y' P Py|l' P| | |]; subst; auto; exfalso; [|eapply P; eauto]. unfold is_pair in *. rewrite E in P. injection P as <- <-. auto. }
        rewrite set_nth_put by auto. rewrite set_nth_put by (rewrite repeat_length; auto). cbn [snd]. split; intros H; [discriminate|].
        inversion H as [| | |l' c' x' P Q|l' c' x' y' P Py Lt|l' P| | |]; subst; exfalso; [| |eapply P; eauto]; unfold is_pair in *; rewrite E in P; injection P as <- <-; auto.
        apply qlt_spec in Lt. congruence.
    + cbn [snd]. split; intros H.
      * injection H as <-. apply extract_bad_tuple. intros c x P. apply pair_as in P. congruence.
      * inversion H as [| | |l' c' x' P|l' c' x' y' P|l' P| | |]; subst; auto; apply pair_as in P; congruence.
  - unfold extract. destruct v as [c|[z|x]|].
    + destruct (compound_cases p c F) as [[N ->] | (Hc & i & y & -> & G & L & Gm)]; cbn [snd].
      * split; intros H; [injection H as <-; now constructor|inversion H; auto].
      * assert (M0 : mul p (VNum (NFloat 0)) = Ok (mkpkg (p_material p) (map (fun x => nmul x (NFloat 0)) (p_masses p)))) by (unfold mul; destruct (qlt 0 0) eqn:Z; [apply qlt_spec in Z; discriminate Z|reflexivity]).
        rewrite M0, G. cbn [p_masses]. rewrite !set_nth_put by (rewrite ?map_length; auto). cbn [snd]. split; intros H; [discriminate|]. inversion H; subst. contradiction.
    + cbn. split; intros H; [injection H as <-; constructor|inversion H; auto].
    + destruct (qlt (val (get_mass p)) x) eqn:X; cbn [snd].
      * apply qlt_spec in X. split; intros H; [injection H as <-; now constructor|]. inversion H as [|x' Lx| | | | | | |]; subst; auto. exfalso. exact (Qcle_not_lt _ _ Lx X).
      * apply qlt_not in X. unfold pydiv. destruct (Qc_eq_bool (val (get_mass p)) 0) eqn:Z; [apply Qc_eq_bool_correct in Z | assert (Z' : val (get_mass p) <> 0%Qc) by (intros Q; rewrite Q in Z; vm_compute in Z; discriminate)]; cbn [snd].
        { split; intros H; [injection H as <-; now constructor|]. inversion H as [x' Lx|x' Lx| | | | | | |]; subst; auto. exfalso. exact (Qcle_not_lt _ _ X Lx). }
        { split; intros H; [discriminate|]. inversion H as [x' Lx|x' Lx| | | | | | |]; subst; [exfalso; exact (Qcle_not_lt _ _ X Lx)|contradiction]. }
    + cbn. split; intros H; [injection H as <-; constructor|inversion H; auto].
Qed.
