(** How psd packages fail. *)
From Verif Require Import Prelude M_Lists M_Float M_Psd Spec_MisusePsd P_Content P_Float.
Local Open Scope list_scope.

Lemma number_as v x : is_number v x <-> as_float v = Some x.
Proof. unfold is_number. destruct v; cbn; split; try discriminate; intros H; try (destruct H as [H|H]; [injection H as ->|discriminate]; reflexivity); try (destruct H as [H|H]; [discriminate|injection H as ->]; reflexivity); try (injection H as ->; auto); destruct H; discriminate. Qed.
Lemma pair_as l s x : is_pair l s x <-> size_class_mass_tuple (ATuple l) = Some (s, x).
Proof.
  unfold is_pair. split.
  - intros (v & -> & H). apply number_as in H. cbn. now rewrite H.
  - cbn. destruct l as [|[a|a|a|] [|v [|w r]]]; try discriminate. destruct (as_float v) as [y|] eqn:E; [|discriminate]. intros Q. injection Q as <- <-. exists v. split; auto. now apply number_as.
Qed.
Lemma class_cases p s : full p -> (~ has_class p s /\ class_index (pk_material p) s = Err ValueError) \/
  (exists q i y, s = Fin q /\ In q (ps_classes (pk_material p)) /\ class_index (pk_material p) s = Ok i /\ get_size_class_index (pk_material p) q = Ok i /\
     get (pk_masses p) i = Ok y /\ (i < length (pk_masses p))%nat /\ get_size_class_mass p q = Ok y).
Proof.
  intros F. destruct s as [q| |]; [|left; split; [intros (? & ? & _); discriminate|reflexivity]..].
  destruct (in_dec qdec q (ps_classes (pk_material p))) as [I|I].
  - right. destruct (index_total qdec q _ I) as [i E]. destruct (index_ok qdec _ _ _ E) as [N _]. assert (L : (i < length (pk_masses p))%nat) by (rewrite F; apply nth_error_Some; congruence).
    destruct (nth_error (pk_masses p) i) as [y|] eqn:G; [|apply nth_error_None in G; Lia.lia]. apply get_ok in G. exists q, i, y. repeat split; auto. unfold get_size_class_mass, get_size_class_index. now rewrite E.
  - left. split; [intros (q' & Q & J); injection Q as <-; auto|]. cbn [class_index]. apply (index_absent qdec); auto.
Qed.
Lemma has_it p q : In q (ps_classes (pk_material p)) -> has_class p (Fin q).
Proof. intros I. exists q. auto. Qed.

Lemma add_class_cases p s x : full p -> (~ has_class p s /\ add_class p s x = Err ValueError) \/ (has_class p s /\ exists r, add_class p s x = Ok r /\ full r /\ pk_material r = pk_material p).
Proof.
  intros F. unfold add_class. destruct (class_cases p s F) as [[N E] | (q & i & y & -> & I & E & E' & G & L & _)]; rewrite E; cbn [bind]; [auto|]. right. split; [now apply has_it|].
  rewrite G. cbn [bind]. rewrite set_nth_put by auto. cbn [bind]. eexists. split; [reflexivity|]. split; [|reflexivity]. unfold full. cbn. now rewrite put_length by auto.
Qed.

Lemma mul_failure p v e : mul p v = Err e <-> mul_fault v e.
Proof.
  unfold mul. destruct (as_float v) as [k|] eqn:E.
  - destruct (flt k (Fin 0)) eqn:N; split; intros H.
    + injection H as <-. apply (mul_negative v k); auto. now apply number_as.
    + inversion H; subst; auto. exfalso. eapply H0. apply number_as. eauto.
    + discriminate.
    + inversion H; subst; exfalso; [apply number_as in H0; congruence|]. eapply H0. apply number_as. eauto.
  - split; intros H.
    + injection H as <-. apply mul_other. intros x X. apply number_as in X. congruence.
    + inversion H; subst; auto. apply number_as in H0. congruence.
Qed.

Lemma assay_named {A} (l : list (string * A)) n : named l n -> exists i a, nth_error l i = Some (n, a).
Proof. unfold named. rewrite in_map_iff. intros ([k a] & E & I). cbn in E. subst k. apply In_nth_error in I as [i I]. eauto. Qed.
Lemma find_cases n l : (named l n /\ exists a, find_assay n l = Ok a) \/ (~ named l n /\ find_assay n l = Err KeyError).
Proof.
  induction l as [|[k v] l IH]; cbn [find_assay]; [right; split; auto; intros []|]. destruct (String.eqb k n) eqn:E.
  - left. apply String.eqb_eq in E. subst k. split; eauto. left; auto.
  - apply String.eqb_neq in E. destruct IH as [[N H]|[N H]]; [left; split; auto; right; auto|right; split; auto; intros [Q|I]; auto].
Qed.

Lemma add_failure p a e : full p -> (forall o, a = APackage o -> full o /\ (ps_id (pk_material p) = ps_id (pk_material o) -> pk_material p = pk_material o)) ->
  (add p a = Err e <-> add_fault p a e).
Proof.
  intros F O. destruct a as [o|l|v].
  - destruct (O o eq_refl) as [Fo Same]. unfold add. destruct (ps_id (pk_material p) =? ps_id (pk_material o))%Z eqn:E.
    + apply Z.eqb_eq in E. unfold array_add. assert (Q : (length (pk_masses p) =? length (pk_masses o))%nat = true) by (apply Nat.eqb_eq; unfold full in *; rewrite F, Fo, (Same E); auto). rewrite Q. cbn [bind].
      split; [discriminate|]. intros H. inversion H; subst. contradiction.
    + apply Z.eqb_neq in E. set (step := fun r s => _). assert (G : forall cs r, incl cs (ps_classes (pk_material o)) -> full r -> pk_material r = pk_material p ->
        (foldM step cs r = Err e <-> e = TypeError /\ exists q, In q cs /\ ~ has_class p (Fin q))).
      { induction cs as [|q cs IH]; intros r Ic Fr Mr; cbn [foldM]; [split; [discriminate|intros (_ & q & [] & _)]|]. unfold step at 1. fold step.
        destruct (member qdec q (ps_classes (pk_material p))) eqn:Mq; cbn [negb].
        - assert (Iq : In q (ps_classes (pk_material p))) by (unfold member in Mq; destruct (in_dec qdec q _); [auto|discriminate]).
          destruct (class_cases o (Fin q) Fo) as [[N _] | (q' & i & y & Q & _ & _ & _ & _ & _ & Gm)]; [exfalso; apply N, has_it, Ic; left; auto|]. injection Q as <-. rewrite Gm. cbn [bind].
          destruct (add_class_cases r (Fin q) y Fr) as [[N _] | (_ & r' & -> & Fr' & Mr')]; [exfalso; apply N; exists q; rewrite Mr; auto|]. cbn [bind].
          rewrite IH by (auto; try congruence; intros z Z; apply Ic; right; auto). split; intros (-> & z & I & N); (split; [auto|]).
          + exists z. split; [right; auto|auto]. + destruct I as [<-|I]; [exfalso; apply N, has_it; auto|eauto].
        - assert (Iq : ~ In q (ps_classes (pk_material p))) by (unfold member in Mq; destruct (in_dec qdec q _); [discriminate|auto]). cbn [bind]. split.
          + intros Q. injection Q as <-. split; auto. exists q. split; [left; auto|]. intros (z & Z & I). injection Z as <-. auto.
          + intros (-> & _). auto. }
      rewrite G; [|apply incl_refl|unfold full in *; cbn; auto|reflexivity]. split.
      * intros (-> & q & I & N). now apply (add_package_class p o q).
      * intros H. inversion H; subst. eauto.
  - unfold add. destruct (size_class_mass_tuple (ATuple l)) as [[s x]|] eqn:E.
    + apply pair_as in E. destruct (add_class_cases p s x F) as [[N ->] | (Hc & r & -> & _)]; split; intros H.
      * injection H as <-. eapply add_class_unknown; eauto.
      * inversion H; subst; auto. exfalso. eapply H1; eauto.
      * discriminate.
      * inversion H; subst; exfalso; [|eapply H1; eauto]. apply pair_as in E. apply pair_as in H1. rewrite E in H1. injection H1 as -> ->. auto.
    + split; intros H.
      * injection H as <-. apply add_bad_tuple; intros s x P; apply pair_as in P; congruence.
      * inversion H; subst; auto. apply pair_as in H1. congruence.
  - unfold add. cbn. split; intros H; [injection H as <-; constructor|inversion H; auto].
Qed.

Lemma take_class_cases p q i x y : full p -> get_size_class_index (pk_material p) q = Ok i -> get (pk_masses p) i = Ok y -> (i < length (pk_masses p))%nat ->
  if flt y x then take_class p i x = (p, Err PyException) else exists p' r, take_class p i x = (p', Ok r).
Proof.
  intros F E G L. unfold take_class. rewrite G. destruct (flt y x); [reflexivity|]. rewrite set_nth_put by auto. unfold array_mul.
  rewrite set_nth_put by (rewrite map_length, put_length; auto; auto). eauto.
Qed.
Lemma take_all_cases p i y : get (pk_masses p) i = Ok y -> (i < length (pk_masses p))%nat -> exists p' r, take_all p i = (p', Ok r).
Proof. intros G L. unfold take_all. rewrite G. unfold array_mul. rewrite !set_nth_put by (rewrite ?map_length; auto). eauto. Qed.

Lemma extract_failure float_of p a e : full p -> (snd (extract float_of p a) = Err e <-> extract_fault float_of p a e).
Proof.
  intros F. destruct a as [o|l|v].
  - cbn. split; intros H; [injection H as <-; constructor|inversion H; auto].
  - unfold extract. destruct (size_class_mass_tuple (ATuple l)) as [[s x]|] eqn:E.
    + apply pair_as in E. destruct (class_cases p s F) as [[N ->] | (q & i & y & -> & I & -> & Ei & G & L & Gm)]; cbn [snd].
      * split; intros H; [injection H as <-; eapply extract_class_unknown; eauto|]. inversion H; subst; auto; try (exfalso; eapply H1; eauto; fail).
        { exfalso. apply pair_as in E. apply pair_as in H1. rewrite E in H1. injection H1 as -> ->. apply N. unfold get_size_class_mass in H2. destruct (get_size_class_index _ q) as [j|] eqn:J; cbn [bind] in H2; [|discriminate].
          apply has_it. destruct (index_ok qdec _ _ _ J) as [J' _]. eapply nth_error_In; eauto. }

      * pose proof (take_class_cases p q i x y F Ei G L) as T. destruct (flt y x) eqn:X; [rewrite T|destruct T as (p' & r & ->)]; cbn [snd]; split; intros H.
        { injection H as <-. eapply extract_class_too_much; eauto. }
        { inversion H; subst; auto; exfalso; [|eapply H1; eauto]. apply pair_as in E. apply pair_as in H1. rewrite E in H1. injection H1 as <- <-. apply H2. now apply has_it. }
        { discriminate. }
        { inversion H; subst; exfalso; apply pair_as in E.
          - apply pair_as in H1. rewrite E in H1. injection H1 as <- <-. apply H2. now apply has_it.
          - apply pair_as in H1. rewrite E in H1. injection H1 as <- <-. congruence.
          - apply pair_as in E. eapply H1; eauto. }
    + split; intros H.
      * cbn [snd] in H. injection H as <-. apply extract_bad_tuple; intros s x P; apply pair_as in P; congruence.
      * inversion H; subst; auto; try (apply pair_as in H1; congruence).
  - unfold extract. destruct v as [x|x|t|].
    1,2: destruct (flt (get_mass p) x) eqn:X; cbn [snd]; split; intros H; [injection H as <-; eapply extract_too_much; [|eassumption]; unfold is_number; auto | inversion H; subst; auto | discriminate | inversion H; subst; apply number_as in H1; cbn in H1; congruence].
    + destruct (float_of t) as [q|e'] eqn:T; cbn [bind].
      * destruct (class_cases p (Fin q) F) as [[N E] | (q' & i & y & Q & I & E & Ei & G & L & Gm)]; cbn [class_index] in E.
        { rewrite E. cbn [snd]. split; intros H; [injection H as <-; eapply extract_unknown; eauto|]. inversion H; subst; try congruence; auto. apply number_as in H1. discriminate. }
        { injection Q as <-. rewrite E. destruct (take_all_cases p i y G L) as (p' & r & ->). cbn [snd]. split; intros H; [discriminate|]. inversion H; subst; try congruence; [apply number_as in H1; discriminate|].
          exfalso. assert (q0 = q) by congruence. subst q0. apply H2. now apply has_it. }
      * cbn [snd]. split; intros H; [injection H as <-; now constructor|]. inversion H; subst; try congruence. apply number_as in H1. discriminate.
    + cbn. split; intros H; [injection H as <-; constructor|]. inversion H; subst; auto. apply number_as in H1. discriminate.
Qed.
