(** Proofs about [M_Text]. *)
From Verif Require Import Prelude M_Stoichiometry M_Text Spec_Text.
Local Open Scope list_scope.

Definition sepb (c : ascii) : bool := Ascii.eqb c sp || Ascii.eqb c tab.
Lemma sepb_iff c : sepb c = true <-> is_sep c.
Proof. unfold sepb, is_sep. rewrite orb_true_iff, !Ascii.eqb_eq. unfold sp, tab. tauto. Qed.
Lemma sepb_space c : sepb c = true -> is_space c = true.
Proof. rewrite sepb_iff. intros [->| ->]; reflexivity. Qed.

Definition push (w : text) (ws : list text) : list text := match w with [] => ws | _ => w :: ws end.
Fixpoint go (t : text) : text * list text :=
  match t with
  | [] => ([], [])
  | c :: t' => let x := go t' in if sepb c then ([], push (fst x) (snd x)) else (c :: fst x, snd x)
  end.
Definition words t := push (fst (go t)) (snd (go t)).

Lemma go_tabs t : go (replace_tabs t) = go t.
Proof.
  induction t as [|c t IH]; auto. cbn [replace_tabs map go]. change (map _ t) with (replace_tabs t). rewrite IH.
  destruct (Ascii.eqb c tab) eqn:E; auto. apply Ascii.eqb_eq in E. subst c. reflexivity.
Qed.
Lemma go_double t : go (replace_double t) = go t.
Proof.
  remember (length t) as n. assert (L : (length t <= n)%nat) by lia. clear Heqn. revert t L. induction n as [|n IH]; intros t L.
  - destruct t; auto. cbn in L. lia.
  - destruct t as [|c [|d t]]; auto. cbn [replace_double]. destruct (Ascii.eqb c sp && Ascii.eqb d sp) eqn:E.
    + apply andb_true_iff in E. destruct E as [E1 E2]. apply Ascii.eqb_eq in E1, E2. subst. cbn [go]. change (sepb sp) with true. cbn [fst snd push].
      rewrite IH by (cbn in L; lia). reflexivity.
    + change (go (c :: replace_double (d :: t)) = go (c :: d :: t)). cbn [go]. rewrite IH by (cbn in *; lia). reflexivity.
Qed.

Lemma go_words t : exists t', t = fst (go t) ++ t' /\ (forall c, In c (fst (go t)) -> ~ is_sep c) /\ (t' = [] \/ exists c u, t' = c :: u /\ is_sep c) /\ has_words t' (snd (go t)).
Proof.
  induction t as [|c t (t' & E & N & S & W)].
  - exists []. cbn. repeat split; auto. constructor.
  - cbn [go]. destruct (sepb c) eqn:B; cbn [fst snd].
    + exists (c :: t). apply sepb_iff in B. repeat split; auto. right; eauto. apply hw_sep; auto. rewrite E at 1. destruct (fst (go t)) eqn:F; cbn [push]; auto.
      apply hw_word; auto. split; [discriminate|auto].
    + exists t'. split; [cbn; congruence|]. split; [|auto]. intros d [<-|H]; auto. rewrite <- sepb_iff. congruence.
Qed.
Lemma words_ok t : has_words t (words t).
Proof.
  destruct (go_words t) as (t' & E & N & S & W). unfold words. rewrite E at 1. destruct (fst (go t)) eqn:F; cbn [push]; auto.
  apply hw_word; auto. split; [discriminate|auto].
Qed.
Lemma go_app w t : (forall c, In c w -> ~ is_sep c) -> go (w ++ t) = (w ++ fst (go t), snd (go t)).
Proof.
  intros H. induction w as [|c w IH]; cbn [app go]. - now destruct (go t).
  - rewrite IH by (intros; apply H; cbn; auto). destruct (sepb c) eqn:E; auto. apply sepb_iff in E. exfalso. apply (H c); cbn; auto.
Qed.
Lemma words_unique t ws : has_words t ws -> ws = words t.
Proof.
  induction 1 as [|c t ws H _ IH|w t ws H S _ IH]; auto.
  - apply sepb_iff in H. unfold words. cbn [go]. rewrite H. cbn. exact IH.
  - unfold words in *. destruct H as [N H]. rewrite go_app by auto. cbn [fst snd].
    assert (F : fst (go t) = []). { destruct S as [->|(c & u & -> & Hc)]; auto. cbn [go]. apply sepb_iff in Hc. now rewrite Hc. }
    rewrite F in *. rewrite app_nil_r. cbn [push] in IH. subst ws. destruct w; [congruence|reflexivity].
Qed.

Lemma joined_clean t : (forall c, In c t -> c <> tab) -> has_double t = false -> (forall c u, t = u ++ [c] -> ~ is_sep c) ->
  match t with [] => True | c :: _ => if sepb c then t = sp :: joined (words t) else t = joined (words t) end.
Proof.
  induction t as [|c t IH]; intros T D L; auto.
  assert (IH' : match t with [] => True | c :: _ => if sepb c then t = sp :: joined (words t) else t = joined (words t) end).
  { apply IH. - intros; apply T; cbn; auto. - cbn [has_double] in D. destruct t; auto. apply orb_false_iff in D. tauto.
    - intros d u ->. apply (L d (c :: u)). reflexivity. }
  clear IH. destruct (sepb c) eqn:B.
  - apply sepb_iff in B. destruct B as [->| ->]; [|exfalso; apply (T tab); cbn; auto; reflexivity].
    destruct t as [|d t]. { exfalso. apply (L sp []); [reflexivity|left; reflexivity]. }
    destruct (sepb d) eqn:E.
    + apply sepb_iff in E. cbn [has_double] in D. apply orb_false_iff in D. destruct D as [D _]. destruct E as [->| ->]; [discriminate|]. exfalso. apply (T tab); cbn; auto.
    + unfold words. cbn [go]. change (sepb " "%char) with true. cbn [fst snd push]. unfold words in IH'. cbn [go] in IH'. rewrite <- IH'. reflexivity.
  - unfold words. cbn [go]. rewrite B. cbn [fst snd push]. destruct t as [|d t]; [reflexivity|]. destruct (sepb d) eqn:E.
    + unfold words in IH'. cbn [go] in *. rewrite E in *. cbn [fst snd push] in *. destruct (push (fst (go t)) (snd (go t))) as [|w ws] eqn:F.
      * exfalso. injection IH' as -> ->. apply (L sp [c]); [reflexivity|left; reflexivity].
      * rewrite IH'. reflexivity.
    + unfold words in IH'. cbn [go] in *. rewrite E in *. cbn [fst snd push] in *. destruct (snd (go t)) as [|w ws]; cbn [joined app] in *; congruence.
Qed.

Lemma double_shorter t : has_double t = true -> (length (replace_double t) < length t)%nat.
Proof.
  assert (LE : forall n t, (length t <= n)%nat -> (length (replace_double t) <= length t)%nat).
  { induction n as [|n IH]; intros u L. - destruct u; cbn in *; lia.
    - destruct u as [|c [|d u]]; auto. cbn [replace_double]. destruct (_ && _).
      + cbn [length] in *. specialize (IH u). lia. + change (S (length (replace_double (d :: u))) <= length (c :: d :: u))%nat. cbn [length] in *. specialize (IH (d :: u)). cbn [length] in IH. lia. }
  induction t as [|c t IH]; [discriminate|]. destruct t as [|d t]; [discriminate|]. intros H. cbn [has_double] in H. cbn [replace_double].
  destruct (_ && _) eqn:E.
  - cbn [length]. specialize (LE (length t) t). lia.
  - cbn [orb] in H. change (S (length (replace_double (d :: t))) < length (c :: d :: t))%nat. cbn [length] in *. specialize (IH H). lia.
Qed.
Lemma double_tabs t : (forall c, In c t -> c <> tab) -> forall c, In c (replace_double t) -> c <> tab.
Proof.
  remember (length t) as n. assert (L : (length t <= n)%nat) by lia. clear Heqn. revert t L. induction n as [|n IH]; intros t L T.
  - destruct t; cbn in *; [tauto|lia].
  - destruct t as [|c [|d t]]; auto. cbn [replace_double]. destruct (_ && _).
    + intros e [<-|H]; [discriminate|]. apply (IH t); auto. cbn in L; lia. intros; apply T; cbn; auto.
    + intros e [<-|H]; [apply T; cbn; auto|]. apply (IH (d :: t)); auto. cbn in *; lia. intros; apply T; cbn in *; tauto.
Qed.
Lemma double_nonempty c t : replace_double (c :: t) <> [].
Proof. destruct t as [|d t]; cbn [replace_double]; [discriminate|]. destruct (Ascii.eqb c sp && Ascii.eqb d sp); discriminate. Qed.
Definition good_first (t : text) := match t with [] => true | c :: _ => negb (sepb c) end.
Definition good_last (t : text) := match rev t with [] => true | c :: _ => negb (sepb c) end.
Lemma good_last_cons c d t : good_last (c :: d :: t) = good_last (d :: t).
Proof. unfold good_last. cbn [rev]. rewrite <- app_assoc. destruct (rev t); reflexivity. Qed.
Lemma double_first t : good_first t = true -> good_first (replace_double t) = true.
Proof.
  destruct t as [|c [|d t]]; auto. cbn [replace_double]. intros H. destruct (_ && _) eqn:E; auto.
  apply andb_true_iff in E. destruct E as [E _]. apply Ascii.eqb_eq in E. subst c. discriminate.
Qed.
Lemma double_last t : good_last t = true -> good_last (replace_double t) = true.
Proof.
  remember (length t) as n. assert (L : (length t <= n)%nat) by lia. clear Heqn. revert t L. induction n as [|n IH]; intros t L T.
  - destruct t; cbn in *; auto; lia.
  - destruct t as [|c [|d t]]; auto. rewrite good_last_cons in T. cbn [replace_double]. destruct (_ && _) eqn:E.
    + apply andb_true_iff in E. destruct E as [_ E]. apply Ascii.eqb_eq in E. subst d. destruct t as [|e t]; [discriminate|]. rewrite good_last_cons in T.
      assert (G : good_last (replace_double (e :: t)) = true) by (apply IH; auto; cbn in *; lia).
      destruct (replace_double (e :: t)) eqn:R; [|now rewrite good_last_cons]. exfalso. eapply double_nonempty; eauto.
    + change (good_last (c :: replace_double (d :: t)) = true).
      assert (G : good_last (replace_double (d :: t)) = true) by (apply IH; auto; cbn in *; lia).
      destruct (replace_double (d :: t)) eqn:R; [|now rewrite good_last_cons]. exfalso. eapply double_nonempty; eauto.
Qed.

Lemma loop_total n t : (length t <= n)%nat -> exists r, squeeze_loop n t = Some r.
Proof.
  revert t. induction n as [|n IH]; intros t L; cbn [squeeze_loop].
  - destruct t; [eexists; reflexivity|cbn in L; lia].
  - destruct (has_double t) eqn:E; [|eauto]. apply IH. apply double_shorter in E. lia.
Qed.
Lemma loop_mono n m t r : squeeze_loop n t = Some r -> (n <= m)%nat -> squeeze_loop m t = Some r.
Proof.
  revert m t. induction n as [|n IH]; intros m t H L; cbn [squeeze_loop] in H.
  - destruct (has_double t) eqn:E; [discriminate|]. destruct m; cbn [squeeze_loop]; now rewrite E.
  - destruct m; [lia|]. cbn [squeeze_loop]. destruct (has_double t); auto. apply IH; auto. lia.
Qed.
Lemma loop_spec n t r : squeeze_loop n t = Some r -> (forall c, In c t -> c <> tab) -> good_first t = true -> good_last t = true -> r = joined (words t).
Proof.
  revert t. induction n as [|n IH]; intros t H T F L; cbn [squeeze_loop] in H.
  - destruct (has_double t) eqn:E; [discriminate|]. injection H as <-. pose proof (joined_clean t T E) as J.
    destruct t as [|c t]; auto. destruct (sepb c) eqn:B. + cbn in F. rewrite B in F. discriminate.
    + apply J. intros d u R. unfold good_last in L. rewrite R, rev_app_distr in L. cbn in L. rewrite <- sepb_iff. destruct (sepb d); [discriminate|congruence].
  - destruct (has_double t) eqn:E.
    + replace (words t) with (words (replace_double t)) by (unfold words; now rewrite go_double). apply IH; auto. now apply double_tabs. now apply double_first. now apply double_last.
    + injection H as <-. pose proof (joined_clean t T E) as J.
      destruct t as [|c t]; auto. destruct (sepb c) eqn:B. * cbn in F. rewrite B in F. discriminate.
      * apply J. intros d u R. unfold good_last in L. rewrite R, rev_app_distr in L. cbn in L. rewrite <- sepb_iff. destruct (sepb d); [discriminate|congruence].
Qed.

(** * strip *)
Lemma lstrip_spec t : exists l, t = l ++ lstrip t /\ forallb is_space l = true /\ forall c u, lstrip t = c :: u -> is_space c = false.
Proof.
  induction t as [|c t (l & E & B & N)]; cbn [lstrip].
  - exists []. repeat split; auto. discriminate.
  - destruct (is_space c) eqn:S. + exists (c :: l). cbn [app forallb]. rewrite S. repeat split; auto. congruence.
    + exists []. repeat split; auto. congruence.
Qed.
Lemma forallb_rev {A} (f : A -> bool) l : forallb f (rev l) = forallb f l.
Proof. induction l as [|x l IH]; auto. cbn. rewrite forallb_app, IH. cbn. rewrite andb_true_r. apply andb_comm. Qed.
Lemma strip_core t : core t (strip t).
Proof.
  destruct (lstrip_spec t) as (l & E & B & N). destruct (lstrip_spec (rev (lstrip t))) as (r & E' & B' & N'). unfold strip.
  exists l, (rev r). assert (X : lstrip t = rev (lstrip (rev (lstrip t))) ++ rev r). { rewrite <- rev_app_distr, <- E'. now rewrite rev_involutive. }
  repeat split; auto.
  - now rewrite <- X. - now rewrite forallb_rev.
  - intros c u H. rewrite H in X. apply (N c (u ++ rev r)). rewrite X. reflexivity.
  - intros c u H. apply (N' c (rev u)). apply (f_equal (@rev ascii)) in H. rewrite rev_involutive, rev_app_distr in H. exact H.
Qed.
Lemma strip_length t : (length (strip t) <= length t)%nat.
Proof. destruct (strip_core t) as (l & r & E & _). apply (f_equal (@length ascii)) in E. rewrite !app_length in E. lia. Qed.

Lemma prepare_total n t : (length t <= n)%nat -> prepare_line n t = Some (joined (words (strip t))).
Proof.
  intros L. unfold prepare_line. destruct (loop_total n (replace_tabs (strip t))) as [r E].
  { unfold replace_tabs. rewrite map_length. pose proof (strip_length t). lia. }
  rewrite E. f_equal. apply loop_spec in E.
  - rewrite E. unfold words. now rewrite go_tabs.
  - intros c H. apply in_map_iff in H. destruct H as (d & <- & _). destruct (Ascii.eqb d tab) eqn:D; [discriminate|]. intros ->. discriminate.
  - destruct (strip_core t) as (_ & _ & _ & _ & _ & F & _). destruct (strip t) as [|c u]; auto. cbn. specialize (F c u eq_refl).
    destruct (Ascii.eqb c tab) eqn:D; [apply Ascii.eqb_eq in D; subst; discriminate|]. destruct (sepb c) eqn:S; auto. apply sepb_space in S. congruence.
  - destruct (strip_core t) as (_ & _ & _ & _ & _ & _ & F). unfold good_last, replace_tabs. rewrite <- map_rev. destruct (rev (strip t)) as [|c u] eqn:R; auto. cbn.
    apply (f_equal (@rev ascii)) in R. rewrite rev_involutive in R. cbn in R. specialize (F c (rev u) R).
    destruct (Ascii.eqb c tab) eqn:D; [apply Ascii.eqb_eq in D; subst; discriminate|]. destruct (sepb c) eqn:S; auto. apply sepb_space in S. congruence.
Qed.
Lemma prepared_spec t : prepared t = joined (words (strip t)).
Proof. unfold prepared. now rewrite prepare_total. Qed.
