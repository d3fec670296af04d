(** Proofs about the csv model. *)
From Verif Require Import Prelude M_Stoichiometry M_Csv Spec_Csv.
Local Open Scope list_scope.

Definition run (s : reader) (t : text) := read_lines (lines_of t) s.
Definition emit (r : row) (x : list row * option exn) := (r :: fst x, snd x).

Lemma is_end_false c : is_end c = false -> Ascii.eqb c lf = false /\ Ascii.eqb c cr = false.
Proof. unfold is_end. now rewrite orb_false_iff. Qed.

Lemma lines_nonempty t : t <> [] -> lines_of t <> [].
Proof.
  destruct t as [|c t]; [congruence|]. intros _. cbn [lines_of]. destruct (Ascii.eqb c lf); [discriminate|].
  destruct (Ascii.eqb c cr); [destruct t as [|d t]; [discriminate|]; destruct (Ascii.eqb d lf); discriminate|].
  destruct (lines_of t); discriminate.
Qed.

(** The rest of a line that has been begun. *)
Definition mid (s : reader) (t : text) := read_lines (match lines_of t with [] => [[]] | l :: ls => l :: ls end) s.
Lemma mid_run s t : t <> [] -> mid s t = run s t.
Proof. intros T. unfold mid, run. destruct (lines_of t) eqn:L; [now apply lines_nonempty in L|reflexivity]. Qed.
(** An ordinary character. *)
Lemma mid_char s c t s' : is_end c = false -> process s (Some c) = Ok s' -> mid s (c :: t) = mid s' t.
Proof.
  intros E P. destruct (is_end_false c E) as [E1 E2]. unfold mid. cbn [lines_of]. rewrite E1, E2.
  destruct (lines_of t) as [|l ls] eqn:L; cbn [read_lines]; unfold process_line; cbn [foldM]; rewrite P; reflexivity.
Qed.
(** A line feed, and a carriage return with and without one. *)
Lemma mid_lf s t : mid s (lf :: t) = read_lines ([lf] :: lines_of t) s.
Proof. reflexivity. Qed.
Lemma mid_crlf s t : mid s (cr :: lf :: t) = read_lines ([cr; lf] :: lines_of t) s.
Proof. reflexivity. Qed.
Lemma mid_cr s d t : Ascii.eqb d lf = false -> mid s (cr :: d :: t) = read_lines ([cr] :: lines_of (d :: t)) s.
Proof. intros E. unfold mid. change (lines_of (cr :: d :: t)) with (if Ascii.eqb d lf then [cr; lf] :: lines_of t else [cr] :: lines_of (d :: t)). now rewrite E. Qed.

(** Inside quotes every character but a quote is added. *)
Lemma mid_quoted x fs c t : c <> dquote -> t <> [] -> mid (mkrd InQuoted x fs) (c :: t) = mid (mkrd InQuoted (x ++ [c]) fs) t.
Proof.
  intros Q T. apply Ascii.eqb_neq in Q. destruct (is_end c) eqn:E.
  - rewrite (mid_run _ t T). unfold is_end in E. apply orb_true_iff in E. destruct E as [E|E]; apply Ascii.eqb_eq in E; subst c.
    + reflexivity.
    + destruct t as [|d t]; [congruence|]. destruct (Ascii.eqb d lf) eqn:D.
      * apply Ascii.eqb_eq in D. subst d. rewrite mid_crlf. change (run (mkrd InQuoted (x ++ [cr]) fs) (lf :: t)) with (read_lines ([lf] :: lines_of t) (mkrd InQuoted (x ++ [cr]) fs)).
        cbn [read_lines]. unfold process_line. cbn. reflexivity.
      * rewrite mid_cr by auto. reflexivity.
  - apply mid_char; auto. cbn [process rd_state]. now rewrite Q.
Qed.
Lemma mid_body f d : doubled f d -> forall x fs t, mid (mkrd InQuoted x fs) (d ++ dquote :: t) = mid (mkrd QuoteInQuoted (x ++ f) fs) t.
Proof.
  induction 1 as [|f d D IH|c f d C D IH]; intros x fs t; cbn [app].
  - rewrite app_nil_r. apply mid_char; auto.
  - rewrite (mid_char _ dquote _ (mkrd QuoteInQuoted x fs)); auto.
    rewrite (mid_char _ dquote _ (mkrd InQuoted (x ++ [dquote]) fs)); auto. rewrite IH by auto. now rewrite <- app_assoc.
  - rewrite mid_quoted by (auto; destruct d; discriminate). rewrite IH. now rewrite <- app_assoc.
Qed.

(** Plain characters in a field. *)
Definition plain (c : ascii) : Prop := is_end c = false /\ Ascii.eqb c comma = false /\ Ascii.eqb c dquote = false.
Lemma mid_plain f : forall x fs t, Forall plain f -> mid (mkrd InField x fs) (f ++ t) = mid (mkrd InField (x ++ f) fs) t.
Proof.
  induction f as [|c f IH]; intros x fs t F; cbn [app]; [now rewrite app_nil_r|]. inversion F as [|? ? (P1 & P2 & P3) F']; subst.
  rewrite (mid_char _ c _ (mkrd InField (x ++ [c]) fs)); auto.
  - rewrite IH by auto. now rewrite <- app_assoc.
  - cbn [process rd_state]. now rewrite P1, P2.
Qed.
Lemma bare_plain f : bare f -> Forall plain f.
Proof.
  intros B. apply Forall_forall. intros c I. destruct (B c I) as (B1 & B2 & B3 & B4). unfold plain, is_end. rewrite orb_false_iff. rewrite !Ascii.eqb_neq. repeat split; auto.
Qed.

(** The state after a field of a row, and before one. *)
Definition after (f : text) (fs : list text) (s : reader) : Prop :=
  rd_field s = f /\ rd_fields s = fs /\ (rd_state s = InField \/ rd_state s = QuoteInQuoted \/ rd_state s = StartField \/ rd_state s = StartRecord).
Definition starts (fs : list text) (s : reader) : Prop := rd_field s = [] /\ rd_fields s = fs /\ (rd_state s = StartField \/ rd_state s = StartRecord).

Lemma mid_field f d s fs t : field_text f d -> starts fs s ->
  exists s', after f fs s' /\ (rd_state s' = StartRecord -> d = [] /\ rd_state s = StartRecord) /\ mid s (d ++ t) = mid s' t.
Proof.
  intros F (S1 & S2 & S3). destruct s as [st x fs0]. cbn [rd_field rd_fields rd_state] in *. subst x fs0. destruct F as [f B|f d D].
  - pose proof (bare_plain f B) as P. destruct f as [|c f].
    + exists (mkrd st [] fs). split; [repeat split; tauto|]. split; [auto|reflexivity].
    + inversion P as [|? ? (P1 & P2 & P3) P']; subst. exists (mkrd InField (c :: f) fs). split; [repeat split; auto|]. split; [discriminate|]. cbn [app].
      rewrite (mid_char _ c _ (mkrd InField [c] fs)); auto.
      * now rewrite mid_plain.
      * destruct S3 as [-> | ->]; cbn [process rd_state]; unfold start_field; rewrite ?P1, ?P2, ?P3; reflexivity.
  - cbn [app]. rewrite <- app_assoc. cbn [app]. exists (mkrd QuoteInQuoted f fs). split; [repeat split; auto|]. split; [discriminate|].
    rewrite (mid_char _ dquote _ (mkrd InQuoted [] fs)); [|reflexivity|destruct S3 as [-> | ->]; reflexivity].
    rewrite (mid_body f d D). reflexivity.
Qed.
Lemma mid_comma f fs s t : after f fs s -> mid s (comma :: t) = mid (mkrd StartField [] (fs ++ [f])) t.
Proof.
  intros (A1 & A2 & A3). destruct s as [st x fs0]. cbn [rd_field rd_fields rd_state] in *. subst. apply mid_char; auto. destruct A3 as [-> |[-> |[-> | ->]]]; reflexivity.
Qed.
Definition ends (e : text) : Prop := e = [lf] \/ e = [cr; lf].
Lemma mid_end e f fs s t : ends e -> after f fs s -> rd_state s <> StartRecord -> mid s (e ++ t) = emit (fs ++ [f]) (run rd_init t).
Proof.
  intros T (A1 & A2 & A3) N. destruct s as [st x fs0]. cbn [rd_field rd_fields rd_state] in *. subst. destruct T as [-> | ->]; cbn [app]; rewrite ?mid_lf, ?mid_crlf; destruct A3 as [-> |[-> |[-> | ->]]]; try congruence; reflexivity.
Qed.
Lemma mid_stop f fs s : after f fs s -> rd_state s <> StartRecord -> mid s [] = ([fs ++ [f]], None).
Proof.
  intros (A1 & A2 & A3) N. destruct s as [st x fs0]. cbn [rd_field rd_fields rd_state] in *. subst. destruct A3 as [-> |[-> |[-> | ->]]]; try congruence; reflexivity.
Qed.

(** A row, up to the end of its last field. *)
Lemma mid_row r d : row_text r d -> forall s fs t, starts fs s -> (rd_state s = StartRecord -> d <> []) ->
  exists s' f r', after f (fs ++ r') s' /\ rd_state s' <> StartRecord /\ r = r' ++ [f] /\ mid s (d ++ t) = mid s' t.
Proof.
  induction 1 as [f d F|f d r u F R IH]; intros s fs t ST E.
  - destruct (mid_field f d s fs t F ST) as (s' & A & B & C). exists s', f, []. rewrite app_nil_r. repeat split; try apply A; auto. intros X. destruct (B X) as [-> Y]. now apply (E Y).
  - rewrite <- app_assoc. cbn [app]. destruct (mid_field f d s fs (comma :: u ++ t) F ST) as (s1 & A1 & B1 & C1).
    destruct (IH (mkrd StartField [] (fs ++ [f])) (fs ++ [f]) t) as (s' & g & r' & A & B & C & D).
    + repeat split; auto. + discriminate.
    + exists s', g, (f :: r'). rewrite <- app_assoc in A. cbn [app] in *. repeat split; try apply A; auto; [now rewrite C|]. change ","%char with comma. rewrite C1, (mid_comma f fs) by auto. exact D.
Qed.

Theorem read_file rows t : file_text rows t -> csv_read t = (rows, None).
Proof.
  change (csv_read t) with (run rd_init t). induction 1 as [|r t R N|r t e rows u L E F IH].
  - reflexivity.
  - rewrite <- mid_run by auto. destruct (mid_row r t R rd_init [] []) as (s' & f & r' & A & B & C & D); [repeat split; auto|auto|]. rewrite app_nil_r in D. rewrite D. erewrite mid_stop by eauto. now subst r.
  - assert (E' : ends e) by exact E. rewrite <- mid_run. 2:{ intros X. apply app_eq_nil in X. destruct X as [_ X]. apply app_eq_nil in X. destruct X as [X _]. destruct E as [-> | ->]; discriminate. }
    destruct L as [[-> ->]|[R N]].
    + cbn [app]. destruct E' as [-> | ->]; cbn [app]; rewrite ?mid_lf, ?mid_crlf; cbn [read_lines process_line foldM process rd_state rd_init goto is_end bind]; unfold run in IH; cbn; rewrite IH; reflexivity.
    + destruct (mid_row r t R rd_init [] (e ++ u)) as (s' & f & r' & A & B & C & D); [repeat split; auto|auto|]. rewrite D. erewrite mid_end by eauto. rewrite IH. now subst r.
Qed.

(** * The writer *)
Lemma doubled_out f : doubled f (double_quotes f).
Proof. induction f as [|c f IH]; cbn [double_quotes]; [constructor|]. destruct (Ascii.eqb c dquote) eqn:Q; [apply Ascii.eqb_eq in Q; subst; now constructor|apply Ascii.eqb_neq in Q; now constructor]. Qed.
(** The cells that can be written with this line end. *)
Definition writable (lt : text) (f : text) : Prop := lt = [cr; lf] \/ ~ In cr f.
Lemma field_out_text lt f : ends lt -> writable lt f -> field_text f (field_out lt f).
Proof.
  intros T W. unfold field_out. destruct (existsb (special lt) f) eqn:E; [apply ft_quoted, doubled_out|apply ft_bare]. intros c I. assert (C : special lt c = false).
  { apply not_true_is_false. intros H. assert (X : existsb (special lt) f = true) by (apply existsb_exists; eauto). congruence. }
  unfold special in C. rewrite !orb_false_iff in C. destruct C as [[C1 C2] C3]. apply Ascii.eqb_neq in C1, C2. split; [auto|]. split; [auto|].
  destruct T as [-> | ->]; cbn [existsb] in C3; rewrite !orb_false_iff in C3.
  - destruct C3 as [C3 _]. apply Ascii.eqb_neq in C3. split; auto. destruct W as [W|W]; [discriminate|]. intros ->. auto.
  - destruct C3 as [C3 [C4 _]]. apply Ascii.eqb_neq in C3, C4. auto.
Qed.
Lemma join_text lt r : ends lt -> Forall (writable lt) r -> r <> [] -> row_text r (join_fields (map (field_out lt) r)).
Proof.
  intros T W N. induction W as [|f r W1 W2 IH]; [congruence|]. destruct r as [|g r]; [constructor; now apply field_out_text|].
  change (join_fields (map (field_out lt) (f :: g :: r))) with (field_out lt f ++ ","%char :: join_fields (map (field_out lt) (g :: r))). constructor; [now apply field_out_text|apply IH; discriminate].
Qed.
Lemma row_out_text lt r : ends lt -> Forall (writable lt) r -> exists t, row_out lt r = t ++ lt /\ line_text r t.
Proof.
  intros T W. destruct r as [|f r]; [exists []; split; [reflexivity|left; auto]|].
  destruct (list_eq_dec (list_eq_dec ascii_dec) (f :: r) [[]]) as [E|E].
  - injection E as -> ->. exists [dquote; dquote]. split; [reflexivity|]. right. split; [|discriminate]. constructor. apply (ft_quoted [] []). constructor.
  - exists (join_fields (map (field_out lt) (f :: r))). split; [destruct f as [|a0 f0], r as [|b0 r0]; [exfalso; apply E; reflexivity|reflexivity|reflexivity|reflexivity]|].
    right. split; [apply join_text; auto; discriminate|]. destruct r as [|g r].
    + cbn [map join_fields]. unfold field_out. destruct (existsb (special lt) f); [discriminate|]. intros ->. now apply E.
    + change (field_out lt f ++ comma :: join_fields (map (field_out lt) (g :: r)) <> []). destruct (field_out lt f); discriminate.
Qed.
Lemma written lt table : ends lt -> Forall (Forall (writable lt)) table -> file_text table (csv_write lt table).
Proof.
  intros T W. unfold csv_write. induction W as [|r table W1 W2 IH]; [constructor|]. cbn [map concat]. destruct (row_out_text lt r T W1) as (t & -> & L). rewrite <- app_assoc. now constructor.
Qed.

(** * Dictionaries *)
Lemma tput_new d kv : ~ In (fst kv) (map fst d) -> tput d kv = d ++ [kv].
Proof.
  intros N. unfold tput. replace (existsb _ d) with false; auto. symmetry. apply not_true_is_false. intros X. apply existsb_exists in X. destruct X as (e & I & X).
  revert X. match goal with |- (if ?b then _ else _) = _ -> _ => destruct b as [Y|Y] end; [intros _|discriminate]. apply N. rewrite <- Y. now apply in_map.
Qed.
Lemma tdict_of_spec keys : forall values, NoDup keys -> length keys = length values -> tdict_of keys values = combine keys values.
Proof.
  intros values N L. unfold tdict_of.
  assert (G : forall (l pre : tdict), NoDup (map fst (pre ++ l)) -> fold_left tput l pre = pre ++ l).
  { induction l as [|kv l IH]; intros pre P; cbn [fold_left]; [now rewrite app_nil_r|]. rewrite tput_new.
    - rewrite IH; rewrite <- app_assoc; auto.
    - intros X. rewrite map_app in P. cbn [map] in P. apply NoDup_remove_2 in P. apply P. apply in_or_app. auto. }
  rewrite G; auto. cbn [app]. replace (map fst (combine keys values)) with keys; auto. clear N G. revert values L. induction keys as [|k ks IH]; intros [|v vs] L; cbn in *; try congruence. f_equal. auto.
Qed.
Lemma tget_nth keys : forall values j k v, NoDup keys -> nth_error keys j = Some k -> nth_error values j = Some v -> tget (combine keys values) k = Ok v.
Proof.
  induction keys as [|k0 ks IH]; intros values j k v N K V; [destruct j; discriminate|]. destruct values as [|v0 vs]; [destruct j; discriminate|]. inversion N as [|? ? N1 N2]; subst.
  cbn [combine tget]. destruct j as [|j]; cbn in K, V.
  - injection K as ->. injection V as ->. destruct (list_eq_dec ascii_dec k k); congruence.
  - destruct (list_eq_dec ascii_dec k0 k) as [->|]; [exfalso; apply N1; eapply nth_error_In; eauto|]. eauto.
Qed.

(** * Paths *)
Lemma basename_from_app a b acc : ~ In "/"%char b -> basename_from acc (a ++ "/"%char :: b) = b.
Proof.
  intros N. revert acc. induction a as [|c a IH]; intros acc; cbn [app basename_from].
  - cbn [Ascii.eqb]. assert (G : forall b acc, ~ In "/"%char b -> basename_from acc b = acc ++ b).
    { induction b0 as [|c b0 I2]; intros acc0 N0; cbn [basename_from]; [now rewrite app_nil_r|]. destruct (Ascii.eqb c "/") eqn:E; [apply Ascii.eqb_eq in E; subst; exfalso; apply N0; now left|].
      rewrite I2 by (intros X; apply N0; now right). now rewrite <- app_assoc. }
    now rewrite G.
  - destruct (Ascii.eqb c "/"); apply IH.
Qed.
Lemma basename_no_slash b : ~ In "/"%char b -> basename b = b.
Proof.
  unfold basename. intros N. assert (G : forall b acc, ~ In "/"%char b -> basename_from acc b = acc ++ b).
  { induction b0 as [|c b0 I2]; intros acc0 N0; cbn [basename_from]; [now rewrite app_nil_r|]. destruct (Ascii.eqb c "/") eqn:E; [apply Ascii.eqb_eq in E; subst; exfalso; apply N0; now left|].
    rewrite I2 by (intros X; apply N0; now right). now rewrite <- app_assoc. }
  now rewrite G.
Qed.
Lemma lower_slash t : ~ In "/"%char t -> ~ In "/"%char (lower t).
Proof.
  intros N X. unfold lower in X. apply in_map_iff in X. destruct X as (c & E & I). unfold lower_char in E. destruct ((65 <=? nat_of_ascii c) && (nat_of_ascii c <=? 90))%nat eqn:B.
  - apply andb_true_iff in B. destruct B as [B1 B2]. apply Nat.leb_le in B1, B2. apply (f_equal nat_of_ascii) in E. rewrite nat_ascii_embedding in E by lia. change (nat_of_ascii "/") with 47%nat in E. lia.
  - subst c. auto.
Qed.
