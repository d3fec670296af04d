From Verif Require Import Prelude M_Elements M_Stoichiometry Spec_Stoich P_Ledger P_Loan.
From Coq Require Import Field.
Local Open Scope string_scope.
Local Open Scope list_scope.
Local Open Scope Z_scope.

(** * Characters *)
Definition char_ok (p : ascii -> bool) : bool := forallb (fun n => p (ascii_of_nat n)) (seq 0 256).
Lemma char_all p : char_ok p = true -> forall c, p c = true.
Proof.
  unfold char_ok. rewrite forallb_forall. intros H c. rewrite <- (ascii_nat_embedding c). apply H.
  apply in_seq. pose proof (nat_ascii_bounded c). lia.
Qed.
Ltac char_fact := match goal with |- forall c, @?P c = true => apply (char_all P); vm_compute; reflexivity end.

Lemma upper_lower : forall c, implb (is_upper c) (negb (is_lower c) && negb (is_digit c) && negb (is_space c)) = true. Proof. char_fact. Qed.
Lemma digit_lower : forall c, implb (is_digit c) (negb (is_lower c) && negb (is_upper c) && negb (is_space c)) = true. Proof. char_fact. Qed.
Lemma lower_f : forall c, implb (is_lower c) (negb (is_space c)) = true. Proof. char_fact. Qed.
Lemma alnum_f : forall c, implb (is_alnum c) (negb (is_space c)) = true. Proof. char_fact. Qed.

(** Head of the rest of the text does not satisfy [p]. *)
Definition hd_not (p : ascii -> bool) (t : text) : Prop := match t with c :: _ => p c = false | [] => True end.

Lemma span_app p l r : forallb p l = true -> hd_not p r -> span p (l ++ r) = (l, r).
Proof.
  intros Hl Hr. induction l as [|c l IH]; cbn.
  - destruct r as [|c r]; cbn; auto. cbn in Hr. now rewrite Hr.
  - cbn in Hl. apply andb_true_iff in Hl as [H1 H2]. rewrite H1, (IH H2). reflexivity.
Qed.
Lemma span_spec p t : t = fst (span p t) ++ snd (span p t) /\ forallb p (fst (span p t)) = true.
Proof.
  induction t as [|c t [IH1 IH2]]; cbn; auto. destruct (p c) eqn:E; cbn; auto. rewrite E, IH2. split; auto. f_equal. exact IH1.
Qed.

Lemma p_element_app t r : is_element_text t -> hd_not is_lower r -> p_element (t ++ r) = Some (t, r).
Proof. intros (c & l & -> & Hc & Hl) Hr. cbn. rewrite Hc, (span_app _ _ _ Hl Hr). reflexivity. Qed.
Lemma p_number_app t r : is_number_text t -> hd_not is_digit r -> p_number (t ++ r) = Some (t, r).
Proof. intros (Hn & Hl) Hr. unfold p_number. rewrite (span_app _ _ _ Hl Hr). cbn. destruct t; [congruence|reflexivity]. Qed.
Lemma p_number_none t : hd_not is_digit t -> p_number t = None.
Proof. destruct t as [|c t]; cbn; auto. intros H. unfold p_number. cbn. now rewrite H. Qed.
Lemma p_opt_number_app n r : opt_number n -> hd_not is_digit r -> p_opt_number (opt_text n ++ r) = (n, r).
Proof.
  intros H Hr. unfold p_opt_number. destruct n as [n|]; cbn [opt_text].
  - now rewrite (p_number_app _ _ H Hr).
  - cbn. now rewrite (p_number_none _ Hr).
Qed.
Lemma p_string_app t r : is_phase_text t -> hd_not is_alnum r -> p_string (t ++ r) = Some (t, r).
Proof. intros (Hn & Hl) Hr. unfold p_string. rewrite (span_app _ _ _ Hl Hr). cbn. destruct t; [congruence|reflexivity]. Qed.

Lemma p_element_sound t e r : p_element t = Some (e, r) -> t = e ++ r /\ is_element_text e.
Proof.
  destruct t as [|c t]; cbn; [discriminate|]. destruct (is_upper c) eqn:E; [|discriminate]. intros H; inversion H; subst.
  destruct (span_spec is_lower t) as [H1 H2]. split; [cbn; f_equal; exact H1|]. exists c, (fst (span is_lower t)). auto.
Qed.
Lemma p_number_sound t e r : p_number t = Some (e, r) -> t = e ++ r /\ is_number_text e.
Proof.
  unfold p_number. intros H. destruct (span_spec is_digit t) as [H1 H2]. destruct (span is_digit t) as [a b]. cbn in *.
  destruct a; [discriminate|]. inversion H; subst. split; auto. split; auto. discriminate.
Qed.
Lemma p_opt_number_sound t n r : p_opt_number t = (n, r) -> t = opt_text n ++ r /\ opt_number n.
Proof.
  unfold p_opt_number. destruct (p_number t) as [[a b]|] eqn:E; intros H; inversion H; subst; cbn; auto.
  now apply p_number_sound.
Qed.
Lemma p_string_sound t e r : p_string t = Some (e, r) -> t = e ++ r /\ is_phase_text e.
Proof.
  unfold p_string. intros H. destruct (span_spec is_alnum t) as [H1 H2]. destruct (span is_alnum t) as [a b]. cbn in *.
  destruct a; [discriminate|]. inversion H; subst. split; auto. split; auto. discriminate.
Qed.
Lemma p_lit_sound c t r : p_lit c t = Some r -> t = c :: r.
Proof. destruct t as [|d t]; cbn; [discriminate|]. destruct (Ascii.eqb_spec c d); [|discriminate]. congruence. Qed.

(** * Soundness: what is accepted is generated *)
Lemma p_item_sound group t i r :
  (forall t g r, group t = Some (g, r) -> exists u, t = u ++ r /\ gen_group u g) ->
  p_item group t = Some (i, r) -> exists u, t = u ++ r /\ gen_item u i.
Proof.
  intros Hg. unfold p_item, p_subscriptedgroup.
  destruct (p_lit "(" t) as [t1|] eqn:E1; [apply p_lit_sound in E1; subst t; destruct (group t1) as [[g t2]|] eqn:E2;
    [destruct (p_lit ")" t2) as [t3|] eqn:E3|]|].
  { intros H; inversion H; subst; clear H. apply p_lit_sound in E3; subst t2. apply Hg in E2 as (u & -> & Hu).
    destruct (p_opt_number t3) as [n t4] eqn:E4. cbn [fst snd]. apply p_opt_number_sound in E4 as (-> & Hn).
    exists (["("%char] ++ u ++ [")"%char] ++ opt_text n). split; [|now constructor]. cbn. f_equal. rewrite <- !app_assoc. reflexivity. }
  all: unfold p_subscriptedelement;
    match goal with |- context [p_element ?x] => destruct (p_element x) as [[e ta]|] eqn:E5 end; [|discriminate];
    apply p_element_sound in E5 as (-> & He); destruct (p_number ta) as [[n tb]|] eqn:E6.
  all: intros H; inversion H; subst; clear H.
  all: try (apply p_number_sound in E6 as (-> & Hn); exists (e ++ n); rewrite app_assoc; split; [reflexivity|now constructor]).
  all: exists e; split; [reflexivity|now constructor].
Qed.

Lemma p_group_sound f t g r : p_group f t = Some (g, r) -> exists u, t = u ++ r /\ gen_group u g.
Proof.
  revert t g r. induction f as [|f IH]; intros t g r; [discriminate|]. cbn [p_group].
  destruct (p_item (p_group f) t) as [[i r1]|] eqn:E1; [|discriminate]. apply (p_item_sound _ _ _ _ IH) in E1 as (u & -> & Hu).
  destruct (p_group f r1) as [[g' r2]|] eqn:E2; intros H; inversion H; subst.
  - apply IH in E2 as (v & -> & Hv). exists (u ++ v). rewrite app_assoc. split; auto. now constructor.
  - exists u. split; auto. now constructor.
Qed.

Lemma grammar_parse_sound t f : grammar_parse t = Ok f -> gen_compound t f.
Proof.
  unfold grammar_parse, p_compound. destruct (p_group (S (length t)) t) as [[g r]|] eqn:E1; [|discriminate].
  apply p_group_sound in E1 as (u & Ht & Hu). set (k := S (length t)). clearbody k.
  unfold p_opt. destruct (p_dottedgroup k r) as [[d r1]|] eqn:E2; cbn [fst snd].
  - unfold p_dottedgroup in E2. destruct (p_lit "." r) as [r0|] eqn:E3; [|discriminate]. apply p_lit_sound in E3. subst r.
    destruct (p_opt_number r0) as [n r0'] eqn:E4. cbn [fst snd] in E2. apply p_opt_number_sound in E4 as (-> & Hn).
    destruct (p_group k r0') as [[g' r'']|] eqn:E5; [|discriminate]. inversion E2; subst; clear E2.
    apply p_group_sound in E5 as (v & -> & Hv).
    destruct (p_phase r1) as [[p r2]|] eqn:E6; cbn [fst snd].
    + unfold p_phase in E6. destruct (p_lit "[" r1) as [x1|] eqn:F1; [|discriminate]. apply p_lit_sound in F1; subst r1.
      destruct (p_string x1) as [[s x2]|] eqn:F2; [|discriminate]. apply p_string_sound in F2 as (-> & Hs).
      destruct (p_lit "]" x2) as [x3|] eqn:F3; [|discriminate]. apply p_lit_sound in F3; subst x2. inversion E6; subst; clear E6.
      destruct r2; [|discriminate]. intros H; inversion H; subst. exists u, ("."%char :: opt_text n ++ v), ("["%char :: p ++ ["]"%char]).
      split; [cbn; rewrite <- app_assoc; reflexivity|]. split; auto. split; [exists v; auto|]. cbn. auto.
    + destruct r1; [|discriminate]. intros H; inversion H; subst. exists u, ("."%char :: opt_text n ++ v), [].
      rewrite !app_nil_r. repeat split; auto. exists v; auto.
  - destruct (p_phase r) as [[p r2]|] eqn:E6; cbn [fst snd].
    + unfold p_phase in E6. destruct (p_lit "[" r) as [x1|] eqn:F1; [|discriminate]. apply p_lit_sound in F1; subst r.
      destruct (p_string x1) as [[s x2]|] eqn:F2; [|discriminate]. apply p_string_sound in F2 as (-> & Hs).
      destruct (p_lit "]" x2) as [x3|] eqn:F3; [|discriminate]. apply p_lit_sound in F3; subst x2. inversion E6; subst; clear E6.
      destruct r2; [|discriminate]. intros H; inversion H; subst. exists u, [], ("["%char :: p ++ ["]"%char]). repeat split; auto; apply Hs.
    + destruct r; [|discriminate]. intros H; inversion H; subst. exists u, [], []. rewrite !app_nil_r. repeat split; auto.
Qed.

(** * Completeness: what is generated is accepted, with the same syntax *)
Definition starts_item (c : ascii) : bool := is_upper c || Ascii.eqb "(" c.
Lemma starts_f : forall c, implb (starts_item c) (negb (is_lower c) && negb (is_digit c) && negb (is_space c)) = true. Proof. char_fact. Qed.

Lemma gen_item_head t i : gen_item t i -> exists c t', t = c :: t' /\ starts_item c = true.
Proof.
  unfold starts_item. intros H. inversion H; subst.
  - destruct H0 as (c & l & -> & Hc & _). exists c, l. split; auto. now rewrite Hc.
  - destruct H0 as (c & l & -> & Hc & _). exists c, (l ++ n). split; auto. now rewrite Hc.
  - eexists _, _. split; [reflexivity|]. reflexivity.
Qed.
Lemma gen_group_head t g : gen_group t g -> exists c t', t = c :: t' /\ starts_item c = true.
Proof.
  intros H; inversion H; subst.
  - eapply gen_item_head; eauto.
  - apply gen_item_head in H0 as (c & t' & -> & E). eexists _, _. cbn. eauto.
Qed.

Lemma p_group_none f t : hd_not starts_item t -> p_group f t = None.
Proof.
  destruct f as [|f]; auto. destruct t as [|c t]; cbn [p_group]; auto. cbn [hd_not]. unfold starts_item. rewrite orb_false_iff. intros [H1 H2].
  unfold p_item, p_subscriptedgroup, p_subscriptedelement, p_element, p_lit. rewrite H1, H2. reflexivity.
Qed.

Scheme gen_item_ind2 := Induction for gen_item Sort Prop
  with gen_group_ind2 := Induction for gen_group Sort Prop.
Combined Scheme gen_mut from gen_item_ind2, gen_group_ind2.

Lemma complete_mut :
  (forall t i, gen_item t i -> forall f r, (length t <= f)%nat -> hd_not is_lower r -> hd_not is_digit r ->
     p_item (p_group f) (t ++ r) = Some (i, r)) /\
  (forall t g, gen_group t g -> forall f r, (length t < f)%nat -> hd_not is_lower r -> hd_not is_digit r -> hd_not starts_item r ->
     p_group f (t ++ r) = Some (g, r)).
Proof.
  apply (gen_mut
    (fun t i _ => forall f r, (length t <= f)%nat -> hd_not is_lower r -> hd_not is_digit r -> p_item (p_group f) (t ++ r) = Some (i, r))
    (fun t g _ => forall f r, (length t < f)%nat -> hd_not is_lower r -> hd_not is_digit r -> hd_not starts_item r ->
     p_group f (t ++ r) = Some (g, r))).
  - intros t Ht f r Hf Hl Hd. unfold p_item.
    assert (E : p_subscriptedgroup (p_group f) (t ++ r) = None).
    { destruct Ht as (c & l & -> & Hc & _). unfold p_subscriptedgroup. cbn [app p_lit]. destruct (Ascii.eqb_spec "(" c); auto. subst c. discriminate. }
    rewrite E. unfold p_subscriptedelement. rewrite (p_element_app _ _ Ht Hl), (p_number_none _ Hd). reflexivity.
  - intros t n Ht Hn f r Hf Hl Hd. unfold p_item.
    assert (E : p_subscriptedgroup (p_group f) ((t ++ n) ++ r) = None).
    { destruct Ht as (c & l & -> & Hc & _). unfold p_subscriptedgroup. cbn [app p_lit]. destruct (Ascii.eqb_spec "(" c); auto. subst c. discriminate. }
    rewrite E. unfold p_subscriptedelement. rewrite <- app_assoc, p_element_app; auto.
    + rewrite (p_number_app _ _ Hn Hd). reflexivity.
    + destruct Hn as [Hn1 Hn2]. destruct n as [|c n]; [congruence|]. cbn in *. apply andb_true_iff in Hn2 as [Hc _].
      pose proof (digit_lower c) as X. rewrite Hc in X. cbn in X. destruct (is_lower c); auto.
  - intros t g n Hg IH Hn f r Hf Hl Hd. unfold p_item, p_subscriptedgroup. cbn [app p_lit Ascii.eqb Bool.eqb].
    assert (Hlen : (length t < f)%nat). { cbn in Hf. rewrite app_length in Hf. cbn in Hf. lia. }
    rewrite <- app_assoc. cbn [app]. rewrite IH; auto; [|cbn; auto..].
    cbn [p_lit Ascii.eqb Bool.eqb]. rewrite p_opt_number_app; auto.
  - intros t i Hi IH f r Hf Hl Hd Hs. destruct f as [|f]; [lia|]. cbn [p_group]. rewrite IH; auto; [|lia].
    now rewrite p_group_none.
  - intros t i u g Hi IHi Hg IHg f r Hf Hl Hd Hs. destruct f as [|f]; [lia|]. cbn [p_group].
    destruct (gen_item_head _ _ Hi) as (c & t' & -> & _). destruct (gen_group_head _ _ Hg) as (c' & u' & -> & Hc').
    pose proof (starts_f c') as X. rewrite Hc' in X. cbn in X. apply andb_true_iff in X as [X1 X3]. apply andb_true_iff in X1 as [X1 X2].
    rewrite app_length in Hf. rewrite <- app_assoc. rewrite IHi.
    + rewrite IHg; auto. cbn in *. lia.
    + lia.
    + cbn. destruct (is_lower c'); auto.
    + cbn. destruct (is_digit c'); auto.
Qed.

Lemma p_group_complete t g f r : gen_group t g -> (length t < f)%nat -> hd_not is_lower r -> hd_not is_digit r -> hd_not starts_item r ->
  p_group f (t ++ r) = Some (g, r).
Proof. intros H. apply (proj2 complete_mut _ _ H). Qed.

Lemma grammar_parse_complete t f : gen_compound t f -> grammar_parse t = Ok f.
Proof.
  intros (a & b & c & -> & Ha & Hb & Hc). unfold grammar_parse, p_compound.
  assert (Hh : forall p : ascii -> bool, p "."%char = false -> p "["%char = false -> hd_not p (b ++ c)).
  { intros p H1 H2. destruct f as [fg fd fp]. cbn in *. destruct fd as [[n g]|].
    - destruct Hb as (u & -> & _). exact H1.
    - cbn in Hb. subst b. cbn. destruct fp; [destruct Hc as [-> _]|cbn in Hc; subst c]; cbn; auto. }
  assert (Hh2 : forall p : ascii -> bool, p "["%char = false -> hd_not p c).
  { intros p H. destruct (f_phase f); [destruct Hc as [-> _]|cbn in Hc; subst c]; cbn; auto. }
  rewrite (p_group_complete _ _ _ (b ++ c) Ha); [|rewrite app_length; lia|apply Hh; reflexivity..].
  assert (Ec : p_opt p_phase c = (f_phase f, [])).
  { unfold p_opt, p_phase. destruct f as [fg fd fp]. cbn in *. destruct fp as [s|].
    - destruct Hc as [-> Hs]. cbn. rewrite (p_string_app s ["]"%char] Hs eq_refl). reflexivity.
    - cbn in Hc. subst c. reflexivity. }
  assert (Eb : p_opt (p_dottedgroup (S (length (a ++ b ++ c)))) (b ++ c) = (f_dotted f, c)).
  { assert (Hk : (length b < S (length (a ++ b ++ c)))%nat) by (rewrite !app_length; lia).
    set (k := S (length (a ++ b ++ c))) in *. clearbody k.
    unfold p_opt, p_dottedgroup. destruct f as [fg fd fp]. cbn in Hb |- *. destruct fd as [[n g]|].
    - destruct Hb as (u & -> & Hn & Hg). cbn [app p_lit Ascii.eqb Bool.eqb]. rewrite <- !app_assoc.
      destruct (gen_group_head _ _ Hg) as (c' & u' & E & Hc').
      pose proof (starts_f c') as X. rewrite Hc' in X. cbn in X. apply andb_true_iff in X as [X1 X3]. apply andb_true_iff in X1 as [X1 X2].
      rewrite p_opt_number_app; auto; [|rewrite E; cbn; destruct (is_digit c'); auto]. cbn [fst snd].
      rewrite (p_group_complete _ _ _ c Hg); [reflexivity|cbn in Hk; rewrite app_length in Hk; lia|apply Hh2; reflexivity..].
    - cbn in Hb; subst b. cbn. destruct fp as [s|]; [destruct Hc as [-> _]|cbn in Hc; subst c]; reflexivity. }
  rewrite Eb. cbn [snd fst]. rewrite Ec. destruct f; reflexivity.
Qed.

Lemma grammar_parse_iff t f : grammar_parse t = Ok f <-> gen_compound t f.
Proof. split; [apply grammar_parse_sound|apply grammar_parse_complete]. Qed.

Lemma grammar_parse_err t e : grammar_parse t = Err e -> e = ParseError.
Proof. unfold grammar_parse. destruct (p_compound _ _) as [[f [|]]|]; congruence. Qed.
