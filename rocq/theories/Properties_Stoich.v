(** Theorems C28-C32 and C56: chemical formulas and stoichiometry. *)
From Verif Require Import Prelude M_Elements M_Stoichiometry Spec_Stoich P_Ledger P_Loan P_Stoich P_Count P_Convert.
From Coq Require Import Field.
Local Open Scope string_scope.
Local Open Scope list_scope.
Local Open Scope Z_scope.

Definition qq (a : Z) (b : positive) : Qc := Q2Qc (a # b).

(** * C28: the parser accepts exactly the grammar and reads the syntax back *)
Theorem C28_parses_the_grammar : forall (t : text) (f : formula), grammar_parse t = Ok f <-> gen_compound t f.
Proof. exact grammar_parse_iff. Qed.
Print Assumptions C28_parses_the_grammar.
Theorem C28_unambiguous : forall t f g, gen_compound t f -> gen_compound t g -> f = g.
Proof. intros t f g. rewrite <- !grammar_parse_iff. congruence. Qed.
Print Assumptions C28_unambiguous.

(** The characters of the grammar, written out. *)
Lemma class_list (f : ascii -> bool) (l : list ascii) : forallb (fun n => Bool.eqb (f (ascii_of_nat n)) (existsb (Ascii.eqb (ascii_of_nat n)) l)) (seq 0 256) = true -> forall c, f c = true <-> In c l.
Proof.
  intros H c. rewrite forallb_forall in H. specialize (H (nat_of_ascii c)). rewrite ascii_nat_embedding in H. assert (B : (nat_of_ascii c < 256)%nat) by apply nat_ascii_bounded.
  specialize (H ltac:(apply in_seq; lia)). apply Bool.eqb_prop in H. rewrite H, existsb_exists. split; [intros (x & I & E); apply Ascii.eqb_eq in E; now subst|]. intros I. exists c. split; auto. apply Ascii.eqb_refl.
Qed.
Lemma all_list (f : ascii -> bool) (l t : list ascii) : (forall c, f c = true <-> In c l) -> forallb f t = true <-> forall c, In c t -> In c l.
Proof. intros H. rewrite forallb_forall. split; intros K c I; apply H; auto. Qed.
Definition capitals : text := text_of "ABCDEFGHIJKLMNOPQRSTUVWXYZ".
Definition small_letters : text := text_of "abcdefghijklmnopqrstuvwxyz".
Definition digits : text := text_of "0123456789".
(** Tab, line feed, vertical tab, form feed, carriage return, the four
    separators, space, next line, no-break space. *)
Definition white : text := map ascii_of_nat [9; 10; 11; 12; 13; 28; 29; 30; 31; 32; 133; 160]%nat.
Theorem C28_characters : forall t,
  (is_element_text t <-> exists c l, t = c :: l /\ In c capitals /\ forall d, In d l -> In d small_letters) /\
  (is_number_text t <-> t <> [] /\ forall d, In d t -> In d digits) /\
  (is_phase_text t <-> t <> [] /\ forall d, In d t -> In d (capitals ++ small_letters ++ digits)) /\
  (blank t <-> forall d, In d t -> In d white).
Proof.
  intros t.
  assert (U : forall c, is_upper c = true <-> In c capitals) by (apply class_list; vm_compute; reflexivity).
  assert (L : forall c, is_lower c = true <-> In c small_letters) by (apply class_list; vm_compute; reflexivity).
  assert (D : forall c, is_digit c = true <-> In c digits) by (apply class_list; vm_compute; reflexivity).
  assert (W : forall c, is_space c = true <-> In c white) by (apply class_list; vm_compute; reflexivity).
  assert (A : forall c, is_alnum c = true <-> In c (capitals ++ small_letters ++ digits)). { intros c. unfold is_alnum. rewrite !orb_true_iff, !in_app_iff, U, L, D. tauto. }
  split; [|split; [|split]].
  - unfold is_element_text. split; intros (c & l & E & H1 & H2); exists c, l; (split; [exact E|]); (split; [now apply U|]); now apply (all_list _ _ l L).
  - unfold is_number_text. rewrite (all_list _ _ t D). reflexivity.
  - unfold is_phase_text. rewrite (all_list _ _ t A). reflexivity.
  - unfold blank. apply all_list, W.
Qed.
Print Assumptions C28_characters.
Theorem C28_rejects_the_rest : forall t, (forall f, ~ gen_compound t f) -> parse_compound t = Err ParseError.
Proof.
  intros t H. unfold parse_compound. destruct (grammar_parse t) as [f|e] eqn:E; cbn [bind].
  - exfalso. apply (H f). now apply grammar_parse_iff.
  - apply grammar_parse_err in E. now subst.
Qed.
Print Assumptions C28_rejects_the_rest.
(** Every element count is what is written in the formula. *)
Theorem C28_counts : forall c f, proper c f -> forall el, stoichiometry_coefficient c el = Ok (q_of_Z (atoms el f)).
Proof. intros c f H el. now apply coefficient_proper. Qed.
Print Assumptions C28_counts.
Theorem C28_counts_list : forall c f, proper c f -> forall els, stoichiometry_coefficients c els = Ok (map (fun el => q_of_Z (atoms el f)) els).
Proof. intros c f H el. now apply coefficients_proper. Qed.
Print Assumptions C28_counts_list.
Example C28_example : exists f, proper " Al2(SO4)3.18H2O[S1] " f /\ has_atoms f /\ atoms "O" f = 30 /\ atoms "H" f = 36 /\ atoms "S" f = 3 /\ atoms "Fe" f = 0.
Proof.
  destruct (check " Al2(SO4)3.18H2O[S1] ") as [f|] eqn:E; [|vm_compute in E; discriminate].
  exists f. split; [now apply check_proper|]. vm_compute in E. inversion E; subst. split; [exists "O"; vm_compute; reflexivity|]. vm_compute. auto.
Qed.
Example C28_example_reject : grammar_parse (text_of "fe2O3") = Err ParseError /\ grammar_parse (text_of "(OH") = Err ParseError.
Proof. split; [vm_compute; reflexivity|vm_compute; reflexivity]. Qed.
(** * C29: molar mass *)
Theorem C29_molar_mass : forall c f, proper c f -> molar_mass (Some c) = Ok (weight (fun el => atoms el f)).
Proof. exact molar_mass_proper. Qed.
Print Assumptions C29_molar_mass.
Theorem C29_only_formulas : forall c m, molar_mass (Some c) = Ok m -> c = "" /\ m = 0%Qc \/ exists f, proper c f /\ m = weight (fun el => atoms el f).
Proof. exact molar_mass_cases. Qed.
Print Assumptions C29_only_formulas.
Theorem C29_positive : forall c f, proper c f -> has_atoms f -> exists m, molar_mass (Some c) = Ok m /\ (0 < m)%Qc.
Proof. intros c f H A. eexists. split; [eapply molar_mass_proper; eauto|]. eapply molar_pos; eauto. Qed.
Print Assumptions C29_positive.
Theorem C29_unknown_element : forall c f, written c f -> ~ all_known f -> molar_mass (Some c) = Err VisitationError.
Proof. intros c f H K. rewrite molar_mass_unfold by (eapply written_nonempty; eauto). now rewrite (parse_unknown _ _ H K). Qed.
Print Assumptions C29_unknown_element.
Theorem C29_bad_syntax : forall c, c <> "" -> (forall f, ~ written c f) -> molar_mass (Some c) = Err ParseError.
Proof. intros c N H. rewrite molar_mass_unfold by (destruct c; [congruence|discriminate]). now rewrite (parse_syntax _ H). Qed.
Print Assumptions C29_bad_syntax.
(** Additive under concatenation; [plain t g]: a group without dot and phase whose symbols are known. *)
Theorem C29_concatenation : forall t g u h, plain t g -> plain u h ->
  exists a b, molar_mass (Some (str_of t)) = Ok a /\ molar_mass (Some (str_of u)) = Ok b /\ molar_mass (Some (str_of (t ++ u))) = Ok (a + b)%Qc.
Proof. exact mass_concat. Qed.
Print Assumptions C29_concatenation.
Theorem C29_group_subscript : forall t g n, plain t g -> is_number_text n -> decimal n <> 0 ->
  exists a, molar_mass (Some (str_of t)) = Ok a /\
    molar_mass (Some (str_of (text_of "(" ++ t ++ text_of ")" ++ n))) = Ok (q_of_Z (decimal n) * a)%Qc.
Proof.
  intros t g n H Hn D. destruct (mass_subscript t g (Some n) H Hn) as (a & A & B). exists a. split; auto. cbn [opt_text group_multiplier] in B.
  apply Z.eqb_neq in D. rewrite D in B. exact B.
Qed.
Print Assumptions C29_group_subscript.
Theorem C29_element_subscript : forall t n, is_element_text t -> in_table (str_of t) -> is_number_text n ->
  exists a, molar_mass (Some (str_of t)) = Ok a /\ molar_mass (Some (str_of (t ++ n))) = Ok (q_of_Z (decimal n) * a)%Qc.
Proof. exact mass_subelement. Qed.
Print Assumptions C29_element_subscript.
Theorem C29_hydrate : forall t g n u h, plain t g -> is_number_text n -> decimal n <> 0 -> plain u h ->
  exists a b, molar_mass (Some (str_of t)) = Ok a /\ molar_mass (Some (str_of u)) = Ok b /\
    molar_mass (Some (str_of (t ++ text_of "." ++ n ++ u))) = Ok (a + q_of_Z (decimal n) * b)%Qc.
Proof.
  intros t g n u h H1 Hn D H2. destruct (mass_hydrate t g (Some n) u h H1 Hn H2) as (a & b & A & B & C). exists a, b. split; auto. split; auto.
  cbn [opt_text group_multiplier] in C. apply Z.eqb_neq in D. rewrite D in C. exact C.
Qed.
Print Assumptions C29_hydrate.
Theorem C29_phase_ignored : forall t f p, gen_compound t f -> f_phase f = None -> is_phase_text p ->
  molar_mass (Some (str_of (t ++ text_of "[" ++ p ++ text_of "]"))) = molar_mass (Some (str_of t)).
Proof. exact mass_phase. Qed.
Print Assumptions C29_phase_ignored.
Theorem C29_white_space_ignored : forall l t r f, blank l -> blank r -> gen_compound t f ->
  molar_mass (Some (str_of (l ++ t ++ r))) = molar_mass (Some (str_of t)).
Proof. intros l t r f Hl Hr H. apply gen_compound_nospace in H as [H1 H2]. now apply mass_padding. Qed.
Print Assumptions C29_white_space_ignored.
Theorem C29_empty : molar_mass None = Ok 0%Qc /\ molar_mass (Some "") = Ok 0%Qc.
Proof. split; reflexivity. Qed.
Print Assumptions C29_empty.
Theorem C29_element : forall e, In e element_dictionary -> molar_mass (Some (el_symbol e)) = Ok (el_mass e).
Proof.
  intros e He. rewrite symbol_mass by (exists e; auto). unfold mass_of.
  now rewrite (proj2 (find_element_some _ e) (conj He eq_refl)).
Qed.
Print Assumptions C29_element.
(** The elements are those of the periodic table up to number 111, in order.  A period ends
    with the numbers 2, 10, 18, 36, 54, 86; its first two elements are in the groups 1
    and 2, and the others are counted back from group 18, except for the lanthanoids and
    actinoids, which have no group (0), and helium, which ends its period at once. *)
Definition period_start (z : Z) : Z := fold_left (fun a n => if (n <? z)%Z then n else a) [2; 10; 18; 36; 54; 86]%Z 0%Z.
Definition period_end (z : Z) : Z := fold_left (fun a n => if (z <=? n)%Z then Z.min a n else a) [2; 10; 18; 36; 54; 86]%Z 118%Z.
Definition period_of (z : Z) : Z := (1 + Z.of_nat (length (filter (fun n => (n <? z)%Z) [2; 10; 18; 36; 54; 86]%Z)))%Z.
Definition group_of (z : Z) : Z :=
  if ((57 <=? z) && (z <=? 71) || (89 <=? z) && (z <=? 103))%Z%bool then 0%Z else if (z - period_start z <=? 2)%Z && negb (z =? 2)%Z then (z - period_start z)%Z else (18 - (period_end z - z))%Z.
Theorem C29_periodic_table : map el_number element_dictionary = map Z.of_nat (seq 1 111) /\
  forall e, In e element_dictionary -> el_period e = period_of (el_number e) /\ el_group e = group_of (el_number e).
Proof.
  split; [vm_compute; reflexivity|]. assert (H : forallb (fun e => (el_period e =? period_of (el_number e))%Z && (el_group e =? group_of (el_number e))%Z)%bool element_dictionary = true) by (vm_compute; reflexivity).
  rewrite forallb_forall in H. intros e I. specialize (H e I). apply andb_prop in H. destruct H as [A B]. now apply Z.eqb_eq in A, B.
Qed.
Print Assumptions C29_periodic_table.
Example C29_example : molar_mass (Some "Fe2O3[S1]") = Ok (qq 1596882 10000).
Proof.
  destruct (check "Fe2O3[S1]") as [f|] eqn:E; [|vm_compute in E; discriminate]. rewrite (molar_mass_proper _ _ (check_proper _ _ E)).
  vm_compute in E. inversion E; subst. f_equal. apply Qc_is_canon. vm_compute. reflexivity.
Qed.
Example C29_plain_example : exists g, plain (text_of "Fe(OH)2") g.
Proof.
  destruct (check "Fe(OH)2") as [f|] eqn:E; [|vm_compute in E; discriminate]. pose proof (check_proper _ _ E) as [W K].
  vm_compute in E. inversion E; subst. apply written_strip in W. eexists. split.
  - apply grammar_parse_iff in W. apply grammar_parse_iff in W. destruct W as (a & b & c & Eq & Ha & Hb & Hc). cbn in Hb, Hc. subst b c.
    rewrite !app_nil_r in Eq. change (strip (text_of "Fe(OH)2")) with (text_of "Fe(OH)2") in Eq. rewrite Eq. exact Ha.
  - intros s Hs. apply K. unfold symbols. apply in_app_iff. left. exact Hs.
Qed.
Example C29_unknown_example : molar_mass (Some "Xx2") = Err VisitationError.
Proof. vm_compute. reflexivity. Qed.

(** * C30: amount and mass are inverse *)
Theorem C30_mass_of_amount : forall c m n, amount c m = Ok n -> mass c n = Ok m.
Proof.
  unfold amount, mass. intros c m n. destruct (molar_mass (Some c)) as [mm|e]; cbn [bind]; [|discriminate]. intros H.
  apply pydiv_ok in H as [H ->]. f_equal. field. auto.
Qed.
Print Assumptions C30_mass_of_amount.
Theorem C30_amount_of_mass : forall c f n, proper c f -> has_atoms f -> exists m, mass c n = Ok m /\ amount c m = Ok n.
Proof.
  intros c f n H A. unfold amount, mass. rewrite (molar_mass_proper _ _ H). cbn [bind]. eexists. split; [reflexivity|].
  pose proof (molar_neq _ _ H A). rewrite pydiv_ne by auto. f_equal. field. auto.
Qed.
Print Assumptions C30_amount_of_mass.
Theorem C30_amount_defined : forall c f m, proper c f -> has_atoms f -> amount c m = Ok (m / weight (fun el => atoms el f))%Qc.
Proof. intros c f m H A. unfold amount. rewrite (molar_mass_proper _ _ H). cbn [bind]. apply pydiv_ne. eapply molar_neq; eauto. Qed.
Print Assumptions C30_amount_defined.
Theorem C30_amounts_entrywise : forall d n, amounts d = Ok n <-> Forall2 (fun x y => fst y = fst x /\ amount (fst x) (snd x) = Ok (snd y)) d n.
Proof.
  intros d n. split.
  - intros H. apply (proj1 (mapM_Forall2 _ _ _)) in H. induction H as [|[c v] [c' v'] l l' H _ IH]; constructor; auto. cbn [fst snd] in *.
    destruct (amount c v); cbn [bind] in H; inversion H; auto.
  - intros H. apply (proj2 (mapM_Forall2 _ _ _)). induction H as [|[c v] [c' v'] l l' [H1 H2] _ IH]; constructor; auto. cbn [fst snd] in *. now rewrite H2, H1.
Qed.
Print Assumptions C30_amounts_entrywise.
Theorem C30_masses_entrywise : forall d n, masses d = Ok n <-> Forall2 (fun x y => fst y = fst x /\ mass (fst x) (snd x) = Ok (snd y)) d n.
Proof.
  intros d n. split.
  - intros H. apply (proj1 (mapM_Forall2 _ _ _)) in H. induction H as [|[c v] [c' v'] l l' H _ IH]; constructor; auto. cbn [fst snd] in *.
    destruct (mass c v); cbn [bind] in H; inversion H; auto.
  - intros H. apply (proj2 (mapM_Forall2 _ _ _)). induction H as [|[c v] [c' v'] l l' [H1 H2] _ IH]; constructor; auto. cbn [fst snd] in *. now rewrite H2, H1.
Qed.
Print Assumptions C30_masses_entrywise.
Theorem C30_masses_of_amounts : forall d n, amounts d = Ok n -> masses n = Ok d.
Proof. exact masses_amounts. Qed.
Print Assumptions C30_masses_of_amounts.
Theorem C30_amounts_of_masses : forall d m, good_keys d -> masses d = Ok m -> amounts m = Ok d.
Proof. exact amounts_masses. Qed.
Print Assumptions C30_amounts_of_masses.
Theorem C30_total_functions : forall d, good_keys d -> (exists n, amounts d = Ok n) /\ (exists m, masses d = Ok m).
Proof. intros d H. split; eexists; [now apply amounts_good|now apply masses_good]. Qed.
Print Assumptions C30_total_functions.
Definition sample_dict : pydict := [("SiO2", qq 3 1); ("FeO[S1]", qq 3 2)].
Example C30_example : good_keys sample_dict.
Proof.
  intros c x [H|[H|[]]]; inversion H; subst.
  - exists (mkformula [IElement (text_of "Si"); ISubElement (text_of "O") (text_of "2")] None None). split; [apply check_proper; vm_compute; reflexivity|].
    exists "O". vm_compute. reflexivity.
  - exists (mkformula [IElement (text_of "Fe"); IElement (text_of "O")] None (Some (text_of "S1"))). split; [apply check_proper; vm_compute; reflexivity|].
    exists "O". vm_compute. reflexivity.
Qed.

(** * C31: fractions *)
Theorem C31_amount_fractions_sum : forall d n x, amounts d = Ok n -> total n <> 0%Qc -> amount_fractions d = Ok x ->
  total x = 1%Qc /\ map fst x = map fst d.
Proof.
  intros d n x Hn T. unfold amount_fractions. rewrite Hn. cbn [bind]. rewrite fractions_ok by auto. intros H; inversion H; subst.
  split; [now apply total_normalised|]. rewrite normalised_keys. apply C30_amounts_entrywise in Hn. clear - Hn.
  induction Hn as [|a b l l' [E _] _ IH]; cbn; congruence.
Qed.
Print Assumptions C31_amount_fractions_sum.
Theorem C31_amount_fractions_defined : forall d, good_keys d ->
  (forall c m, In (c, m) d -> (0 <= m)%Qc) -> (exists c m, In (c, m) d /\ (0 < m)%Qc) ->
  exists x, amount_fractions d = Ok x /\ total x = 1%Qc.
Proof.
  intros d G P (c & m & Hc & Hm). unfold amount_fractions. rewrite (amounts_good _ G). cbn [bind].
  set (n := map _ d). assert (T : total n <> 0%Qc).
  { apply q_pos_neq. unfold total, n. rewrite map_map. cbn [snd]. apply (Qcsum_pos _ (m / molar c)%Qc).
    - intros y Hy. apply in_map_iff in Hy as ([c' m'] & <- & Hy). cbn [fst snd]. destruct (good_molar _ G _ _ Hy) as [_ Q]. unfold Qcdiv.
      apply q_mul_nonneg; [eapply P; eauto|]. apply Qclt_le_weak. 
      destruct (Qclt_le_dec 0 (/ molar c')) as [|L]; auto. exfalso. assert (X := Qcmult_inv_r _ (q_pos_neq _ Q)).
      assert (Y : (/ molar c' * molar c' <= 0 * molar c')%Qc) by (apply Qcmult_le_compat_r; auto; now apply Qclt_le_weak).
      rewrite Qcmult_comm, X, Qcmult_0_l in Y. vm_compute in Y. auto.
    - apply in_map_iff. exists (c, m). auto.
    - destruct (good_molar _ G _ _ Hc) as [_ Q]. unfold Qcdiv. apply q_mul_pos; auto.
      destruct (Qclt_le_dec 0 (/ molar c)) as [|L]; auto. exfalso. assert (X := Qcmult_inv_r _ (q_pos_neq _ Q)).
      assert (Y : (/ molar c * molar c <= 0 * molar c)%Qc) by (apply Qcmult_le_compat_r; auto; now apply Qclt_le_weak).
      rewrite Qcmult_comm, X, Qcmult_0_l in Y. vm_compute in Y. auto. }
  exists (normalised n). split; [now apply fractions_ok|now apply total_normalised].
Qed.
Print Assumptions C31_amount_fractions_defined.
Theorem C31_mass_fractions_sum : forall d n x, masses d = Ok n -> total n <> 0%Qc -> mass_fractions d = Ok x ->
  total x = 1%Qc /\ map fst x = map fst d.
Proof.
  intros d n x Hn T. unfold mass_fractions. rewrite Hn. cbn [bind]. rewrite fractions_ok by auto. intros H; inversion H; subst.
  split; [now apply total_normalised|]. rewrite normalised_keys. apply C30_masses_entrywise in Hn. clear - Hn.
  induction Hn as [|a b l l' [E _] _ IH]; cbn; congruence.
Qed.
Print Assumptions C31_mass_fractions_sum.
Theorem C31_zero_total_raises : forall d n, d <> [] -> (amounts d = Ok n -> total n = 0%Qc -> amount_fractions d = Err ZeroDivisionError) /\
  (masses d = Ok n -> total n = 0%Qc -> mass_fractions d = Err ZeroDivisionError).
Proof.
  intros d n D. split; intros H T; unfold amount_fractions, mass_fractions; rewrite H; cbn [bind]; apply fractions_zero; auto; intros ->.
  - apply C30_amounts_entrywise in H. inversion H; subst; auto.
  - apply C30_masses_entrywise in H. inversion H; subst; auto.
Qed.
Print Assumptions C31_zero_total_raises.
Theorem C31_scale_free : forall k d, k <> 0%Qc ->
  amount_fractions (scale_dict k d) = amount_fractions d /\ mass_fractions (scale_dict k d) = mass_fractions d.
Proof. intros k d H. split; [now apply amount_fractions_scale|now apply mass_fractions_scale]. Qed.
Print Assumptions C31_scale_free.
(** Mass fractions to mole fractions and back. *)
Theorem C31_round_trip : forall d n x, total d = 1%Qc -> amounts d = Ok n -> total n <> 0%Qc -> amount_fractions d = Ok x -> mass_fractions x = Ok d.
Proof.
  intros d n x T Hn Tn H. replace (Ok d) with (Ok (normalised d)) by now rewrite (normalised_one d T). apply (fractions_roundtrip d n x); auto. rewrite T. discriminate.
Qed.
Print Assumptions C31_round_trip.
Theorem C31_round_trip_back : forall d m x, good_keys d -> total d = 1%Qc -> masses d = Ok m -> total m <> 0%Qc -> mass_fractions d = Ok x -> amount_fractions x = Ok d.
Proof.
  intros d n x G T Hn Tn H. replace (Ok d) with (Ok (normalised d)) by now rewrite (normalised_one d T). apply (fractions_roundtrip' d n x); auto. rewrite T. discriminate.
Qed.
Print Assumptions C31_round_trip_back.
Theorem C31_element_fractions_sum : forall c f els, proper c f -> has_atoms f -> NoDup els ->
  (forall s, In s els -> in_table s) -> (forall s, In s (symbols f) -> In s els) ->
  exists xs, element_mass_fractions c els = Ok xs /\ Qcsum xs = 1%Qc.
Proof. exact emfs_sum. Qed.
Print Assumptions C31_element_fractions_sum.
Theorem C31_element_fractions_of_elements : forall c f, gen_compound (text_of c) f -> all_known f -> has_atoms f ->
  exists els xs, elements [c] = Ok els /\ element_mass_fractions c els = Ok xs /\ Qcsum xs = 1%Qc.
Proof.
  intros c f H K A. destruct (elements_total [c]) as [els E]; [intros c' [<-|[]]; eauto|].
  destruct (elements_spec _ _ E) as [N S]. assert (P : proper c f).
  { split; auto. exists [], (text_of c), []. rewrite app_nil_r. repeat split; auto. }
  destruct (emfs_sum c f els P A N) as (xs & X1 & X2).
  - intros s Hs. apply S in Hs as (c' & f' & [<-|[]] & Hg & Hs). apply grammar_parse_iff in H. apply grammar_parse_iff in Hg. assert (f' = f) by congruence. subst. auto.
  - intros s Hs. apply S. exists c, f. cbn. auto.
  - eauto.
Qed.
Print Assumptions C31_element_fractions_of_elements.
Example C31_example : exists n, amounts sample_dict = Ok n /\ total n <> 0%Qc.
Proof.
  eexists. split; [vm_compute; reflexivity|]. intros H. apply (f_equal this) in H. vm_compute in H. discriminate.
Qed.

(** * C32: conversion on the basis of an element *)
Theorem C32_conserves_element : forall m a fa b fb el, proper a fa -> has_atoms fa -> proper b fb -> has_atoms fb -> atoms el fb <> 0 ->
  exists m', convert_compound m a b el = Ok m' /\ element_mass el fb m' = element_mass el fa m.
Proof.
  intros m a fa b fb el Ha Aa Hb Ab N. eexists. split; [eapply convert_ok; eauto|]. unfold element_mass.
  assert (T : in_table el) by (apply Hb, atoms_symbols; auto). rewrite (weight_single _ T). pose proof (q_pos_neq _ (mass_of_pos _ T)).
  pose proof (molar_neq _ _ Ha Aa). pose proof (molar_neq _ _ Hb Ab). assert (q_of_Z (atoms el fb) <> 0%Qc) by (rewrite <- qZ_0; intros E; apply qZ_inj in E; auto).
  field. repeat split; auto.
Qed.
Print Assumptions C32_conserves_element.
Theorem C32_back : forall m a fa b fb el m', proper a fa -> has_atoms fa -> proper b fb -> has_atoms fb -> atoms el fa <> 0 -> atoms el fb <> 0 ->
  convert_compound m a b el = Ok m' -> convert_compound m' b a el = Ok m.
Proof.
  intros m a fa b fb el m' Ha Aa Hb Ab Na Nb H. rewrite (convert_ok m a fa b fb el) in H by auto. inversion H; subst; clear H.
  rewrite (convert_ok _ b fb a fa el) by auto. f_equal.
  assert (T : in_table el) by (apply Hb, atoms_symbols; auto). pose proof (q_pos_neq _ (mass_of_pos _ T)).
  pose proof (molar_neq _ _ Ha Aa). pose proof (molar_neq _ _ Hb Ab).
  assert (q_of_Z (atoms el fb) <> 0%Qc) by (rewrite <- qZ_0; intros E; apply qZ_inj in E; auto).
  assert (q_of_Z (atoms el fa) <> 0%Qc) by (rewrite <- qZ_0; intros E; apply qZ_inj in E; auto).
  field. repeat split; auto.
Qed.
Print Assumptions C32_back.
Theorem C32_absent : forall m a b fb el, proper b fb -> has_atoms fb -> atoms el fb = 0 -> convert_compound m a b el = Ok 0%Qc.
Proof.
  intros m a b fb el Hb Ab N. unfold convert_compound. rewrite (emf_proper _ _ _ Hb Ab), N, qZ_0. cbn [bind].
  replace (0 * mass_of el / weight (fun s => atoms s fb))%Qc with 0%Qc by (field; eapply molar_neq; eauto). reflexivity.
Qed.
Print Assumptions C32_absent.
Theorem C32_mass_fraction : forall c f el, proper c f -> has_atoms f -> in_table el ->
  exists x, element_mass_fraction c el = Ok x /\ forall m, (m * x)%Qc = element_mass el f m.
Proof.
  intros c f el H A T. eexists. split; [eapply emf_proper; eauto|]. intros m. unfold element_mass. rewrite (weight_single _ T). field. eapply molar_neq; eauto.
Qed.
Print Assumptions C32_mass_fraction.
Example C32_example : exists fa fb, proper "Fe2O3" fa /\ has_atoms fa /\ proper "FeO" fb /\ has_atoms fb /\ atoms "Fe" fa = 2 /\ atoms "Fe" fb = 1.
Proof.
  eexists _, _. split; [apply check_proper; vm_compute; reflexivity|]. split; [exists "O"; vm_compute; reflexivity|].
  split; [apply check_proper; vm_compute; reflexivity|]. split; [exists "O"; vm_compute; reflexivity|]. split; vm_compute; reflexivity.
Qed.

(** * C56: elements *)
Theorem C56_elements : forall cs els, elements cs = Ok els -> NoDup els /\
  forall s, In s els <-> exists c f, In c cs /\ gen_compound (text_of c) f /\ In s (symbols f).
Proof. exact elements_spec. Qed.
Print Assumptions C56_elements.
Theorem C56_elements_defined : forall cs, (forall c, In c cs -> exists f, gen_compound (text_of c) f /\ all_known f) -> exists els, elements cs = Ok els.
Proof. exact elements_total. Qed.
Print Assumptions C56_elements_defined.
(** Unlike the other functions, [elements] does not ignore surrounding white space. *)
Theorem C56_white_space_refuted : elements [" FeO"] = Err ParseError /\ (exists m, molar_mass (Some " FeO") = Ok m).
Proof. split; [vm_compute; reflexivity|eexists; vm_compute; reflexivity]. Qed.
Print Assumptions C56_white_space_refuted.
Example C56_example : elements ["Fe2O3[S1]"; "Al2O3[S1]"] = Ok ["Fe"; "Al"; "O"].
Proof. vm_compute. reflexivity. Qed.

(** * C57: written multipliers *)
(** A group multiplied by a written zero is counted once, not zero times. *)
Theorem C57_zero_group_refuted :
  stoichiometry_coefficient "Fe(OH)0" "O" = Ok 1%Qc /\ stoichiometry_coefficient "Fe.0H2O" "O" = Ok 1%Qc /\
  stoichiometry_coefficient "FeO0" "O" = Ok 0%Qc.
Proof.
  repeat split; (rewrite (coefficient_proper _ _ _ (check_proper _ _ ltac:(vm_compute; reflexivity))); f_equal; apply Qc_is_canon; vm_compute; reflexivity).
Qed.
Print Assumptions C57_zero_group_refuted.

(** What holds instead: a written subscript of an element is always taken
    literally, and one of a group or hydrate is unless it is zero. *)
Theorem C57_written_multipliers_partial : forall t g n u h, plain t g -> is_number_text n -> plain u h ->
  let k := (if decimal n =? 0 then 1 else decimal n)%Z in
  exists a b, molar_mass (Some (str_of t)) = Ok a /\ molar_mass (Some (str_of u)) = Ok b /\
    molar_mass (Some (str_of (text_of "(" ++ t ++ text_of ")" ++ n))) = Ok (q_of_Z k * a)%Qc /\
    molar_mass (Some (str_of (t ++ text_of "." ++ n ++ u))) = Ok (a + q_of_Z k * b)%Qc.
Proof.
  intros t g n u h H1 Hn H2 k. destruct (mass_subscript t g (Some n) H1 Hn) as (a & A & B).
  destruct (mass_hydrate t g (Some n) u h H1 Hn H2) as (a' & b & A' & B' & C'). assert (a' = a) by congruence. subst a'.
  exists a, b. repeat split; auto.
Qed.
Print Assumptions C57_written_multipliers_partial.
