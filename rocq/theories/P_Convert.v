From Verif Require Import Prelude M_Elements M_Stoichiometry Spec_Stoich P_Ledger P_Loan P_Stoich P_Count.
From Coq Require Import Field.
Local Open Scope string_scope.
Local Open Scope list_scope.
Local Open Scope Z_scope.

(** * Atom counts are not negative; molar masses positive *)
Lemma decimal_nonneg t : forallb is_digit t = true -> 0 <= decimal t.
Proof.
  induction t as [|c t IH]; cbn [decimal forallb]; [lia|]. intros H. apply andb_true_iff in H as [H1 H2]. specialize (IH H2).
  unfold is_digit in H1. change (code "0") with 48. assert (0 <= 10 ^ Z.of_nat (length t)) by (apply Z.pow_nonneg; lia). nia.
Qed.
Lemma multiplier_pos n : opt_number n -> 1 <= group_multiplier n.
Proof.
  destruct n as [t|]; cbn; [|lia]. intros [_ H]. apply decimal_nonneg in H. destruct (Z.eqb_spec (decimal t) 0); lia.
Qed.
Lemma atoms_nonneg_mut s : (forall t i, gen_item t i -> 0 <= item_atoms s i) /\ (forall t g, gen_group t g -> 0 <= group_atoms s g).
Proof.
  apply (gen_mut (fun t i _ => 0 <= item_atoms s i) (fun t g _ => 0 <= group_atoms s g)).
  - intros t H. cbn. destruct (String.eqb _ _); lia.
  - intros t n H [_ Hn]. cbn. apply decimal_nonneg in Hn. destruct (String.eqb _ _); lia.
  - intros t g n H IH Hn. cbn [item_atoms]. fold (group_atoms s g). apply multiplier_pos in Hn. nia.
  - intros t i H IH. cbn. lia.
  - intros t i u g H IH H' IH'. cbn [group_atoms fold_right]. fold (group_atoms s g). lia.
Qed.
Lemma atoms_nonneg s c f : written c f -> 0 <= atoms s f.
Proof.
  intros (l & t & r & _ & _ & _ & a & b & e & _ & Ha & Hb & _). unfold atoms. apply (proj2 (atoms_nonneg_mut s)) in Ha.
  destruct (f_dotted f) as [[n g]|]; [|lia]. destruct Hb as (u & _ & Hn & Hg). apply (proj2 (atoms_nonneg_mut s)) in Hg. apply multiplier_pos in Hn. nia.
Qed.

Lemma group_atoms_symbols s g : group_atoms s g <> 0 -> In s (flat_map item_symbols g).
Proof.
  assert (I : forall i, item_atoms s i <> 0 -> In s (item_symbols i)).
  { intros i. induction i as [t|t n|h n IH] using item_rect'; cbn [item_atoms item_symbols].
    - destruct (String.eqb_spec (str_of t) s); [cbn; auto|lia].
    - destruct (String.eqb_spec (str_of t) s); [cbn; auto|lia].
    - intros H. assert (H' : fold_right (fun j a => item_atoms s j + a) 0 h <> 0) by (intros E; apply H; rewrite E; lia). clear H.
      induction IH as [|x h Hx _ IHh]; cbn [fold_right flat_map] in *; [lia|]. rewrite in_app_iff.
      destruct (Z.eq_dec (item_atoms s x) 0); [right; apply IHh; lia|left; auto]. }
  induction g as [|x h IHh]; cbn [group_atoms fold_right flat_map] in *; [lia|]. intros H. rewrite in_app_iff.
  destruct (Z.eq_dec (item_atoms s x) 0); [right; apply IHh; unfold group_atoms; lia|left; auto].
Qed.
Lemma atoms_symbols s f : atoms s f <> 0 -> In s (symbols f).
Proof.
  unfold atoms, symbols. intros H. rewrite in_app_iff. destruct (Z.eq_dec (group_atoms s (f_group f)) 0) as [E|E]; [right|left; now apply group_atoms_symbols].
  destruct (f_dotted f) as [[n g]|]; [|lia]. apply group_atoms_symbols. intros E'. apply H. rewrite E, E'. lia.
Qed.

Lemma Qcsum_nonneg l : (forall x, In x l -> (0 <= x)%Qc) -> (0 <= Qcsum l)%Qc.
Proof.
  induction l as [|x l IH]; intros H; [apply Qcle_refl|]. rewrite Qcsum_cons. rewrite <- (Qcplus_0_r 0). apply Qcplus_le_compat.
  - apply H. cbn; auto. - apply IH. intros y Hy. apply H. cbn; auto.
Qed.
Lemma Qcsum_pos l x : (forall x, In x l -> (0 <= x)%Qc) -> In x l -> (0 < x)%Qc -> (0 < Qcsum l)%Qc.
Proof.
  intros H Hx Hp. apply in_split in Hx as (a & b & ->). rewrite Qcsum_app, Qcsum_cons.
  assert (0 <= Qcsum a)%Qc by (apply Qcsum_nonneg; intros; apply H, in_app_iff; auto).
  assert (0 <= Qcsum b)%Qc by (apply Qcsum_nonneg; intros; apply H, in_app_iff; cbn; auto).
  apply Qclt_le_trans with x; auto. rewrite <- (Qcplus_0_l x) at 1. apply Qcplus_le_compat; auto.
  rewrite <- (Qcplus_0_r x) at 1. apply Qcplus_le_compat; auto. apply Qcle_refl.
Qed.
Lemma q_mul_nonneg a b : (0 <= a)%Qc -> (0 <= b)%Qc -> (0 <= a * b)%Qc.
Proof. intros H1 H2. rewrite <- (Qcmult_0_l b). now apply Qcmult_le_compat_r. Qed.
Lemma q_mul_pos a b : (0 < a)%Qc -> (0 < b)%Qc -> (0 < a * b)%Qc.
Proof. intros H1 H2. rewrite <- (Qcmult_0_l b). now apply Qcmult_lt_compat_r. Qed.
Lemma q_pos_neq a : (0 < a)%Qc -> a <> 0%Qc.
Proof. intros H E. symmetry in E. revert E. now apply Qclt_not_eq. Qed.

Lemma weight_pos n : (forall s, 0 <= n s) -> (exists s, in_table s /\ 0 < n s) -> (0 < weight n)%Qc.
Proof.
  intros H (s & (e & He & <-) & Hs). unfold weight. apply (Qcsum_pos _ (el_mass e * q_of_Z (n (el_symbol e)))%Qc).
  - intros x Hx. apply in_map_iff in Hx as (e' & <- & He'). apply q_mul_nonneg; [apply Qclt_le_weak, el_mass_pos; auto|].
    rewrite <- qZ_0. now apply qZ_le.
  - now apply (in_map (fun e => (el_mass e * q_of_Z (n (el_symbol e)))%Qc)).
  - apply q_mul_pos; [now apply el_mass_pos|]. rewrite <- qZ_0. now apply qZ_lt.
Qed.
Lemma molar_pos c f : proper c f -> has_atoms f -> (0 < weight (fun s => atoms s f))%Qc.
Proof.
  intros H (s & Hs). apply weight_pos.
  - intros s'. eapply atoms_nonneg, H. - exists s. split; auto. apply H. apply atoms_symbols. lia.
Qed.
Lemma molar_neq c f : proper c f -> has_atoms f -> weight (fun s => atoms s f) <> 0%Qc.
Proof. intros. eapply q_pos_neq, molar_pos; eauto. Qed.

(** * Symbols of the table are formulas *)
Lemma table_symbols : forallb (fun e => match text_of (el_symbol e) with c :: l => is_upper c && forallb is_lower l | [] => false end) element_dictionary = true.
Proof. vm_compute. reflexivity. Qed.
Lemma text_str s : str_of (text_of s) = s. Proof. apply string_of_list_ascii_of_string. Qed.
Lemma str_text t : text_of (str_of t) = t. Proof. apply list_ascii_of_string_of_list_ascii. Qed.
Definition single (s : string) : formula := mkformula [IElement (text_of s)] None None.
Lemma symbol_proper s : in_table s -> proper s (single s).
Proof.
  intros (e & He & <-). pose proof table_symbols as T. rewrite forallb_forall in T. apply T in He as Ht. split.
  - exists [], (text_of (el_symbol e)), []. rewrite app_nil_r. repeat split; auto. exists (text_of (el_symbol e)), [], [].
    rewrite !app_nil_r. repeat split; auto. constructor. constructor. destruct (text_of (el_symbol e)) as [|c l]; [discriminate|].
    apply andb_true_iff in Ht as [H1 H2]. exists c, l. auto.
  - intros s. cbn. rewrite text_str. intros [<-|[]]. exists e. auto.
Qed.
Lemma symbol_mass s : in_table s -> molar_mass (Some s) = Ok (mass_of s).
Proof.
  intros H. rewrite (molar_mass_proper _ _ (symbol_proper _ H)). f_equal. rewrite <- (weight_single _ H). apply weight_ext. intros s'.
  unfold atoms, single, group_atoms. cbn. rewrite text_str. destruct (String.eqb s s'); lia.
Qed.

(** * Conversions *)
Lemma pydiv_ne a b : b <> 0%Qc -> pydiv a b = Ok (a / b)%Qc.
Proof. intros H. unfold pydiv, Qc_eq_bool. destruct (Qc_eq_dec b 0); congruence. Qed.

Lemma emf_proper c f el : proper c f -> has_atoms f ->
  element_mass_fraction c el = Ok (q_of_Z (atoms el f) * mass_of el / weight (fun s => atoms s f))%Qc.
Proof.
  intros H A. unfold element_mass_fraction. rewrite (coefficient_proper _ _ _ H). cbn [bind]. unfold Qc_eq_bool.
  destruct (Qc_eq_dec (q_of_Z (atoms el f)) 0) as [E|E].
  - rewrite E. f_equal. field. eapply molar_neq; eauto.
  - rewrite (molar_mass_proper _ _ H). cbn [bind]. rewrite symbol_mass.
    + cbn [bind]. apply pydiv_ne. eapply molar_neq; eauto.
    + apply H, atoms_symbols. intros E'. apply E. now rewrite E', qZ_0.
Qed.

Lemma mapM_Forall2 {A B} (f : A -> res B) l l' : mapM f l = Ok l' <-> Forall2 (fun a b => f a = Ok b) l l'.
Proof.
  revert l'. induction l as [|a l IH]; intros l'; cbn [mapM].
  - split; intros H; [inversion H; constructor|inversion H; reflexivity].
  - destruct (f a) as [b|e] eqn:E; cbn [bind].
    + destruct (mapM f l) as [bs|e] eqn:E2; cbn [bind].
      * split; intros H; inversion H; subst; [constructor; auto; now apply IH|]. apply IH in H4. congruence.
      * split; intros H; [discriminate|]. inversion H; subst. apply IH in H4. discriminate.
    + split; intros H; [discriminate|]. inversion H; subst. congruence.
Qed.

Lemma mapM_map {A B C} (f : B -> res C) (g : A -> B) l : mapM f (map g l) = mapM (fun a => f (g a)) l.
Proof. induction l as [|a l IH]; cbn [mapM map]; [reflexivity|]. now rewrite IH. Qed.
Lemma mapM_ext {A B} (f g : A -> res B) l : (forall a, In a l -> f a = g a) -> mapM f l = mapM g l.
Proof. induction l as [|a l IH]; cbn [mapM]; [reflexivity|]. intros H. rewrite H, IH; auto; cbn; auto. intros b Hb. apply H. cbn. auto. Qed.
Lemma mapM_Ok {A B} (f : A -> B) l : mapM (fun a => Ok (f a)) l = Ok (map f l).
Proof. induction l as [|a l IH]; cbn [mapM map bind]; [reflexivity|]. now rewrite IH. Qed.

Lemma sum_div l (t : Qc) : t <> 0%Qc -> Qcsum (map (fun x => (x / t)%Qc) l) = (Qcsum l / t)%Qc.
Proof. intros H. induction l as [|x l IH]; cbn [map]; [unfold Qcsum; cbn; field; auto|]. rewrite !Qcsum_cons, IH. field; auto. Qed.
Lemma sum_scale l (k : Qc) : Qcsum (map (fun x => (k * x)%Qc) l) = (k * Qcsum l)%Qc.
Proof. induction l as [|x l IH]; cbn [map]; [unfold Qcsum; cbn; ring|]. rewrite !Qcsum_cons, IH. ring. Qed.
Lemma total_scale k d : total (scale_dict k d) = (k * total d)%Qc.
Proof. unfold total, scale_dict. rewrite map_map. cbn [snd]. now rewrite <- sum_scale, map_map. Qed.

Lemma fractions_ok d : total d <> 0%Qc -> fractions d = Ok (normalised d).
Proof.
  intros H. unfold fractions, normalised. fold (total d). eapply eq_trans; [|apply mapM_Ok]. apply mapM_ext. intros kv _. rewrite pydiv_ne by auto. reflexivity.
Qed.
Lemma fractions_zero d : d <> [] -> total d = 0%Qc -> fractions d = Err ZeroDivisionError.
Proof. intros H E. unfold fractions. fold (total d). rewrite E. destruct d; [congruence|]. reflexivity. Qed.
Lemma total_normalised d : total d <> 0%Qc -> total (normalised d) = 1%Qc.
Proof.
  intros H. unfold total at 1, normalised. rewrite map_map. cbn [snd].
  replace (map (fun x : string * Qc => (snd x / total d)%Qc) d) with (map (fun x => (x / total d)%Qc) (map snd d)) by now rewrite map_map.
  rewrite sum_div by auto. fold (total d). field; auto.
Qed.
Lemma normalised_keys d : map fst (normalised d) = map fst d.
Proof. unfold normalised. rewrite map_map. reflexivity. Qed.
Lemma fractions_scale k d : k <> 0%Qc -> fractions (scale_dict k d) = fractions d.
Proof.
  intros Hk. destruct (Qc_eq_dec (total d) 0) as [E|E].
  - destruct d as [|x d]; [reflexivity|]. rewrite (fractions_zero (x :: d)) by (auto; discriminate).
    apply fractions_zero; [discriminate|]. rewrite total_scale, E. ring.
  - assert (E' : total (scale_dict k d) <> 0%Qc) by (rewrite total_scale; intros X; apply Qcmult_integral in X as [X|X]; auto).
    rewrite !fractions_ok by auto. f_equal. unfold normalised. rewrite total_scale. unfold scale_dict. rewrite map_map. apply map_ext.
    intros [c v]. cbn [fst snd]. f_equal. field. auto.
Qed.

Lemma amounts_scale k d : amounts (scale_dict k d) = do n <- amounts d; Ok (scale_dict k n).
Proof.
  unfold amounts, scale_dict. rewrite mapM_map. induction d as [|[c v] d IH]; cbn [mapM bind]; [reflexivity|]. rewrite IH. cbn [fst snd].
  unfold amount. destruct (molar_mass (Some c)) as [m|e]; cbn [bind]; [|reflexivity]. unfold pydiv. destruct (Qc_eq_bool m 0) eqn:E; cbn [bind]; [reflexivity|].
  match goal with |- context [mapM ?f d] => destruct (mapM f d) end; cbn [bind]; [|reflexivity]. cbn [map fst snd]. f_equal. f_equal. f_equal.
  unfold Qcdiv. ring.
Qed.
Lemma masses_scale k d : masses (scale_dict k d) = do n <- masses d; Ok (scale_dict k n).
Proof.
  unfold masses, scale_dict. rewrite mapM_map. induction d as [|[c v] d IH]; cbn [mapM bind]; [reflexivity|]. rewrite IH. cbn [fst snd].
  unfold mass. destruct (molar_mass (Some c)) as [m|e]; cbn [bind]; [|reflexivity].
  match goal with |- context [mapM ?f d] => destruct (mapM f d) end; cbn [bind]; [|reflexivity]. cbn [map fst snd]. f_equal. f_equal. f_equal. ring.
Qed.
Lemma amount_fractions_scale k d : k <> 0%Qc -> amount_fractions (scale_dict k d) = amount_fractions d.
Proof. intros H. unfold amount_fractions. rewrite amounts_scale. destruct (amounts d); cbn [bind]; auto. now apply fractions_scale. Qed.
Lemma mass_fractions_scale k d : k <> 0%Qc -> mass_fractions (scale_dict k d) = mass_fractions d.
Proof. intros H. unfold mass_fractions. rewrite masses_scale. destruct (masses d); cbn [bind]; auto. now apply fractions_scale. Qed.

Definition molar (c : string) : Qc := match molar_mass (Some c) with Ok m => m | Err _ => 0%Qc end.
Lemma good_molar d : good_keys d -> forall c x, In (c, x) d -> molar_mass (Some c) = Ok (molar c) /\ (0 < molar c)%Qc.
Proof.
  intros H c x Hx. destruct (H c x Hx) as (f & Hf & Ha). unfold molar. rewrite (molar_mass_proper _ _ Hf). split; auto. eapply molar_pos; eauto.
Qed.
Lemma amounts_good d : good_keys d -> amounts d = Ok (map (fun kv => (fst kv, snd kv / molar (fst kv))%Qc) d).
Proof.
  intros H. unfold amounts. eapply eq_trans; [|apply mapM_Ok]. apply mapM_ext. intros [c v] Hc. cbn [fst snd]. destruct (good_molar _ H _ _ Hc) as [E P].
  unfold amount. rewrite E. cbn [bind]. rewrite pydiv_ne by now apply q_pos_neq. reflexivity.
Qed.
Lemma masses_good d : good_keys d -> masses d = Ok (map (fun kv => (fst kv, snd kv * molar (fst kv))%Qc) d).
Proof.
  intros H. unfold masses. eapply eq_trans; [|apply mapM_Ok]. apply mapM_ext. intros [c v] Hc. cbn [fst snd]. destruct (good_molar _ H _ _ Hc) as [E P].
  unfold mass. rewrite E. cbn [bind]. reflexivity.
Qed.
Lemma good_keys_map d h : good_keys d -> good_keys (map (fun kv => (fst kv, h kv)) d).
Proof. intros H c x Hx. apply in_map_iff in Hx as ([c' x'] & E & Hx). inversion E; subst. cbn. eapply H; eauto. Qed.
Lemma map_id_in {A} (f : A -> A) l : (forall x, In x l -> f x = x) -> map f l = l.
Proof. induction l as [|a l IH]; cbn; intros H; auto. rewrite H, IH; auto. Qed.

Lemma masses_amounts d n : amounts d = Ok n -> masses n = Ok d.
Proof.
  unfold amounts, masses. intros H. apply (proj1 (mapM_Forall2 _ _ _)) in H. apply (proj2 (mapM_Forall2 _ _ _)). induction H as [|[c v] [c' v'] l l' H _ IH]; constructor; auto. cbn [fst snd] in *.
  unfold amount, mass in *. destruct (molar_mass (Some c)) as [m|e] eqn:E; cbn [bind] in H; [|discriminate].
  destruct (pydiv v m) as [r|e] eqn:E2; cbn [bind] in H; [|discriminate]. inversion H; subst. rewrite E. cbn [bind].
  apply pydiv_ok in E2 as [E2 ->]. f_equal. f_equal. field. auto.
Qed.
Lemma amounts_masses d n : good_keys d -> masses d = Ok n -> amounts n = Ok d.
Proof.
  intros G. rewrite (masses_good _ G). intros H. inversion H; subst; clear H.
  rewrite amounts_good by now apply good_keys_map. rewrite map_map. cbn [fst snd]. f_equal. apply map_id_in.
  intros [c v] Hc. cbn [fst snd]. f_equal. destruct (good_molar _ G _ _ Hc) as [_ P]. field. now apply q_pos_neq.
Qed.

Lemma normalised_one d : total d = 1%Qc -> normalised d = d.
Proof. intros E. unfold normalised. rewrite E. apply map_id_in. intros [c v] _. cbn. f_equal. field. discriminate. Qed.

Lemma normalised_scale d : normalised d = scale_dict (/ total d) d.
Proof. unfold normalised, scale_dict. apply map_ext. intros kv. f_equal. unfold Qcdiv. apply Qcmult_comm. Qed.

Lemma fractions_roundtrip d n x : amounts d = Ok n -> total n <> 0%Qc -> total d <> 0%Qc -> amount_fractions d = Ok x -> mass_fractions x = Ok (normalised d).
Proof.
  intros Hn Tn Td. unfold amount_fractions. rewrite Hn. cbn [bind]. rewrite fractions_ok by auto. intros H. inversion H; subst; clear H.
  rewrite normalised_scale, mass_fractions_scale.
  - unfold mass_fractions. rewrite (masses_amounts _ _ Hn). cbn [bind]. now apply fractions_ok.
  - intros E. apply Tn. assert (X : (total n * / total n)%Qc = 1%Qc) by now apply Qcmult_inv_r. rewrite E in X. exfalso. revert X. rewrite Qcmult_0_r. discriminate.
Qed.
Lemma fractions_roundtrip' d m x : good_keys d -> masses d = Ok m -> total m <> 0%Qc -> total d <> 0%Qc -> mass_fractions d = Ok x -> amount_fractions x = Ok (normalised d).
Proof.
  intros G Hn Tn Td. unfold mass_fractions. rewrite Hn. cbn [bind]. rewrite fractions_ok by auto. intros H. inversion H; subst; clear H.
  rewrite normalised_scale, amount_fractions_scale.
  - unfold amount_fractions. rewrite (amounts_masses _ _ G Hn). cbn [bind]. now apply fractions_ok.
  - intros E. apply Tn. assert (X : (total m * / total m)%Qc = 1%Qc) by now apply Qcmult_inv_r. rewrite E in X. exfalso. revert X. rewrite Qcmult_0_r. discriminate.
Qed.

(** * Element mass fractions sum to one *)
Lemma sum_over_table (n : string -> Z) els : NoDup els -> (forall s, In s els -> in_table s) -> (forall s, n s <> 0 -> In s els) ->
  Qcsum (map (fun s => (q_of_Z (n s) * mass_of s)%Qc) els) = weight n.
Proof.
  intros N K C. transitivity (weight (fun s => if in_dec string_dec s els then n s else 0)).
  2: { apply weight_ext. intros s. destruct (in_dec string_dec s els); auto. destruct (Z.eq_dec (n s) 0); auto. exfalso; auto. }
  clear C. induction N as [|a els Ha N IH]; cbn [map].
  - symmetry. erewrite weight_ext; [apply weight_0|]. reflexivity.
  - rewrite Qcsum_cons, IH by (intros; apply K; cbn; auto).
    rewrite <- (weight_single a) by (apply K; cbn; auto). rewrite <- weight_scale, <- weight_plus. apply weight_ext. intros s.
    destruct (String.eqb_spec a s) as [->|E].
    + destruct (in_dec string_dec s els); [tauto|]. destruct (in_dec string_dec s (s :: els)) as [|X]; [lia|exfalso; apply X; cbn; auto].
    + destruct (in_dec string_dec s els), (in_dec string_dec s (a :: els)); try lia; exfalso; cbn in *; tauto.
Qed.

Lemma emfs_sum c f els : proper c f -> has_atoms f -> NoDup els -> (forall s, In s els -> in_table s) -> (forall s, In s (symbols f) -> In s els) ->
  exists xs, element_mass_fractions c els = Ok xs /\ Qcsum xs = 1%Qc.
Proof.
  intros H A N K C. exists (map (fun el => (q_of_Z (atoms el f) * mass_of el / weight (fun s => atoms s f))%Qc) els). split.
  - unfold element_mass_fractions. eapply eq_trans; [|apply mapM_Ok]. apply mapM_ext. intros el _. now apply emf_proper.
  - rewrite <- (map_map (fun el => (q_of_Z (atoms el f) * mass_of el)%Qc) (fun x => (x / weight (fun s => atoms s f))%Qc)).
    rewrite sum_div by (eapply molar_neq; eauto). rewrite (sum_over_table (fun s => atoms s f)); auto.
    + field. eapply molar_neq; eauto. + intros s Hs. apply C. now apply atoms_symbols.
Qed.

(** * elements *)
Lemma elements_spec cs els : elements cs = Ok els -> NoDup els /\
  forall s, In s els <-> exists c f, In c cs /\ gen_compound (text_of c) f /\ In s (symbols f).
Proof.
  unfold elements. match goal with |- context [mapM ?g cs] => destruct (mapM g cs) as [ls|e] eqn:E end; cbn [bind]; [|discriminate].
  intros H. inversion H; subst. split; [apply NoDup_nodup|]. intros s. rewrite nodup_In, in_concat. apply mapM_Forall2 in E. clear H. induction E as [|c l cs ls H _ IH].
  - split; [intros (x & [] & _)|intros (c & f & [] & _)].
  - unfold parse_compound in H. destruct (grammar_parse (text_of c)) as [f|e] eqn:E; cbn [bind] in H; [|discriminate].
    pose proof (visit_compound_spec (fun _ => 0%Qc) f) as V. destruct (visit_compound f) as [p|e]; cbn [bind] in H; [|discriminate].
    destruct V as (_ & _ & V). inversion H; subst l; clear H.
    assert (X : In s (map fst (compound_count p)) <-> In s (symbols f)) by (rewrite <- V; unfold compound_count; rewrite keys_part; reflexivity).
    split.
    + intros (x & [<-|Hx] & Hs).
      * exists c, f. rewrite <- X. cbn. repeat split; auto. now apply grammar_parse_iff.
      * destruct (proj1 IH (ex_intro _ x (conj Hx Hs))) as (c' & f' & A & B & C). exists c', f'. cbn. auto.
    + intros (c' & f' & [<-|Hc] & Hg & Hs).
      * exists (map fst (compound_count p)). split; [cbn; auto|]. apply X. apply grammar_parse_iff in Hg. congruence.
      * destruct (proj2 IH (ex_intro _ c' (ex_intro _ f' (conj Hc (conj Hg Hs))))) as (x & A & B). exists x. cbn. auto.
Qed.
Lemma elements_total cs : (forall c, In c cs -> exists f, gen_compound (text_of c) f /\ all_known f) -> exists els, elements cs = Ok els.
Proof.
  intros H. unfold elements. match goal with |- context [mapM ?g cs] => assert (E : exists ls, mapM g cs = Ok ls) end.
  { induction cs as [|c cs IH]; [eexists; reflexivity|]. destruct IH as [ls E]; [intros; apply H; cbn; auto|]. cbn [mapM]. rewrite E.
    destruct (H c (or_introl eq_refl)) as (f & Hf & K). unfold parse_compound. apply grammar_parse_iff in Hf. rewrite Hf. cbn [bind].
    pose proof (visit_compound_spec (fun _ => 0%Qc) f) as V. destruct (visit_compound f) as [p|e]; [|tauto]. cbn [bind]. eauto. }
  destruct E as [ls ->]. cbn [bind]. eauto.
Qed.

(** * Conversion on an element *)
Lemma mass_of_weight el : in_table el -> weight (fun s => if String.eqb el s then 1 else 0) = mass_of el.
Proof. apply weight_single. Qed.
Lemma mass_of_pos el : in_table el -> (0 < mass_of el)%Qc.
Proof. intros H. apply find_element_in_table in H as [e He]. unfold mass_of. rewrite He. apply el_mass_pos. now apply find_element_some in He. Qed.

Lemma convert_ok m a fa b fb el : proper a fa -> has_atoms fa -> proper b fb -> has_atoms fb -> atoms el fb <> 0 ->
  convert_compound m a b el = Ok (m * (q_of_Z (atoms el fa) * mass_of el / weight (fun s => atoms s fa)) /
                                  (q_of_Z (atoms el fb) * mass_of el / weight (fun s => atoms s fb)))%Qc.
Proof.
  intros Ha Aa Hb Ab Hn. unfold convert_compound. rewrite (emf_proper _ _ _ Hb Ab). cbn [bind].
  assert (P : (q_of_Z (atoms el fb) * mass_of el / weight (fun s => atoms s fb) <> 0)%Qc).
  { assert (M : in_table el) by (apply Hb, atoms_symbols; auto). unfold Qcdiv. intros E. apply Qcmult_integral in E as [E|E].
    - apply Qcmult_integral in E as [E|E]; [rewrite <- qZ_0 in E; apply qZ_inj in E; auto|]. revert E. apply q_pos_neq. now apply mass_of_pos.
    - pose proof (molar_neq _ _ Hb Ab) as X. assert (Y := Qcmult_inv_r _ X). rewrite E, Qcmult_0_r in Y. discriminate. }
  unfold Qc_eq_bool. destruct (Qc_eq_dec _ 0) as [E|_]; [tauto|]. rewrite (emf_proper _ _ _ Ha Aa). cbn [bind]. now apply pydiv_ne.
Qed.

(** * Formula surgery on texts *)
Lemma plain_written t g : gen_group t g -> written (str_of t) (mkformula g None None).
Proof.
  intros H. exists [], t, []. rewrite str_text, app_nil_r. repeat split; auto. exists t, [], []. rewrite !app_nil_r. repeat split; auto.
Qed.
Lemma gen_group_app t g u h : gen_group t g -> gen_group u h -> gen_group (t ++ u) (g ++ h).
Proof.
  intros H Hu. induction H as [t i H|t i v g H Hg IH]; cbn [app].
  - now constructor. - rewrite <- app_assoc. now constructor.
Qed.
Lemma group_atoms_app s g h : group_atoms s (g ++ h) = group_atoms s g + group_atoms s h.
Proof. unfold group_atoms. induction g as [|x g IH]; cbn [app fold_right]; lia. Qed.

Lemma plain_proper t g : plain t g -> proper (str_of t) (mkformula g None None).
Proof. intros [H K]. split; [now apply plain_written|]. intros s. unfold symbols. cbn. rewrite app_nil_r. auto. Qed.
Lemma plain_mass t g : plain t g -> molar_mass (Some (str_of t)) = Ok (weight (fun s => group_atoms s g)).
Proof. intros H. rewrite (molar_mass_proper _ _ (plain_proper _ _ H)). f_equal. apply weight_ext. intros s. unfold atoms; cbn [f_group f_dotted]. lia. Qed.

Lemma mass_concat t g u h : plain t g -> plain u h ->
  exists a b, molar_mass (Some (str_of t)) = Ok a /\ molar_mass (Some (str_of u)) = Ok b /\ molar_mass (Some (str_of (t ++ u))) = Ok (a + b)%Qc.
Proof.
  intros H1 H2. eexists _, _. split; [eapply plain_mass; eauto|]. split; [eapply plain_mass; eauto|].
  rewrite (plain_mass _ (g ++ h)).
  - f_equal. rewrite <- weight_plus. apply weight_ext. intros s. apply group_atoms_app.
  - destruct H1, H2. split; [now apply gen_group_app|]. intros s. rewrite flat_map_app, in_app_iff. intros []; auto.
Qed.
Lemma mass_subscript t g n : plain t g -> opt_number n ->
  exists a, molar_mass (Some (str_of t)) = Ok a /\
    molar_mass (Some (str_of (["("%char] ++ t ++ [")"%char] ++ opt_text n))) = Ok (q_of_Z (group_multiplier n) * a)%Qc.
Proof.
  intros [H K] Hn. eexists. split; [apply plain_mass; split; eauto|]. rewrite (plain_mass _ [ISubGroup g n]).
  - f_equal. rewrite <- weight_scale. apply weight_ext. intros s. unfold group_atoms. cbn [fold_right item_atoms]. lia.
  - split; [constructor; now constructor|]. intros s. cbn. rewrite app_nil_r. auto.
Qed.
Lemma mass_subelement t n : is_element_text t -> in_table (str_of t) -> is_number_text n ->
  exists a, molar_mass (Some (str_of t)) = Ok a /\ molar_mass (Some (str_of (t ++ n))) = Ok (q_of_Z (decimal n) * a)%Qc.
Proof.
  intros Ht K Hn. exists (mass_of (str_of t)). split; [now apply symbol_mass|]. rewrite (plain_mass _ [ISubElement t n]).
  - f_equal. rewrite <- (weight_single (str_of t)) by auto. rewrite <- weight_scale. apply weight_ext. intros s. unfold group_atoms. cbn [fold_right item_atoms].
    destruct (String.eqb _ _); lia.
  - split; [constructor; now constructor|]. intros s. cbn. intros [<-|[]]; auto.
Qed.
Lemma mass_hydrate t g n u h : plain t g -> opt_number n -> plain u h ->
  exists a b, molar_mass (Some (str_of t)) = Ok a /\ molar_mass (Some (str_of u)) = Ok b /\
    molar_mass (Some (str_of (t ++ ["."%char] ++ opt_text n ++ u))) = Ok (a + q_of_Z (group_multiplier n) * b)%Qc.
Proof.
  intros [H1 K1] Hn [H2 K2]. eexists _, _. split; [apply plain_mass; split; eauto|]. split; [apply plain_mass; split; eauto|].
  rewrite (molar_mass_proper _ (mkformula g (Some (n, h)) None)).
  - f_equal. rewrite <- weight_scale, <- weight_plus. reflexivity.
  - split.
    + exists [], (t ++ ["."%char] ++ opt_text n ++ u), []. rewrite str_text, app_nil_r. repeat split; auto.
      exists t, (["."%char] ++ opt_text n ++ u), []. rewrite app_nil_r. repeat split; auto. exists u. auto.
    + intros s. unfold symbols. cbn. rewrite in_app_iff. intros []; auto.
Qed.
Lemma mass_phase t f p : gen_compound t f -> f_phase f = None -> is_phase_text p ->
  molar_mass (Some (str_of (t ++ ["["%char] ++ p ++ ["]"%char]))) = molar_mass (Some (str_of t)).
Proof.
  intros (a & b & c & -> & Ha & Hb & Hc) Hp H. rewrite Hp in Hc. cbn in Hc. subst c. rewrite app_nil_r.
  assert (W1 : written (str_of (a ++ b)) f).
  { exists [], (a ++ b), []. rewrite str_text, app_nil_r. repeat split; auto. exists a, b, []. rewrite app_nil_r, Hp. repeat split; auto. }
  assert (W2 : written (str_of ((a ++ b) ++ ["["%char] ++ p ++ ["]"%char])) (mkformula (f_group f) (f_dotted f) (Some p))).
  { exists [], ((a ++ b) ++ ["["%char] ++ p ++ ["]"%char]), []. rewrite str_text, app_nil_r. repeat split; auto.
    exists a, b, (["["%char] ++ p ++ ["]"%char]). rewrite <- app_assoc. cbn [f_group f_dotted f_phase]. repeat split; auto; apply H. }
  assert (D : all_known f \/ ~ all_known f).
  { pose proof (visit_compound_spec (fun _ => 0%Qc) f) as V. destruct (visit_compound f); tauto. }
  destruct D as [K|K].
  - rewrite (molar_mass_proper _ _ (conj W1 K)). apply (molar_mass_proper _ _ (conj W2 K)).
  - rewrite !molar_mass_unfold by (eapply written_nonempty; eauto). now rewrite (parse_unknown _ _ W1 K), (parse_unknown _ _ W2 K).
Qed.
Lemma mass_padding l t r : blank l -> blank r -> nospace t -> t <> [] -> molar_mass (Some (str_of (l ++ t ++ r))) = molar_mass (Some (str_of t)).
Proof.
  intros Hl Hr Ht Hn. rewrite !molar_mass_unfold; rewrite ?str_text; auto.
  - rewrite strip_padded by auto. f_equal. rewrite <- (app_nil_r t) at 2. rewrite <- (app_nil_l (t ++ [])). now rewrite strip_padded.
  - intros E. apply Hn. apply app_eq_nil in E as [_ E]. now apply app_eq_nil in E.
Qed.

(** Checking a concrete formula. *)
Definition check (s : string) : option formula :=
  match grammar_parse (strip (text_of s)) with
  | Ok f => if forallb (fun x => match find_element x with Some _ => true | None => false end) (symbols f) then Some f else None
  | Err _ => None
  end.
Lemma check_proper s f : check s = Some f -> proper s f.
Proof.
  unfold check. destruct (grammar_parse _) as [g|e] eqn:E; [|discriminate].
  destruct (forallb _ (symbols g)) eqn:E2; [|discriminate]. intros H. inversion H; subst. split; [now apply written_strip, grammar_parse_iff|].
  intros s' Hs. rewrite forallb_forall in E2. apply E2 in Hs. apply find_element_in_table. destruct (find_element s'); [eauto|discriminate].
Qed.
Lemma molar_mass_cases s m : molar_mass (Some s) = Ok m -> s = "" /\ m = 0%Qc \/ exists f, proper s f /\ m = weight (fun e => atoms e f).
Proof.
  destruct s as [|c s]; [cbn; intros H; inversion H; auto|]. intros H. right. rewrite molar_mass_unfold in H by discriminate.
  destruct (parse_compound (strip (text_of (String c s)))) as [p|e] eqn:E; cbn [bind] in H; [|discriminate].
  destruct (parse_ok _ _ E) as [f Hf]. exists f. split; auto. assert (X := molar_mass_proper _ _ Hf). rewrite molar_mass_unfold in X by discriminate.
  rewrite E in X. cbn [bind] in X. congruence.
Qed.
