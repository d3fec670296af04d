(** Proofs for C91: histories, and where a run can fail. *)
From Verif Require Import Prelude M_Dates M_Accounts M_Ledger M_Business M_Model M_Interrupt Spec_Dates Spec_Accounts Spec_Ledger Spec_Business Spec_Model Spec_Interrupt
  P_Dates P_Accounts P_Ledger P_Reports P_Business P_Year P_Interrupt.
Local Open Scope Z_scope.
Local Open Scope list_scope.

(** ** Setting up a model looks at nothing that a run has left *)
Section Congruence.
Variables (c : clock) (n : Z).
Let an := act_norm c n.
Let cn := comp_norm c n.

Lemma act_parent_cong v a b : an a = an b -> an (act_set_parent v a) = an (act_set_parent v b).
Proof. unfold an, act_norm. intros H. injection H as H1 H2 H3 H4 H5 H6 H7 H8 H9. cbn. rewrite H1, H2, H5, H6, H7, H8, <- H9. cbn in *. congruence. Qed.
Lemma act_name_cong v a b : an a = an b -> an (act_set_name v a) = an (act_set_name v b).
Proof. unfold an, act_norm. intros H. injection H as H1 H2 H3 H4 H5 H6 H7 H8 H9. cbn. rewrite H2, H3, H5, H6, H7, H8, <- H9. cbn in *. congruence. Qed.

Lemma kind_split k k' : prepare_kind k = prepare_kind k' ->
  (exists dt cr v, k = KBasic dt cr v /\ k' = KBasic dt cr v) \/
  (exists l l', k = KLoan l /\ k' = KLoan l' /\ ln_bank l = ln_bank l' /\ ln_loan l = ln_loan l' /\ ln_interest l = ln_interest l' /\ ln_amount l = ln_amount l' /\
     ln_rate l = ln_rate l' /\ ln_mrate l = ln_mrate l' /\ ln_payment l = ln_payment l' /\ ln_duration l = ln_duration l').
Proof.
  destruct k as [dt cr v|l], k' as [dt' cr' v'|l']; cbn; intros H; try discriminate H.
  - left. injection H as -> -> ->. eauto 10.
  - right. injection H as H1 H2 H3 H4 H5 H6 H7 H8. exists l, l'. auto 20.
Qed.

Definition same_terms (l l' : loan) : Prop := prepare_kind (KLoan l) = prepare_kind (KLoan l').
Lemma set_term_cong t l l' : same_terms l l' ->
  match set_term l t, set_term l' t with Ok x, Ok x' => same_terms x x' | Err e, Err e' => e = e' | _, _ => False end.
Proof.
  unfold same_terms. cbn. intros H. injection H as H1 H2 H3 H4 H5 H6 H7 H8. destruct t; cbn [set_term].
  - unfold loan_set_amount. rewrite H6, H8. destruct (monthly_payment _ _ _); cbn; [|reflexivity]. congruence.
  - unfold loan_set_rate. rewrite H4, H8. destruct (monthly_payment _ _ _); cbn; [|reflexivity]. congruence.
  - cbn. congruence.
Qed.
Lemma set_terms_cong ts : forall l l', same_terms l l' ->
  match foldM set_term ts l, foldM set_term ts l' with Ok x, Ok x' => same_terms x x' | Err e, Err e' => e = e' | _, _ => False end.
Proof.
  induction ts as [|t ts IH]; intros l l' H; cbn [foldM]; [exact H|]. pose proof (set_term_cong t l l' H) as E.
  destruct (set_term l t), (set_term l' t); cbn [bind]; try contradiction; [apply IH; exact E|exact E].
Qed.

Lemma edit_act_cong x a b : an a = an b -> an (edit_act x a) = an (edit_act x b).
Proof.
  destruct x as [v|dt cr v|ts]; cbn [edit_act]; [apply act_name_cong| |]; unfold an, act_norm; intros H; pose proof H as H'; injection H' as H1 H2 H3 H4 H5 H6 H7 H8 H9.
  - destruct (kind_split _ _ H8) as [(dt1 & cr1 & v1 & -> & ->)|(l & l' & -> & -> & _)]; [|exact H].
    cbn in *. congruence.
  - unfold set_terms. pose proof H8 as HK. destruct (kind_split _ _ H8) as [(dt1 & cr1 & v1 & Ka & Kb)|(l & l' & Ka & Kb & _)]; rewrite Ka, Kb in *; [rewrite Ka, Kb; exact H|].
    pose proof (set_terms_cong ts l l' HK) as E. destruct (foldM set_term ts l), (foldM set_term ts l'); cbn [bind]; try contradiction.
    + unfold same_terms in E. cbn [with_kind ac_kind ac_name ac_desc ac_ppath ac_path ac_start ac_end ac_interval ac_start_ix ac_count]. rewrite H1, H2, H3, H4, H5, H6, H7, E, <- H9. cbn in *. congruence.
    + rewrite Ka, Kb. exact H.
Qed.

Lemma upd_cong {A B} (nf : A -> B) f i : (forall x y, nf x = nf y -> nf (f x) = nf (f y)) -> forall l l', map nf l = map nf l' -> map nf (upd_nth i f l) = map nf (upd_nth i f l').
Proof.
  intros Hf. induction i as [|i IH]; intros [|x l] [|y l'] E; try discriminate E; cbn in *; auto; injection E as E1 E2; f_equal; auto.
Qed.

Lemma comp_parent_cong v k : forall k', cn k = cn k' -> cn (comp_set_parent v k) = cn (comp_set_parent v k').
Proof.
  revert v. induction k as [nm pp p ss aa IH] using comp_ind'. intros v [nm' pp' p' ss' aa'] E. unfold cn in *. cbn [comp_norm comp_set_parent] in *.
  injection E as -> -> -> E1 E2. rewrite !map_map. f_equal.
  - apply (map_cong (comp_norm c n)); [|exact E1]. eapply Forall_impl; [|exact IH]. cbn beta. intros x H y Hy. apply H. exact Hy.
  - apply (map_cong (act_norm c n)); [|exact E2]. apply Forall_all. intros x y Hy. apply act_parent_cong. exact Hy.
Qed.

Lemma comp_name_cong v k k' : cn k = cn k' -> cn (comp_set_name v k) = cn (comp_set_name v k').
Proof.
  destruct k as [nm pp p ss aa], k' as [nm' pp' p' ss' aa']. unfold cn. cbn [comp_norm comp_set_name]. intros E. injection E as -> -> -> E1 E2.
  rewrite !map_map. f_equal.
  - apply (map_cong (comp_norm c n)); [|exact E1]. apply Forall_all. intros x y Hy. apply comp_parent_cong. exact Hy.
  - apply (map_cong (act_norm c n)); [|exact E2]. apply Forall_all. intros x y Hy. apply act_parent_cong. exact Hy.
Qed.

Lemma cn_name k k' : cn k = cn k' -> c_name k = c_name k'.
Proof. destruct k, k'. unfold cn. cbn. congruence. Qed.

Lemma remove_cong {A B} (nf : A -> B) (f : A -> bool) : (forall x y, nf x = nf y -> f x = f y) -> forall l l', map nf l = map nf l' -> map nf (remove_last f l) = map nf (remove_last f l').
Proof.
  intros Hf. assert (X : forall l l', map nf l = map nf l' -> existsb f l = existsb f l').
  { induction l as [|x l IH]; intros [|y l'] E; try discriminate E; cbn in *; auto. injection E as E1 E2. rewrite (Hf _ _ E1), (IH _ E2). reflexivity. }
  induction l as [|x l IH]; intros [|y l'] E; try discriminate E; cbn in *; auto. injection E as E1 E2. rewrite (Hf _ _ E1), (X _ _ E2).
  destruct (f y && negb (existsb f l')); cbn; [exact E2|]. f_equal; auto.
Qed.

Lemma comp_step_cong g o k k' : cn k = cn k' -> cn (comp_step g o k) = cn (comp_step g o k').
Proof.
  destruct o as [v|v|v|a|j v]; cbn [comp_step]; [apply comp_name_cong| | | |]; destruct k as [nm pp p ss aa], k' as [nm' pp' p' ss' aa']; unfold cn; cbn [comp_norm create_component remove_component add_activity]; intros E; injection E as -> -> -> E1 E2.
  - rewrite !map_app. cbn [map]. rewrite E1, E2. reflexivity.
  - rewrite E2. f_equal. apply (remove_cong (comp_norm c n) (fun s => (c_name s =? v)%string)); [|exact E1]. intros x y H. rewrite (cn_name x y H). reflexivity.
  - unfold add_activity. destruct (validate_account_names g (referenced_accounts a)); cbn [bind comp_norm]; rewrite ?map_app, E1, E2; reflexivity.
  - rewrite E1. rewrite (upd_cong (act_norm c n) (act_set_name v) j (act_name_cong v) _ _ E2). reflexivity.
Qed.

Lemma edit_comp_cong j x k k' : cn k = cn k' -> cn (edit_comp j x k) = cn (edit_comp j x k').
Proof.
  destruct k as [nm pp p ss aa], k' as [nm' pp' p' ss' aa']; unfold cn; cbn [comp_norm edit_comp]; intros E; injection E as -> -> -> E1 E2.
  rewrite E1, (upd_cong (act_norm c n) (edit_act x) j (edit_act_cong x) _ _ E2). reflexivity.
Qed.

Lemma comp_at_cong f addr : (forall k k', cn k = cn k' -> cn (f k) = cn (f k')) -> forall k k', cn k = cn k' -> cn (comp_at addr f k) = cn (comp_at addr f k').
Proof.
  intros Hf. induction addr as [|i addr IH]; cbn [comp_at]; [exact Hf|]. intros [nm pp p ss aa] [nm' pp' p' ss' aa']. unfold cn. cbn [comp_norm]. intros E; injection E as -> -> -> E1 E2.
  rewrite E2, (upd_cong (comp_norm c n) (comp_at addr f) i IH _ _ E1). reflexivity.
Qed.

Let en := ent_norm c n.
Lemma en_split e e' : en e = en e' -> en_name e = en_name e' /\ en_ppath e = en_ppath e' /\ en_path e = en_path e' /\ l_structure (en_gl e) = l_structure (en_gl e') /\ map cn (en_comps e) = map cn (en_comps e').
Proof. unfold en, ent_norm. intros H. injection H as H1 H2 H3 H4 H5. auto. Qed.
Lemma en_join e e' : en_name e = en_name e' -> en_ppath e = en_ppath e' -> en_path e = en_path e' -> l_structure (en_gl e) = l_structure (en_gl e') -> map cn (en_comps e) = map cn (en_comps e') -> en e = en e'.
Proof. unfold en, ent_norm, cn. congruence. Qed.

Lemma ent_step_cong e e' o : en e = en e' -> en (ent_step e o) = en (ent_step e' o).
Proof.
  intros E. apply en_split in E as (E1 & E2 & E3 & E4 & E5).
  assert (P : forall v, map cn (map (comp_set_parent v) (en_comps e)) = map cn (map (comp_set_parent v) (en_comps e'))).
  { intros v. rewrite !map_map. apply (map_cong cn); [|exact E5]. apply Forall_all. intros x y H. apply comp_parent_cong. exact H. }
  destruct o as [v|v|v|v|i addr o]; cbn [ent_step]; unfold ent_set_name, ent_set_parent, ent_create_component, ent_remove_component;
    apply en_join; cbn; auto; try congruence; rewrite ?E1, ?E2, ?E3, ?E4; auto.
  - rewrite !map_app, E5. reflexivity.
  - apply remove_cong; [|exact E5]. intros x y H. rewrite (cn_name x y H). reflexivity.
  - apply upd_cong; [|exact E5]. apply comp_at_cong. intros k k'. apply comp_step_cong.
Qed.
End Congruence.

Lemma model_norm_split m m' : model_norm m = model_norm m' <->
  md_name m = md_name m' /\ reset (md_clock m) = reset (md_clock m') /\ md_count m = md_count m' /\
  map (ent_norm (reset (md_clock m')) (md_count m')) (md_ents m) = map (ent_norm (reset (md_clock m')) (md_count m')) (md_ents m').
Proof.
  unfold model_norm. split.
  - intros H. injection H as H1 H2 H3 H4 H5. assert (Hc : reset (md_clock m) = reset (md_clock m')) by (unfold reset; congruence). rewrite Hc, H4 in H5. auto.
  - intros (H1 & H2 & H3 & H4). rewrite H1, H2, H3, H4. reflexivity.
Qed.

Lemma edit_norm f g i m m' : (forall c n e e', ent_norm c n e = ent_norm c n e' -> ent_norm c n (f e) = ent_norm c n (g e')) ->
  model_norm m = model_norm m' -> model_norm (edit_ent f i m) = model_norm (edit_ent g i m').
Proof.
  intros Hf H. apply model_norm_split in H as (H1 & H2 & H3 & H4). apply model_norm_split. cbn. repeat split; auto.
  revert H4. generalize (md_ents m) (md_ents m'). induction i as [|i IH]; intros [|x l] [|y l'] E; try discriminate E; cbn in *; auto; injection E as E1 E2 E3 E4 E5 E6;
    (f_equal; [first [apply Hf | idtac]; unfold ent_norm; congruence|auto]).
Qed.

Lemma setting_norm h m m' : setting h = true -> model_norm m = model_norm m' -> model_norm (do_act m h) = model_norm (do_act m' h).
Proof.
  destruct h as [o|i j addr k x|i g|i t| | | |]; cbn [setting do_act]; intros S H; try discriminate S.
  - destruct o as [v|v g|v|i o]; cbn [model_step].
    + apply model_norm_split in H as (H1 & H2 & H3 & H4). apply model_norm_split. cbn. repeat split; auto. rewrite !map_map.
      eapply map_cong; [|exact H4]. apply Forall_all. intros x y E. apply (ent_step_cong _ _ x y (EParent v)). exact E.
    + apply model_norm_split in H as (H1 & H2 & H3 & H4). apply model_norm_split. cbn. repeat split; auto. rewrite !map_app, H4. reflexivity.
    + apply model_norm_split in H as (H1 & H2 & H3 & H4). apply model_norm_split. cbn. repeat split; auto.
      apply remove_cong; [|exact H4]. intros x y E. apply en_split in E as (-> & _). reflexivity.
    + apply (edit_norm (fun e => ent_step e o) (fun e => ent_step e o) i); auto. intros c n e e'. apply ent_step_cong.
  - apply edit_norm; auto. intros c n e e' E. apply en_split in E as (E1 & E2 & E3 & E4 & E5). apply en_join; cbn; auto.
    apply upd_cong; [|exact E5]. apply comp_at_cong. intros; apply edit_comp_cong; auto.
  - apply edit_norm; auto. intros c n e e' E. apply en_split in E as (E1 & E2 & E3 & E4 & E5). apply en_join; cbn; auto.
Qed.

Lemma other_norm h m : setting h = false -> model_norm (do_act m h) = model_norm m.
Proof.
  destruct h as [o|i j addr k x|i g|i t| | | |]; cbn [setting do_act]; intros S; try discriminate S.
  - transitivity (model_norm (edit_ent (fun e => e) i m)).
    + apply edit_norm; auto.
    + unfold edit_ent, model_norm. cbn. do 2 f_equal. revert i. induction (md_ents m) as [|x l IH]; intros [|i]; cbn; auto. f_equal; auto.
  - reflexivity.
  - reflexivity.
  - apply prepare_model_out_norm.
  - apply run_out_norm.
Qed.

Lemma history hs : forall m m', model_norm m = model_norm m' -> model_norm (after m hs) = model_norm (after m' (filter setting hs)).
Proof.
  induction hs as [|h hs IH]; intros m m' E; cbn; [exact E|]. destruct (setting h) eqn:S; cbn.
  - apply IH. apply setting_norm; auto.
  - apply IH. rewrite other_norm; auto.
Qed.

Lemma run_history m hs : run_model (after m hs) = run_model (after m (filter setting hs)).
Proof. apply run_model_norm, history. reflexivity. Qed.
