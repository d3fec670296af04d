From Verif Require Import Prelude M_Accounts Spec_Accounts.
From Coq Require Import ZifyBool ZifyNat Permutation.
Open Scope string_scope.

(** ** Induction principle for the nested tree *)
Fixpoint acct_ind' (P : acct -> Prop)
  (H : forall i n num ty pp p ks, Forall P ks -> P (Acct i n num ty pp p ks)) (a : acct) : P a :=
  match a with
  | Acct i n num ty pp p ks =>
      H i n num ty pp p ks
        ((fix go (l : list acct) : Forall P l :=
            match l with [] => Forall_nil _ | x :: r => Forall_cons x (acct_ind' P H x) (go r) end) ks)
  end.

Lemma sapp_assoc (a b c : string) : (a ++ b) ++ c = a ++ b ++ c.
Proof. induction a; cbn; congruence. Qed.

Lemma sapp_inj_l (a b c : string) : a ++ b = a ++ c -> b = c.
Proof. induction a; cbn; [auto|]. intros H; inversion H; auto. Qed.

Lemma sapp_nonempty_r (a b : string) : b <> "" -> a ++ b <> "".
Proof. destruct a; cbn; congruence. Qed.

(** ** membership *)
Lemma in_acct_and_desc a x : In x (acct_and_descendants a) <-> x = a \/ below a x.
Proof.
  revert x. induction a as [i n num ty pp p ks IH] using acct_ind'. intros x.
  cbn [acct_and_descendants]. cbn [In]. rewrite in_flat_map. rewrite Forall_forall in IH.
  split.
  - intros [E|(k & Hk & Hx)]; [left; auto|right].
    apply IH in Hx; auto. destruct Hx as [->|Hb]; [apply below_kid; exact Hk|eapply below_deep; [exact Hk|exact Hb]].
  - intros [E|Hb]; [left; auto|right].
    inversion Hb as [a' d Hin|a' k d Hin Hb']; subst; cbn in Hin.
    + exists x. split; auto. apply IH; auto.
    + exists k. split; auto. apply IH; auto.
Qed.

Lemma in_descendants a x : In x (account_descendants a) <-> below a x.
Proof.
  unfold account_descendants. rewrite in_flat_map. split.
  - intros (k & Hk & Hx). apply in_acct_and_desc in Hx. destruct Hx as [->|Hb]; [apply below_kid|eapply below_deep]; eauto.
  - intros Hb. inversion Hb as [a' d Hin|a' k d Hin Hb']; subst.
    + exists x; split; auto. apply in_acct_and_desc; auto.
    + exists k; split; auto. apply in_acct_and_desc; auto.
Qed.

Lemma in_all g x : In x (all_accounts g) <-> in_structure g x.
Proof.
  unfold all_accounts, in_structure. rewrite in_flat_map.
  split; intros (t & Ht & Hx); exists t; split; auto; apply in_acct_and_desc; auto.
Qed.

Lemma below_trans a b c : below a b -> below b c -> below a c.
Proof. intros H. revert c. induction H as [a d Hin|a k d Hin Hb IH]; intros c Hc; eapply below_deep; eauto. Qed.

Lemma in_structure_kid g a k : in_structure g a -> In k (a_kids a) -> in_structure g k.
Proof.
  intros (t & Ht & Ha) Hk. exists t; split; auto. right. destruct Ha as [->|Ha]; [apply below_kid; auto|].
  eapply below_trans; [exact Ha|apply below_kid; exact Hk].
Qed.

(** ** Coherence *)
Definition own_path (a : acct) : string := if a_pp a =? "" then a_name a else a_pp a ++ "/" ++ a_name a.

Inductive coh : acct -> Prop :=
| coh_intro a : a_path a = own_path a -> a_path a <> "" ->
    Forall (fun k => a_pp k = a_path a /\ a_type k = a_type a) (a_kids a) ->
    Forall coh (a_kids a) -> coh a.

Lemma coh_set_parent v a : v <> "" -> coh a -> coh (set_parent_path v a).
Proof.
  revert v. induction a as [i n num ty pp p ks IH] using acct_ind'. intros v Hv Hc.
  inversion Hc as [a' H1 H2 H3 H4]; subst. cbn in H1, H2, H3, H4.
  cbn [set_parent_path]. constructor; cbn.
  - unfold own_path; cbn. apply String.eqb_neq in Hv. rewrite Hv. reflexivity.
  - apply sapp_nonempty_r. discriminate.
  - rewrite Forall_forall in *. intros k Hk. apply in_map_iff in Hk as (k0 & <- & Hk0).
    destruct k0; cbn. split; auto. apply (H3 _ Hk0).
  - rewrite Forall_forall in *. intros k Hk. apply in_map_iff in Hk as (k0 & <- & Hk0).
    apply IH; auto. apply sapp_nonempty_r; discriminate.
Qed.

Lemma set_parent_pp v a : a_pp (set_parent_path v a) = v.
Proof. destruct a; reflexivity. Qed.
Lemma set_parent_type v a : a_type (set_parent_path v a) = a_type a.
Proof. destruct a; reflexivity. Qed.

Lemma coh_rename v a : v <> "" -> coh a -> coh (rename v a).
Proof.
  intros Hv Hc. destruct a as [i n num ty pp p ks]. inversion Hc as [a' H1 H2 H3 H4]; subst. cbn in H1, H2, H3, H4.
  unfold rename.
  assert (Hp : (if pp =? "" then v else pp ++ "/" ++ v) <> "").
  { destruct (pp =? "") eqn:E; auto. apply sapp_nonempty_r. discriminate. }
  constructor; cbn; auto.
  - rewrite Forall_forall in *. intros k Hk. apply in_map_iff in Hk as (k0 & <- & Hk0).
    rewrite set_parent_pp, set_parent_type. split; auto. apply (H3 _ Hk0).
  - rewrite Forall_forall in *. intros k Hk. apply in_map_iff in Hk as (k0 & <- & Hk0).
    apply coh_set_parent; auto.
Qed.

Lemma coh_create i n num a : coh a -> coh (create_account i n num a).
Proof.
  intros Hc. destruct a as [i0 n0 num0 ty pp p ks]. inversion Hc as [a' H1 H2 H3 H4]; subst. cbn in H1, H2, H3, H4.
  unfold create_account. constructor; cbn; auto.
  - apply Forall_app; split; [exact H3|]. constructor; [cbn; auto|constructor].
  - apply Forall_app; split; [exact H4|]. constructor; [|constructor].
    constructor; cbn; auto.
    + unfold own_path; cbn. apply String.eqb_neq in H2. rewrite H2. reflexivity.
    + apply sapp_nonempty_r; discriminate.
Qed.

Lemma remove_last_in {A} (f : A -> bool) l x : In x (remove_last f l) -> In x l.
Proof.
  induction l as [|y r IH]; cbn; [auto|]. destruct (f y && negb (existsb f r)); cbn; tauto.
Qed.

Lemma coh_remove n a : coh a -> coh (remove_account n a).
Proof.
  intros Hc. destruct a as [i0 n0 num0 ty pp p ks]. inversion Hc as [a' H1 H2 H3 H4]; subst. cbn in H1, H2, H3, H4.
  unfold remove_account. rewrite Forall_forall in H3, H4. constructor; cbn; auto;
  apply Forall_forall; intros k Hk; apply remove_last_in in Hk; auto.
Qed.

Definition keeps (f : acct -> acct) : Prop :=
  forall a, a_pp (f a) = a_pp a /\ a_type (f a) = a_type a /\ (coh a -> coh (f a)).

Lemma keeps_update i f : keeps f -> keeps (update_acct i f).
Proof.
  intros Hf a. induction a as [i0 n num ty pp p ks IH] using acct_ind'.
  cbn [update_acct]. destruct (Nat.eqb i0 i); [apply Hf|].
  split; [reflexivity|]. split; [reflexivity|]. intros Hc. inversion Hc as [a' H1 H2 H3 H4]; subst. cbn in H1, H2, H3, H4.
  rewrite Forall_forall in IH, H3, H4.
  constructor; cbn; auto; apply Forall_forall; intros k Hk; apply in_map_iff in Hk as (k0 & <- & Hk0);
    destruct (IH k0 Hk0) as (E1 & E2 & E3).
  - rewrite E1, E2. apply (H3 _ Hk0).
  - apply E3, H4, Hk0.
Qed.

Lemma keeps_create i n num : keeps (create_account i n num).
Proof. intros a. split; [destruct a; reflexivity|]. split; [destruct a; reflexivity|apply coh_create]. Qed.
Lemma keeps_remove n : keeps (remove_account n).
Proof. intros a. split; [destruct a; reflexivity|]. split; [destruct a; reflexivity|apply coh_remove]. Qed.
Lemma keeps_rename n : n <> "" -> keeps (rename n).
Proof. intros H a. split; [destruct a; reflexivity|]. split; [destruct a; reflexivity|apply coh_rename; auto]. Qed.

Definition coh_gls (g : gls) : Prop := Forall (fun a => a_pp a = "" /\ coh a) (g_accounts g).

Lemma coh_update_gls i f g : keeps f -> coh_gls g -> coh_gls (update_gls i f g).
Proof.
  unfold coh_gls; intros Hf H. cbn. rewrite Forall_forall in *. intros k Hk.
  apply in_map_iff in Hk as (k0 & <- & Hk0). destruct (keeps_update i f Hf k0) as (E1 & E2 & E3).
  rewrite E1. destruct (H k0 Hk0). auto.
Qed.

Lemma coh_step g o : op_names_ok o = true -> coh_gls g -> coh_gls (gls_step g o).
Proof.
  intros Ho H. destruct o as [n num ty|i n num|i n|i n]; cbn [gls_step].
  - unfold coh_gls, create_top; cbn. apply Forall_app; split; auto. constructor; [|constructor].
    cbn in Ho. cbn. split; auto. constructor; cbn; auto. intros ->; discriminate.
  - pose proof (coh_update_gls i _ g (keeps_create (g_next g) n num) H). exact H0.
  - apply coh_update_gls; auto. apply keeps_rename. cbn in Ho. intros ->; discriminate.
  - apply coh_update_gls; auto. apply keeps_remove.
Qed.

Lemma coh_steps ops g : forallb op_names_ok ops = true -> coh_gls g -> coh_gls (fold_left gls_step ops g).
Proof.
  revert g. induction ops as [|o ops IH]; cbn; intros g Ho H; auto.
  apply andb_true_iff in Ho as [Ho1 Ho2]. apply IH; auto. apply coh_step; auto.
Qed.

Lemma coh_default : coh_gls default_gls.
Proof. apply coh_steps; [vm_compute; reflexivity|constructor]. Qed.

Lemma coh_built ops : forallb op_names_ok ops = true -> coh_gls (built ops).
Proof. intros; apply coh_steps; auto using coh_default. Qed.

Lemma coh_below a d : coh a -> below a d -> coh d.
Proof.
  intros Hc Hb. induction Hb as [a d Hin|a k d Hin Hb IH]; inversion Hc as [a' H1 H2 H3 H4]; subst;
    rewrite Forall_forall in H4; auto.
Qed.

Lemma coh_in_structure g a : coh_gls g -> in_structure g a -> coh a.
Proof.
  intros H (t & Ht & Ha). unfold coh_gls in H. rewrite Forall_forall in H. destruct (H t Ht) as [_ Hc].
  destruct Ha as [->|Hb]; auto. eapply coh_below; eauto.
Qed.

Lemma coh_top g t : coh_gls g -> In t (g_accounts g) -> a_path t = a_name t.
Proof.
  intros H Ht. unfold coh_gls in H. rewrite Forall_forall in H. destruct (H t Ht) as [E Hc].
  inversion Hc as [a' H1]; subst. rewrite H1. unfold own_path. rewrite E. reflexivity.
Qed.

Lemma coh_kid a k : coh a -> In k (a_kids a) -> a_path k = a_path a ++ "/" ++ a_name k /\ a_type k = a_type a.
Proof.
  intros Hc Hk. inversion Hc as [a' H1 H2 H3 H4]; subst. rewrite Forall_forall in H3, H4.
  destruct (H3 k Hk) as [E1 E2]. split; auto. specialize (H4 k Hk). inversion H4 as [a' G1]; subst.
  rewrite G1. unfold own_path. rewrite E1. apply String.eqb_neq in H2. rewrite H2. reflexivity.
Qed.

Theorem path_coherence ops : forallb op_names_ok ops = true ->
  (forall t, In t (g_accounts (built ops)) -> a_path t = a_name t) /\
  (forall a k, in_structure (built ops) a -> In k (a_kids a) ->
     a_path k = a_path a ++ "/" ++ a_name k /\ a_type k = a_type a).
Proof.
  intros Ho. pose proof (coh_built ops Ho) as H. split.
  - intros t Ht. eapply coh_top; eauto.
  - intros a k Ha Hk. apply coh_kid; auto. eapply coh_in_structure; eauto.
Qed.

(** ** Lookup *)
Lemma split_join s h r : split_slash s = (h, r) ->
  no_slash h = true /\ s = match r with None => h | Some t => h ++ "/" ++ t end.
Proof.
  revert h r. induction s as [|c s IH]; intros h r E; cbn in E.
  - inversion E; subst. auto.
  - destruct (Ascii.eqb c "/") eqn:Ec.
    + inversion E; subst. apply Ascii.eqb_eq in Ec. subst c. auto.
    + destruct (split_slash s) as [h' t'] eqn:Es. inversion E; subst. destruct (IH _ _ eq_refl) as [N S].
      split; [cbn; rewrite Ec, N; reflexivity|]. rewrite S. destruct r; reflexivity.
Qed.

Lemma split_none s : no_slash s = true -> split_slash s = (s, None).
Proof.
  induction s as [|c s IH]; cbn; auto. destruct (Ascii.eqb c "/"); cbn; [discriminate|].
  intros H; rewrite IH by auto. reflexivity.
Qed.

Lemma split_some h t : no_slash h = true -> split_slash (h ++ "/" ++ t) = (h, Some t).
Proof.
  induction h as [|c s IH]; cbn; auto. destruct (Ascii.eqb c "/"); cbn; [discriminate|].
  intros H; cbn in IH; rewrite IH by auto. reflexivity.
Qed.

(** get_child_account with the inner search made explicit *)
Lemma get_child_unfold a s : get_child_account a s =
  let (h, rest) := split_slash s in
  match find (fun k => a_name k =? h) (a_kids a) with
  | None => Err IndexError
  | Some k => match rest with None => Ok k | Some r => get_child_account k r end
  end.
Proof.
  destruct a as [i n num ty pp p ks]. cbn [get_child_account a_kids].
  destruct (split_slash s) as [h rest]. induction ks as [|k ks IH]; cbn; auto.
  destruct (a_name k =? h); auto.
Qed.

Lemma get_child_sound a s x : coh a -> get_child_account a s = Ok x ->
  below a x /\ a_path x = a_path a ++ "/" ++ s.
Proof.
  revert s. induction a as [i n num ty pp p ks IH] using acct_ind'. intros s Hc.
  rewrite get_child_unfold. destruct (split_slash s) as [h rest] eqn:Es.
  destruct (split_join _ _ _ Es) as [_ Ej].
  destruct (find _ (a_kids _)) as [k|] eqn:Ef; [|discriminate].
  apply find_some in Ef as [Hk Hn]. apply String.eqb_eq in Hn.
  destruct (coh_kid _ _ Hc Hk) as [Ep _].
  destruct rest as [r|]; intros E.
  - rewrite Forall_forall in IH. assert (Hck : coh k) by (eapply coh_below; [exact Hc|apply below_kid; auto]).
    destruct (IH k Hk r Hck E) as [Hb Hp]. split; [eapply below_deep; eauto|].
    rewrite Hp, Ep, Ej, Hn, !sapp_assoc. reflexivity.
  - inversion E; subst. split; [apply below_kid; auto|]. rewrite Ep. reflexivity.
Qed.

Lemma find_distinct (l : list acct) k : NoDup (map a_name l) -> In k l ->
  find (fun x => a_name x =? a_name k) l = Some k.
Proof.
  induction l as [|y l IH]; cbn; [tauto|]. intros Hn [->|Hk].
  - rewrite String.eqb_refl. reflexivity.
  - inversion Hn as [|? ? N1 N2]; subst. destruct (a_name y =? a_name k) eqn:E.
    + apply String.eqb_eq in E. exfalso. apply N1. rewrite E. apply in_map; auto.
    + apply IH; auto.
Qed.

Lemma get_child_complete a x : coh a ->
  (forall d, below a d -> no_slash (a_name d) = true) ->
  (forall d, d = a \/ below a d -> NoDup (map a_name (a_kids d))) ->
  below a x -> exists s, a_path x = a_path a ++ "/" ++ s /\ get_child_account a s = Ok x.
Proof.
  intros Hc Hs Hd Hb. revert Hc Hs Hd. induction Hb as [a d Hin|a k d Hin Hb IH]; intros Hc Hs Hd;
    destruct (coh_kid _ _ Hc Hin) as [Ep _].
  - exists (a_name d). split; auto. rewrite get_child_unfold.
    rewrite split_none by (apply Hs, below_kid; auto). rewrite find_distinct; auto.
  - destruct IH as (s & E1 & E2).
    + eapply coh_below; [exact Hc|apply below_kid; auto].
    + intros e He. apply Hs. eapply below_deep; eauto.
    + intros e He. apply Hd. right. destruct He as [->|He]; [apply below_kid; auto|eapply below_deep; eauto].
    + exists (a_name k ++ "/" ++ s). split.
      * rewrite E1, Ep, !sapp_assoc. reflexivity.
      * rewrite get_child_unfold. rewrite split_some by (apply Hs, below_kid; auto). rewrite find_distinct; auto.
Qed.

Lemma get_account_sound g s a : coh_gls g -> get_account g s = Ok (Some a) -> in_structure g a /\ a_path a = s.
Proof.
  intros Hc. unfold get_account. destruct (split_slash s) as [h rest] eqn:Es.
  destruct (split_join _ _ _ Es) as [_ Ej]. unfold top_item.
  destruct rest as [r|].
  - destruct (find _ (g_accounts g)) as [t|] eqn:Ef; [|discriminate].
    apply find_some in Ef as [Ht Hn]. apply String.eqb_eq in Hn.
    destruct (get_child_account t r) as [x|] eqn:E; [|discriminate]. cbn. intros X; inversion X; subst a; clear X.
    assert (Hct : coh t) by (eapply coh_in_structure; [exact Hc|exists t; auto]).
    destruct (get_child_sound _ _ _ Hct E) as [Hb Hp].
    split; [exists t; auto|]. rewrite Hp, (coh_top _ _ Hc Ht), Ej, Hn. reflexivity.
  - destruct (find _ (g_accounts g)) as [t|] eqn:Ef; intros X; inversion X; subst a.
    apply find_some in Ef as [Ht Hn]. apply String.eqb_eq in Hn.
    split; [exists t; auto|]. rewrite (coh_top _ _ Hc Ht). exact Hn.
Qed.

Lemma get_account_complete g a : coh_gls g -> names_distinct g -> in_structure g a ->
  get_account g (a_path a) = Ok (Some a).
Proof.
  intros Hc (Hs & Hd & Hk) (t & Ht & Ha).
  assert (Hts : in_structure g t) by (exists t; auto).
  assert (Hct : coh t) by (eapply coh_in_structure; eauto).
  destruct Ha as [->|Hb].
  - rewrite (coh_top _ _ Hc Ht). unfold get_account. rewrite split_none by (apply Hs; auto).
    unfold top_item. rewrite find_distinct; auto.
  - destruct (get_child_complete t a Hct) as (s & E1 & E2); auto.
    + intros d Hbd. apply Hs. exists t; auto.
    + intros d Hbd. apply Hk. exists t; auto.
    + rewrite E1, (coh_top _ _ Hc Ht). unfold get_account. rewrite split_some by (apply Hs; auto).
      unfold top_item. rewrite find_distinct, E2; auto.
Qed.

(** ** The absent case *)
Lemma get_child_err a s e : get_child_account a s = Err e -> e = IndexError.
Proof.
  revert s. induction a as [i n num ty pp p ks IH] using acct_ind'. intros s.
  rewrite get_child_unfold. destruct (split_slash s) as [h rest].
  destruct (find _ _) as [k|] eqn:Ef; [|congruence]. apply find_some in Ef as [Hk _].
  rewrite Forall_forall in IH. destruct rest; [apply IH; auto|discriminate].
Qed.

Lemma find_exists {A} (f : A -> bool) l : (exists x, In x l /\ f x = true) <-> exists y, find f l = Some y.
Proof.
  split.
  - intros (x & Hx & Hf). destruct (find f l) eqn:E; [eauto|]. eapply find_none in E; eauto. congruence.
  - intros (y & E). apply find_some in E. eauto.
Qed.

Definition top_named (g : gls) (n : string) : Prop := exists t, In t (g_accounts g) /\ a_name t = n.

Lemma top_item_none g n : top_item g n = None <-> ~ top_named g n.
Proof.
  unfold top_item, top_named. split.
  - intros E (t & Ht & Hn). eapply find_none in E; eauto. cbn in E. rewrite Hn, String.eqb_refl in E. discriminate.
  - intros H. destruct (find _ _) as [t|] eqn:E; auto. exfalso; apply H. apply find_some in E as [Ht Hn].
    apply String.eqb_eq in Hn. eauto.
Qed.

Lemma get_account_absent g s : coh_gls g -> names_distinct g ->
  ~ (exists a, in_structure g a /\ a_path a = s) ->
  (top_named g (fst (split_slash s)) -> get_account g s = Err IndexError) /\
  (~ top_named g (fst (split_slash s)) -> get_account g s = Ok None).
Proof.
  intros Hc Hn Habs.
  assert (Hno : forall a, get_account g s <> Ok (Some a)).
  { intros a E. apply get_account_sound in E; auto. apply Habs; eauto. }
  unfold get_account in *. destruct (split_slash s) as [h rest] eqn:Es. cbn [fst].
  destruct (split_join _ _ _ Es) as [_ Ej]. rewrite <- top_item_none.
  destruct rest as [r|].
  - destruct (top_item g h) as [t|] eqn:Et; cbn in *.
    + split; [intros _|congruence]. destruct (get_child_account t r) as [x|e] eqn:E; cbn in *.
      * exfalso; eapply Hno; eauto.
      * apply get_child_err in E. congruence.
    + split; [intros H|auto]. apply top_item_none in Et. tauto.
  - subst s. destruct (top_item g h) as [t|] eqn:Et.
    + exfalso; eapply Hno; eauto.
    + split; auto. intros H; apply top_item_none in Et; tauto.
Qed.

(** ** remove after create *)
Lemma remove_last_none {A} (f : A -> bool) l : (forall x, In x l -> f x = false) -> remove_last f l = l.
Proof.
  induction l as [|y r IH]; cbn; auto. intros H. rewrite (H y) by auto. cbn. f_equal. apply IH; auto.
Qed.

Lemma remove_last_split {A} (f : A -> bool) l1 x l2 : f x = true -> (forall y, In y l2 -> f y = false) ->
  remove_last f (l1 ++ x :: l2)%list = (l1 ++ l2)%list.
Proof.
  intros Hx H2. induction l1 as [|y l1 IH]; cbn.
  - rewrite Hx. replace (existsb f l2) with false; auto. symmetry. apply not_true_iff_false. intros E.
    apply existsb_exists in E as (z & Hz & Ez). rewrite H2 in Ez; auto; discriminate.
  - replace (existsb f (l1 ++ x :: l2)) with true.
    + rewrite andb_false_r. f_equal. exact IH.
    + symmetry. apply existsb_exists. exists x. split; auto. apply in_or_app; cbn; auto.
Qed.

Lemma set_parent_name v a : a_name (set_parent_path v a) = a_name a.
Proof. destruct a; reflexivity. Qed.

Lemma remove_create i n num a : remove_account n (create_account i n num a) = a.
Proof.
  destruct a as [i0 n0 num0 ty pp p ks]. unfold create_account, remove_account. f_equal.
  rewrite remove_last_split; [apply app_nil_r| |intros y []].
  cbn. apply String.eqb_refl.
Qed.

Lemma remove_absent n a : (forall k, In k (a_kids a) -> a_name k <> n) -> remove_account n a = a.
Proof.
  destruct a as [i0 n0 num0 ty pp p ks]. cbn. intros H. f_equal. apply remove_last_none.
  intros k Hk. apply String.eqb_neq. auto.
Qed.

Lemma remove_removes_last n a l1 x l2 : a_kids a = (l1 ++ x :: l2)%list -> a_name x = n ->
  (forall y, In y l2 -> a_name y <> n) -> a_kids (remove_account n a) = (l1 ++ l2)%list.
Proof.
  destruct a as [i0 n0 num0 ty pp p ks]. cbn. intros -> Hx H2. apply remove_last_split.
  - apply String.eqb_eq; auto.
  - intros y Hy; apply String.eqb_neq; auto.
Qed.

Lemma update_id i f a : (forall x, In x (acct_and_descendants a) -> a_id x = i -> f x = x) -> update_acct i f a = a.
Proof.
  induction a as [i0 n num ty pp p ks IH] using acct_ind'. intros H. cbn [update_acct].
  destruct (Nat.eqb i0 i) eqn:E.
  - apply Nat.eqb_eq in E. apply H; auto. left; reflexivity.
  - f_equal. rewrite <- (map_id ks) at 2. apply map_ext_in. intros k Hk.
    rewrite Forall_forall in IH. apply IH; auto. intros x Hx. apply H. cbn. right. apply in_flat_map; eauto.
Qed.

Lemma update_update i f h a : (forall x, a_id x = i -> a_id (f x) = i) ->
  update_acct i h (update_acct i f a) = update_acct i (fun x => h (f x)) a.
Proof.
  intros Hf. induction a as [i0 n num ty pp p ks IH] using acct_ind'. cbn [update_acct].
  destruct (Nat.eqb i0 i) eqn:E.
  - assert (a_id (f (Acct i0 n num ty pp p ks)) = i) by (apply Hf; apply Nat.eqb_eq; auto).
    destruct (f (Acct i0 n num ty pp p ks)) as [i1 n1 num1 ty1 pp1 p1 ks1] eqn:Ef. cbn in H. subst i1.
    cbn [update_acct]. rewrite Nat.eqb_refl. reflexivity.
  - cbn [update_acct]. rewrite E. f_equal. rewrite map_map. apply map_ext_in. intros k Hk.
    rewrite Forall_forall in IH. auto.
Qed.

Lemma gls_create_remove g i n num :
  g_accounts (gls_step (gls_step g (OCreate i n num)) (ORemove i n)) = g_accounts g.
Proof.
  cbn. rewrite map_map. rewrite <- (map_id (g_accounts g)) at 2. apply map_ext. intros a.
  rewrite update_update by (intros x; destruct x; cbn; auto).
  apply update_id. intros x _ _. apply remove_create.
Qed.

Lemma gls_remove_absent g i n : (forall a, in_structure g a -> a_id a = i -> forall k, In k (a_kids a) -> a_name k <> n) ->
  gls_step g (ORemove i n) = g.
Proof.
  intros H. destruct g as [l nx]. cbn. unfold update_gls; cbn. f_equal.
  rewrite <- (map_id l) at 2. apply map_ext_in. intros a Ha. apply update_id. intros x Hx Ei.
  apply remove_absent. apply H; auto. exists a. split; auto. apply in_acct_and_desc; auto.
Qed.

(** ** Descendants: sizes, order, no duplicates *)
Fixpoint asize (a : acct) : nat := let 'Acct _ _ _ _ _ _ ks := a in S (list_sum (map asize ks)).

Lemma list_sum_in x l : In x l -> (x <= list_sum l)%nat.
Proof.
  induction l as [|y l IH]; [intros []|]. change (list_sum (y :: l)) with (y + list_sum l)%nat.
  intros [->|H]; [lia|]. apply IH in H. lia.
Qed.

Lemma below_size a d : below a d -> (asize d < asize a)%nat.
Proof.
  induction 1 as [a d Hin|a k d Hin Hb IH]; destruct a as [i n num ty pp p ks]; cbn [asize a_kids] in *;
    pose proof (list_sum_in _ _ (in_map asize _ _ Hin)); lia.
Qed.

Lemma below_irrefl a : ~ below a a.
Proof. intros H. apply below_size in H. lia. Qed.

Lemma parent_first a l1 x l2 k : account_descendants a = (l1 ++ x :: l2)%list -> In k (a_kids x) -> In k l2.
Proof.
  (* generalised to the preorder list of a forest *)
  assert (G : forall ts l1 x l2 k, flat_map acct_and_descendants ts = (l1 ++ x :: l2)%list -> In k (a_kids x) -> In k l2).
  2: { unfold account_descendants. apply G. }
  assert (T : forall t l1 x l2 k, acct_and_descendants t = (l1 ++ x :: l2)%list -> In k (a_kids x) -> In k l2).
  { clear. intros t. induction t as [i n num ty pp p ks IH] using acct_ind'. intros l1 x l2 k E Hk.
    cbn [acct_and_descendants] in E. destruct l1 as [|y l1]; cbn in E; inversion E as [[E1 E2]]; clear E.
    - subst x. cbn in Hk. apply in_flat_map. exists k; split; auto. apply in_acct_and_desc; auto.
    - clear E1 y. revert l1 E2. induction ks as [|k0 ks IHk]; intros l1 E2; cbn in E2.
      + destruct l1; discriminate.
      + inversion IH as [|? ? Hk0 Hks]; subst.
        (* split the concatenation *)
        assert (S : (exists m, acct_and_descendants k0 = (l1 ++ x :: m)%list /\ l2 = (m ++ flat_map acct_and_descendants ks)%list) \/
                    (exists m, l1 = (acct_and_descendants k0 ++ m)%list /\ flat_map acct_and_descendants ks = (m ++ x :: l2)%list)).
        { clear - E2. revert l1 E2. induction (acct_and_descendants k0) as [|z zs IHz]; intros l1 E2; cbn in E2.
          - right. exists l1. auto.
          - destruct l1 as [|w l1]; cbn in E2; inversion E2; subst.
            + left. exists zs. auto.
            + destruct (IHz l1) as [(m & A & B)|(m & A & B)]; auto.
              * left. exists m. split; auto. cbn. congruence.
              * right. exists m. split; auto. cbn. congruence. }
        destruct S as [(m & A & B)|(m & A & B)].
        * subst l2. apply in_or_app. left. eapply Hk0; eauto.
        * eapply IHk; eauto. }
  intros ts. induction ts as [|t ts IH]; intros l1' x' l2' k' E Hk; cbn in E.
  - destruct l1'; discriminate.
  - assert (S : (exists m, acct_and_descendants t = (l1' ++ x' :: m)%list /\ l2' = (m ++ flat_map acct_and_descendants ts)%list) \/
                (exists m, l1' = (acct_and_descendants t ++ m)%list /\ flat_map acct_and_descendants ts = (m ++ x' :: l2')%list)).
    { clear - E. revert l1' E. induction (acct_and_descendants t) as [|z zs IHz]; intros l1' E; cbn in E.
      - right. exists l1'. auto.
      - destruct l1' as [|w l1']; cbn in E; inversion E; subst.
        + left. exists zs. auto.
        + destruct (IHz l1') as [(m & A & B)|(m & A & B)]; auto.
          * left. exists m. split; auto. cbn. congruence.
          * right. exists m. split; auto. cbn. congruence. }
    destruct S as [(m & A & B)|(m & A & B)].
    + subst l2'. apply in_or_app. left. eapply T; eauto.
    + eapply IH; eauto.
Qed.

(** identities are unique *)
Definition ids (a : acct) : list nat := map a_id (acct_and_descendants a).
Definition cnt (j : nat) (l : list nat) : nat := count_occ Nat.eq_dec l j.
Definition idsf (l : list acct) : list nat := map a_id (flat_map acct_and_descendants l).

Lemma idsf_cons a l : idsf (a :: l) = (ids a ++ idsf l)%list.
Proof. unfold idsf, ids. cbn. apply map_app. Qed.
Lemma idsf_app l l' : idsf (l ++ l') = (idsf l ++ idsf l')%list.
Proof. unfold idsf. rewrite flat_map_app, map_app. reflexivity. Qed.
Lemma ids_unfold i n num ty pp p ks : ids (Acct i n num ty pp p ks) = i :: idsf ks.
Proof. reflexivity. Qed.
Lemma cnt_app j l l' : cnt j (l ++ l') = (cnt j l + cnt j l')%nat.
Proof. apply count_occ_app. Qed.
Lemma cnt_cons j i l : cnt j (i :: l) = ((if Nat.eq_dec i j then 1 else 0) + cnt j l)%nat.
Proof. unfold cnt; cbn. destruct (Nat.eq_dec i j); lia. Qed.

Lemma ids_set_parent v a : ids (set_parent_path v a) = ids a.
Proof.
  revert v. induction a as [i n num ty pp p ks IH] using acct_ind'. intros v. cbn [set_parent_path].
  rewrite !ids_unfold. f_equal. induction ks as [|k ks IHk]; [reflexivity|]. cbn [map].
  inversion IH; subst. rewrite !idsf_cons. f_equal; auto.
Qed.

Lemma idsf_map_id f l : (forall a, In a l -> ids (f a) = ids a) -> idsf (map f l) = idsf l.
Proof.
  induction l as [|a l IH]; cbn [map]; auto. intros H. rewrite !idsf_cons, H by (cbn; auto). f_equal. apply IH.
  intros; apply H; cbn; auto.
Qed.

Lemma ids_rename v a : ids (rename v a) = ids a.
Proof.
  destruct a as [i n num ty pp p ks]. cbn [rename]. rewrite !ids_unfold. f_equal.
  apply idsf_map_id. intros; apply ids_set_parent.
Qed.

(** number of objects with identity j, after applying f at identity i *)
Lemma cnt_update j i f e a :
  (forall x, (cnt j (ids (f x)) <= cnt j (ids x) + e)%nat) ->
  (cnt j (ids (update_acct i f a)) <= cnt j (ids a) + e * cnt i (ids a))%nat.
Proof.
  intros Hf. induction a as [i0 n num ty pp p ks IH] using acct_ind'. cbn [update_acct].
  destruct (Nat.eqb i0 i) eqn:E.
  - apply Nat.eqb_eq in E. subst. specialize (Hf (Acct i n num ty pp p ks)).
    rewrite ids_unfold in *. rewrite !cnt_cons in *. destruct (Nat.eq_dec i i); [|congruence]. nia.
  - rewrite !ids_unfold, !cnt_cons. apply Nat.eqb_neq in E. destruct (Nat.eq_dec i0 i); [congruence|].
    assert (cnt j (idsf (map (update_acct i f) ks)) <= cnt j (idsf ks) + e * cnt i (idsf ks))%nat.
    { clear - IH. induction ks as [|k ks IHk]; cbn [map]; [cbn; lia|]. inversion IH; subst.
      rewrite !idsf_cons, !cnt_app. specialize (IHk H2). nia. }
    nia.
Qed.

Lemma cnt_update_f j i f e l :
  (forall x, (cnt j (ids (f x)) <= cnt j (ids x) + e)%nat) ->
  (cnt j (idsf (map (update_acct i f) l)) <= cnt j (idsf l) + e * cnt i (idsf l))%nat.
Proof.
  intros Hf. induction l as [|k ks IHk]; cbn [map]; [cbn; lia|].
  rewrite !idsf_cons, !cnt_app. pose proof (cnt_update j i f e k Hf). nia.
Qed.

Lemma cnt_remove j n a : (cnt j (ids (remove_account n a)) <= cnt j (ids a))%nat.
Proof.
  destruct a as [i0 n0 num0 ty pp p ks]. cbn [remove_account]. rewrite !ids_unfold, !cnt_cons.
  apply Nat.add_le_mono_l. induction ks as [|k ks IH]; cbn [remove_last]; auto.
  destruct (_ && _); rewrite !idsf_cons, !cnt_app; lia.
Qed.

Lemma cnt_create j i n num a :
  (cnt j (ids (create_account i n num a)) = cnt j (ids a) + (if Nat.eq_dec i j then 1 else 0))%nat.
Proof.
  destruct a as [i0 n0 num0 ty pp p ks]. cbn [create_account]. rewrite !ids_unfold, !cnt_cons, idsf_app, cnt_app.
  change (idsf [set_parent_path p (new_account i n num ty)]) with [i].
  rewrite cnt_cons. change (cnt j []) with 0%nat. lia.
Qed.

Definition ids_ok (g : gls) : Prop :=
  forall j, (cnt j (idsf (g_accounts g)) <= (if (j <? g_next g)%nat then 1 else 0))%nat.

Lemma ids_ok_step g o : ids_ok g -> ids_ok (gls_step g o).
Proof.
  intros H j. specialize (H j) as Hj. destruct o as [n num ty|i n num|i n|i n]; cbn [gls_step].
  - unfold create_top; cbn [g_accounts g_next]. rewrite idsf_app, cnt_app.
    change (idsf [new_account (g_next g) n num ty]) with [g_next g].
    rewrite cnt_cons. change (cnt j []) with 0%nat. destruct (Nat.ltb_spec j (g_next g)), (Nat.ltb_spec j (S (g_next g))), (Nat.eq_dec (g_next g) j); lia.
  - cbn [g_accounts g_next update_gls].
    pose proof (cnt_update_f j i (create_account (g_next g) n num) (if Nat.eq_dec (g_next g) j then 1 else 0) (g_accounts g)) as C.
    specialize (C ltac:(intros x; rewrite cnt_create; lia)). specialize (H i).
    destruct (Nat.ltb_spec j (g_next g)), (Nat.ltb_spec j (S (g_next g))), (Nat.eq_dec (g_next g) j), (i <? g_next g)%nat; lia.
  - cbn [g_accounts g_next update_gls].
    pose proof (cnt_update_f j i (rename n) 0 (g_accounts g)) as C.
    specialize (C ltac:(intros x; rewrite ids_rename; lia)). lia.
  - cbn [g_accounts g_next update_gls].
    pose proof (cnt_update_f j i (remove_account n) 0 (g_accounts g)) as C.
    specialize (C ltac:(intros x; pose proof (cnt_remove j n x); lia)). lia.
Qed.

Lemma ids_ok_steps ops g : ids_ok g -> ids_ok (fold_left gls_step ops g).
Proof. revert g. induction ops as [|o ops IH]; cbn; intros g H; auto. apply IH, ids_ok_step, H. Qed.

Lemma ids_ok_built ops : ids_ok (built ops).
Proof. apply ids_ok_steps, ids_ok_steps. intros j. cbn. lia. Qed.

Lemma NoDup_cnt l : (forall j, (cnt j l <= 1)%nat) -> NoDup l.
Proof. intros H. apply (NoDup_count_occ Nat.eq_dec). exact H. Qed.

Lemma ids_unique ops : NoDup (map a_id (all_accounts (built ops))).
Proof.
  apply NoDup_cnt. intros j. pose proof (ids_ok_built ops j). fold (idsf (g_accounts (built ops))).
  change (map a_id (all_accounts (built ops))) with (idsf (g_accounts (built ops))).
  destruct (j <? g_next (built ops))%nat; lia.
Qed.

Lemma ids_sub a d j : a = d \/ below d a -> (cnt j (ids a) <= cnt j (ids d))%nat.
Proof.
  intros [->|H]; [lia|]. induction H as [a' d Hin|a' k d Hin Hb IH]; destruct a' as [i n num ty pp p ks];
    rewrite ids_unfold, cnt_cons; cbn in Hin;
    apply in_split in Hin as (l1 & l2 & ->); rewrite idsf_app, idsf_cons, !cnt_app; lia.
Qed.

Lemma cnt_idsf_in j t l : In t l -> (cnt j (ids t) <= cnt j (idsf l))%nat.
Proof. intros H. apply in_split in H as (l1 & l2 & ->). rewrite idsf_app, idsf_cons, !cnt_app. lia. Qed.

Lemma descendants_nodup ops a : in_structure (built ops) a -> NoDup (map a_id (account_descendants a)).
Proof.
  intros (t & Ht & Ha). apply NoDup_cnt. intros j.
  pose proof (ids_ok_built ops j). pose proof (cnt_idsf_in j t _ Ht). pose proof (ids_sub a t j Ha).
  assert (cnt j (map a_id (account_descendants a)) <= cnt j (ids a))%nat.
  { destruct a as [i n num ty pp p ks]. rewrite ids_unfold, cnt_cons.
    change (map a_id (account_descendants (Acct i n num ty pp p ks))) with (idsf ks). lia. }
  destruct (j <? g_next (built ops))%nat; lia.
Qed.

(** ** Validation *)
Lemma validate_ok g names : validate_account_names g names = Ok tt <->
  forall n, In n names -> exists a, get_account g n = Ok (Some a).
Proof.
  unfold validate_account_names. induction names as [|n names IH]; cbn.
  - split; [intros _ n []|auto].
  - destruct (get_account g n) as [[a|]|e] eqn:E; cbn.
    + rewrite IH. split; [intros H m [<-|Hm]; eauto|intros H m Hm; auto].
    + split; [discriminate|]. intros H. destruct (H n) as [a Ea]; auto. congruence.
    + split; [discriminate|]. intros H. destruct (H n) as [a Ea]; auto. congruence.
Qed.

(** validation stops at the first bad name and raises *)
Lemma validate_err g names e : validate_account_names g names = Err e ->
  exists l1 n l2, names = (l1 ++ n :: l2)%list /\
    (forall m, In m l1 -> exists a, get_account g m = Ok (Some a)) /\
    (get_account g n = Ok None /\ e = ValueError \/ get_account g n = Err e).
Proof.
  unfold validate_account_names. induction names as [|n names IH]; cbn; [discriminate|].
  destruct (get_account g n) as [[a|]|e'] eqn:E; cbn; intros H.
  - destruct (IH H) as (l1 & m & l2 & -> & H1 & H2). exists (n :: l1), m, l2. split; [reflexivity|].
    split; auto. intros x [<-|Hx]; eauto.
  - inversion H; subst. exists [], n, names. repeat split; auto. intros m [].
  - inversion H; subst. exists [], n, names. repeat split; auto. intros m [].
Qed.

(** Boolean test for [names_distinct], used in examples. *)
Fixpoint nodupb (l : list string) : bool :=
  match l with [] => true | x :: r => negb (existsb (String.eqb x) r) && nodupb r end.

Lemma nodupb_spec l : nodupb l = true -> NoDup l.
Proof.
  induction l as [|x r IH]; cbn; [constructor|]. intros H. apply andb_true_iff in H as [H1 H2]. constructor; auto.
  intros Hin. apply negb_true_iff in H1. apply not_true_iff_false in H1. apply H1. apply existsb_exists.
  exists x. split; auto. apply String.eqb_refl.
Qed.

Definition names_distinct_b (g : gls) : bool :=
  forallb (fun a => no_slash (a_name a)) (all_accounts g) && nodupb (map a_name (g_accounts g)) &&
  forallb (fun a => nodupb (map a_name (a_kids a))) (all_accounts g).

Lemma names_distinct_b_spec g : names_distinct_b g = true -> names_distinct g.
Proof.
  unfold names_distinct_b. rewrite !andb_true_iff, !forallb_forall. intros [[H1 H2] H3].
  split; [intros a Ha; apply H1, in_all; auto|]. split; [apply nodupb_spec; auto|].
  intros a Ha; apply nodupb_spec, H3, in_all; auto.
Qed.

Lemma empty_name_breaks : exists ops a k, in_structure (built ops) a /\ In k (a_kids a) /\
  a_path k <> a_path a ++ "/" ++ a_name k.
Proof.
  exists [ORename 17 ""; OCreate 17 "X" None; ORename 27 "Y"].
  destruct (deref (built [ORename 17 ""; OCreate 17 "X" None; ORename 27 "Y"]) 17) as [a|] eqn:Ea; [|vm_compute in Ea; discriminate].
  destruct (nth_error (a_kids a) 1) as [k|] eqn:Ek; [|vm_compute in Ea; inversion Ea; subst; vm_compute in Ek; discriminate].
  exists a, k. split; [|split].
  - apply in_all. unfold deref in Ea. apply find_some in Ea. tauto.
  - eapply nth_error_In; eauto.
  - vm_compute in Ea. inversion Ea; subst. vm_compute in Ek. inversion Ek; subst. vm_compute. discriminate.
Qed.

Lemma missing_raises : exists s, ~ (exists a, in_structure default_gls a /\ a_path a = s) /\
  get_account default_gls s = Err IndexError.
Proof.
  exists "Bank/Savings". split; [|vm_compute; reflexivity].
  intros (a & Ha & Hp). apply get_account_complete in Ha; [|apply coh_default|apply names_distinct_b_spec; vm_compute; reflexivity].
  rewrite Hp in Ha. vm_compute in Ha. discriminate.
Qed.

Lemma lookup_found ops a : forallb op_names_ok ops = true -> names_distinct (built ops) ->
  in_structure (built ops) a -> get_account (built ops) (a_path a) = Ok (Some a).
Proof. intros. apply get_account_complete; auto. apply coh_built; auto. Qed.

Lemma lookup_sound ops s a : forallb op_names_ok ops = true ->
  get_account (built ops) s = Ok (Some a) -> in_structure (built ops) a /\ a_path a = s.
Proof. intros. apply get_account_sound; auto. apply coh_built; auto. Qed.

Lemma lookup_absent ops s : forallb op_names_ok ops = true -> names_distinct (built ops) ->
  ~ (exists a, in_structure (built ops) a /\ a_path a = s) ->
  ((exists t, In t (g_accounts (built ops)) /\ a_name t = fst (split_slash s)) -> get_account (built ops) s = Err IndexError) /\
  (~ (exists t, In t (g_accounts (built ops)) /\ a_name t = fst (split_slash s)) -> get_account (built ops) s = Ok None).
Proof. intros. apply get_account_absent; auto. apply coh_built; auto. Qed.

Lemma validate_built ops names : forallb op_names_ok ops = true -> names_distinct (built ops) ->
  (validate_account_names (built ops) names = Ok tt <->
   forall n, In n names -> exists a, in_structure (built ops) a /\ a_path a = n).
Proof.
  intros Ho Hd. rewrite validate_ok. split; intros H n Hn; destruct (H n Hn) as [a Ha].
  - exists a. apply lookup_sound; auto.
  - destruct Ha as [Ha <-]. exists a. apply lookup_found; auto.
Qed.
