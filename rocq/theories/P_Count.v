From Verif Require Import Prelude M_Elements M_Stoichiometry Spec_Stoich P_Ledger P_Loan P_Stoich.
From Coq Require Import Field.
Local Open Scope string_scope.
Local Open Scope list_scope.
Local Open Scope Z_scope.

(** * Numbers *)
Lemma int_acc t a : fold_left (fun a c => 10 * a + (code c - 48)) t a = a * 10 ^ Z.of_nat (length t) + decimal t.
Proof.
  revert a. induction t as [|c t IH]; intros a; cbn [fold_left decimal length]; [cbn; lia|].
  rewrite IH. rewrite Nat2Z.inj_succ, Z.pow_succ_r by lia. change (code "0") with 48. ring.
Qed.
Lemma int_decimal t : int_of_text t = decimal t.
Proof. unfold int_of_text. rewrite int_acc. lia. Qed.
Lemma number_multiplier n : number_or_one n = group_multiplier n.
Proof. destruct n as [t|]; cbn; auto. now rewrite int_decimal. Qed.

Lemma qZ_plus a b : q_of_Z (a + b) = (q_of_Z a + q_of_Z b)%Qc.
Proof. apply Qc_is_canon. change (Qred (inject_Z (a + b)) == Qred (Qred (inject_Z a) + Qred (inject_Z b)))%Q. rewrite !Qred_correct. now rewrite inject_Z_plus. Qed.
Lemma qZ_mult a b : q_of_Z (a * b) = (q_of_Z a * q_of_Z b)%Qc.
Proof. apply Qc_is_canon. change (Qred (inject_Z (a * b)) == Qred (Qred (inject_Z a) * Qred (inject_Z b)))%Q. rewrite !Qred_correct. now rewrite inject_Z_mult. Qed.
Lemma qZ_0 : q_of_Z 0 = 0%Qc. Proof. apply Qc_is_canon. reflexivity. Qed.
Lemma qZ_1 : q_of_Z 1 = 1%Qc. Proof. apply Qc_is_canon. reflexivity. Qed.
Lemma qZ_inj a b : q_of_Z a = q_of_Z b -> a = b.
Proof. intros H. apply (f_equal this) in H. unfold q_of_Z in H. cbn [this Q2Qc] in H.
  assert (E : Qeq (inject_Z a) (inject_Z b)) by (rewrite <- (Qred_correct (inject_Z a)), H; apply Qred_correct).
  unfold Qeq, inject_Z in E. cbn in E. lia. Qed.
Lemma qZ_le a b : a <= b -> (q_of_Z a <= q_of_Z b)%Qc.
Proof. intros H. unfold Qcle, q_of_Z. cbn [this Q2Qc]. rewrite !Qred_correct. unfold Qle, inject_Z. cbn. lia. Qed.
Lemma qZ_lt a b : a < b -> (q_of_Z a < q_of_Z b)%Qc.
Proof. intros H. unfold Qclt, q_of_Z. cbn [this Q2Qc]. rewrite !Qred_correct. unfold Qlt, inject_Z. cbn. lia. Qed.

(** * Induction on nested syntax *)
Section ItemInd.
  Variable P : item -> Prop.
  Hypothesis He : forall t, P (IElement t).
  Hypothesis Hs : forall t n, P (ISubElement t n).
  Hypothesis Hg : forall g n, Forall P g -> P (ISubGroup g n).
  Fixpoint item_rect' (i : item) : P i :=
    match i with
    | IElement t => He t
    | ISubElement t n => Hs t n
    | ISubGroup g n => Hg g n ((fix go l : Forall P l := match l with [] => Forall_nil _ | x :: l' => Forall_cons _ (item_rect' x) (go l') end) g)
    end.
End ItemInd.
Section PartInd.
  Variable P : part -> Prop.
  Hypothesis He : forall e, P (PElement e).
  Hypothesis Hg : forall g m, Forall P g -> P (PGroup g m).
  Fixpoint part_rect' (p : part) : P p :=
    match p with
    | PElement e => He e
    | PGroup g m => Hg g m ((fix go l : Forall P l := match l with [] => Forall_nil _ | x :: l' => Forall_cons _ (part_rect' x) (go l') end) g)
    end.
End PartInd.

(** * Linear functionals of a count dictionary *)
Section Linear.
Local Open Scope Qc_scope.
Variable w : string -> Qc.
Definition lin (d : counts) : Qc := Qcsum (map (fun kv => w (fst kv) * snd kv) d).
Lemma lin_cons k v d : lin ((k, v) :: d) = w k * v + lin d.
Proof. unfold lin. cbn [map]. now rewrite Qcsum_cons. Qed.
Lemma lin_add_count k x d : lin (add_count k x d) = lin d + w k * x.
Proof.
  induction d as [|[k' v] d IH]; cbn [add_count].
  - rewrite lin_cons. unfold lin. cbn. unfold Qcsum. cbn. ring.
  - destruct (String.eqb_spec k k'); rewrite !lin_cons; [subst; ring|rewrite IH; ring].
Qed.
Lemma lin_add_counts m c d : lin (add_counts m c d) = lin d + q_of_Z m * lin c.
Proof.
  unfold add_counts. revert d. induction c as [|[k v] c IH]; intros d; cbn [fold_left fst snd].
  - unfold lin at 3. cbn. unfold Qcsum. cbn. ring.
  - rewrite IH, lin_add_count, lin_cons. ring.
Qed.
Lemma part_count_group g m :
  part_count (PGroup g m) = fold_left (fun d x => add_counts m (part_count x) d) g [].
Proof.
  cbn [part_count]. generalize (@nil (string * Qc)).
  induction g as [|x g IH]; intros d; cbn [fold_left]; [reflexivity|apply IH].
Qed.
Fixpoint part_lin (p : part) : Qc :=
  match p with
  | PElement e => w (el_symbol e)
  | PGroup g m => q_of_Z m * fold_right (fun x a => part_lin x + a) 0 g
  end.
Lemma lin_part p : lin (part_count p) = part_lin p.
Proof.
  induction p as [e|g m IH] using part_rect'.
  - cbn [part_count part_lin]. rewrite lin_cons. unfold lin. cbn. unfold Qcsum. cbn. ring.
  - rewrite part_count_group. cbn [part_lin].
    assert (G : forall d, lin (fold_left (fun d x => add_counts m (part_count x) d) g d) = lin d + q_of_Z m * fold_right (fun x a => part_lin x + a) 0 g).
    { induction IH as [|x g Hx _ IHg]; intros d; cbn [fold_left fold_right]; [ring|].
      rewrite IHg, lin_add_counts, Hx. ring. }
    rewrite G. unfold lin. cbn. unfold Qcsum. cbn. ring.
Qed.
Fixpoint item_lin (i : item) : Qc :=
  match i with
  | IElement t => w (str_of t)
  | ISubElement t n => q_of_Z (decimal n) * w (str_of t)
  | ISubGroup g n => q_of_Z (group_multiplier n) * fold_right (fun x a => item_lin x + a) 0 g
  end.
Definition group_lin (g : list item) : Qc := fold_right (fun x a => item_lin x + a) 0 g.
Definition formula_lin (f : formula) : Qc :=
  group_lin (f_group f) + match f_dotted f with Some (n, g) => q_of_Z (group_multiplier n) * group_lin g | None => 0 end.
End Linear.

(** * The table *)
Lemma table_nodup : NoDup (map el_symbol element_dictionary).
Proof.
  assert (H : nodup string_dec (map el_symbol element_dictionary) = map el_symbol element_dictionary) by (vm_compute; reflexivity).
  rewrite <- H. apply NoDup_nodup.
Qed.
Lemma nodup_map_inj {A B} (f : A -> B) l x y : NoDup (map f l) -> In x l -> In y l -> f x = f y -> x = y.
Proof.
  induction l as [|a l IH]; cbn; [tauto|]. intros H. inversion H; subst. intros [->|Hx] [->|Hy] E; auto.
  - exfalso. apply H2. rewrite E. now apply in_map.
  - exfalso. apply H2. rewrite <- E. now apply in_map.
Qed.
Lemma find_element_some s e : find_element s = Some e <-> In e element_dictionary /\ el_symbol e = s.
Proof.
  unfold find_element. split.
  - intros H. apply find_some in H as [H1 H2]. apply String.eqb_eq in H2. auto.
  - intros [H1 H2]. destruct (find _ _) as [e'|] eqn:E.
    + apply find_some in E as [E1 E2]. apply String.eqb_eq in E2. f_equal. apply (nodup_map_inj el_symbol _ _ _ table_nodup); congruence.
    + exfalso. apply (find_none _ _ E) in H1. subst s. now rewrite String.eqb_refl in H1.
Qed.
Lemma find_element_in_table s : in_table s <-> exists e, find_element s = Some e.
Proof. split; intros [e He]; exists e; [apply find_element_some|apply find_element_some in He]; auto. Qed.
Lemma find_element_none s : ~ in_table s <-> find_element s = None.
Proof.
  rewrite find_element_in_table. destruct (find_element s) as [e|]; split; auto; try discriminate.
  - intros H. exfalso. eauto.
  - intros _ [e He]. discriminate.
Qed.
Lemma table_masses : forallb (fun e => Qle_bool (1#1) (el_mass e)) element_dictionary = true.
Proof. vm_compute. reflexivity. Qed.
Lemma el_mass_pos e : In e element_dictionary -> (0 < el_mass e)%Qc.
Proof.
  intros H. pose proof table_masses as T. rewrite forallb_forall in T. apply T in H. apply Qle_bool_iff in H.
  unfold Qclt. eapply Qlt_le_trans; [|exact H]. reflexivity.
Qed.

(** * Visiting *)
Definition visit_items := mapM visit_item.
Lemma visit_subgroup g n : visit_item (ISubGroup g n) = do l <- mapM visit_item g; Ok (PGroup [PGroup l 1] (number_or_one n)).
Proof.
  cbn [visit_item].
  assert (E : (fix visit_items (l : list item) : res (list part) :=
     match l with [] => Ok [] | x :: l' => do y <- visit_item x; do ys <- visit_items l'; Ok (y :: ys) end) g = mapM visit_item g).
  { induction g as [|x g IH]; cbn [mapM]; [reflexivity|]. rewrite IH. destruct (visit_item x); reflexivity. }
  now rewrite E.
Qed.

Fixpoint part_syms (p : part) : list string :=
  match p with PElement e => [el_symbol e] | PGroup g _ => flat_map part_syms g end.

(** What visiting does: succeeds exactly when all symbols are known. *)
Definition visited (w : string -> Qc) (i : item) (r : res part) : Prop :=
  match r with
  | Ok p => (forall s, In s (item_symbols i) -> in_table s) /\ part_lin w p = item_lin w i /\ part_syms p = item_symbols i
  | Err e => e = VisitationError /\ exists s, In s (item_symbols i) /\ ~ in_table s
  end.
Lemma visit_item_spec w i : visited w i (visit_item i).
Proof.
  induction i as [t|t n|g n IH] using item_rect'.
  - cbn [visit_item]. unfold visit_element. destruct (find_element (str_of t)) as [e|] eqn:E; cbn [bind visited].
    + apply find_element_some in E as [E1 E2]. cbn. rewrite E2. split; [intros s [<-|[]]; exists e; auto|]. split; reflexivity.
    + split; auto. exists (str_of t). split; [cbn; auto|]. now apply find_element_none.
  - cbn [visit_item]. unfold visit_element. destruct (find_element (str_of t)) as [e|] eqn:E; cbn [bind visited].
    + apply find_element_some in E as [E1 E2]. cbn. rewrite E2, int_decimal. split; [intros s [<-|[]]; exists e; auto|]. split; [ring|reflexivity].
    + split; auto. exists (str_of t). split; [cbn; auto|]. now apply find_element_none.
  - rewrite visit_subgroup.
    assert (G : match mapM visit_item g with
      | Ok l => (forall s, In s (flat_map item_symbols g) -> in_table s) /\
          fold_right (fun x a => (part_lin w x + a)%Qc) 0%Qc l = fold_right (fun x a => (item_lin w x + a)%Qc) 0%Qc g /\
          flat_map part_syms l = flat_map item_symbols g
      | Err e => e = VisitationError /\ exists s, In s (flat_map item_symbols g) /\ ~ in_table s end).
    { induction IH as [|x g Hx _ IHg]; cbn [mapM].
      - cbn. split; [intros s []|]. split; reflexivity.
      - destruct (visit_item x) as [p|e]; cbn [bind visited] in *.
        + destruct (mapM visit_item g) as [l|e]; cbn [bind].
          * destruct Hx as (A1 & A2 & A3), IHg as (B1 & B2 & B3). cbn [flat_map fold_right]. rewrite A2, A3, B2, B3. split; [|split; reflexivity].
            intros s Hs. apply in_app_iff in Hs as [Hs|Hs]; auto.
          * destruct IHg as (B1 & s & B2 & B3). split; auto. exists s. cbn. rewrite in_app_iff. auto.
        + destruct Hx as (B1 & s & B2 & B3). split; auto. exists s. cbn. rewrite in_app_iff. auto. }
    destruct (mapM visit_item g) as [l|e]; cbn [bind visited].
    + destruct G as (G1 & G2 & G3). split; [exact G1|]. split.
      * cbn [part_lin item_lin fold_right]. rewrite G2, number_multiplier, qZ_1. ring.
      * cbn [part_syms flat_map item_symbols]. rewrite G3, !app_nil_r. reflexivity.
    + exact G.
Qed.

Lemma visit_group_spec w g : match visit_group g with
  | Ok p => (forall s, In s (flat_map item_symbols g) -> in_table s) /\ part_lin w p = group_lin w g /\ part_syms p = flat_map item_symbols g
  | Err e => e = VisitationError /\ exists s, In s (flat_map item_symbols g) /\ ~ in_table s end.
Proof.
  unfold visit_group. induction g as [|x g IHg]; cbn [mapM bind].
  - cbn. split; [tauto|]. split; [|reflexivity]. ring.
  - pose proof (visit_item_spec w x) as Hx. destruct (visit_item x) as [p|e]; cbn [bind visited] in *.
    + destruct (mapM visit_item g) as [l|e]; cbn [bind] in *.
      * destruct Hx as (A1 & A2 & A3), IHg as (B1 & B2 & B3). cbn [part_lin fold_right part_syms flat_map group_lin] in *.
        rewrite qZ_1 in *. split; [|split].
        -- intros s Hs. apply in_app_iff in Hs as [Hs|Hs]; auto.
        -- rewrite A2. unfold group_lin in B2. rewrite <- B2. ring.
        -- now rewrite A3, B3.
      * destruct IHg as (B1 & s & B2 & B3). split; auto. exists s. cbn. rewrite in_app_iff. auto.
    + destruct Hx as (B1 & s & B2 & B3). split; auto. exists s. cbn. rewrite in_app_iff. auto.
Qed.

Definition compound_syms (c : compound) : list string := flat_map part_syms (c_group c).
Lemma visit_compound_spec w f : match visit_compound f with
  | Ok c => all_known f /\ lin w (compound_count c) = formula_lin w f /\ compound_syms c = symbols f
  | Err e => e = VisitationError /\ ~ all_known f end.
Proof.
  unfold visit_compound, all_known, symbols, formula_lin. pose proof (visit_group_spec w (f_group f)) as Hg.
  destruct (visit_group (f_group f)) as [p|e]; cbn [bind].
  - destruct Hg as (A1 & A2 & A3). destruct (f_dotted f) as [[n d]|].
    + pose proof (visit_group_spec w d) as Hd. destruct (visit_group d) as [q|e]; cbn [bind].
      * destruct Hd as (B1 & B2 & B3). split; [|split].
        -- intros s Hs. apply in_app_iff in Hs as [Hs|Hs]; auto.
        -- unfold compound_count. cbn [c_group]. rewrite lin_part. cbn [part_lin fold_right]. rewrite A2, B2, number_multiplier, qZ_1. ring.
        -- unfold compound_syms. cbn [c_group flat_map part_syms]. now rewrite A3, B3, !app_nil_r.
      * destruct Hd as (B1 & s & B2 & B3). split; auto. intros H. apply B3, H. apply in_app_iff. auto.
    + split; [|split].
      * intros s Hs. rewrite app_nil_r in Hs. auto.
      * unfold compound_count. cbn [c_group]. rewrite lin_part. cbn [part_lin fold_right]. rewrite A2, qZ_1. ring.
      * unfold compound_syms. cbn [c_group flat_map]. now rewrite A3, !app_nil_r.
  - destruct Hg as (B1 & s & B2 & B3). split; auto. intros H. apply B3, H. apply in_app_iff. auto.
Qed.

(** * Keys of the count dictionary *)
Lemma keys_add_count k x d s : In s (map fst (add_count k x d)) <-> s = k \/ In s (map fst d).
Proof.
  induction d as [|[k' v] d IH]; cbn [add_count map fst In].
  - intuition.
  - destruct (String.eqb_spec k k'); cbn [map fst In]; [subst; intuition|]. rewrite IH. intuition.
Qed.
Lemma nodup_add_count k x d : NoDup (map fst d) -> NoDup (map fst (add_count k x d)).
Proof.
  induction d as [|[k' v] d IH]; cbn [add_count map fst]; intros H.
  - constructor; auto.
  - inversion H; subst. destruct (String.eqb_spec k k'); cbn [map fst]; constructor; auto.
    rewrite keys_add_count. intros [->|]; auto.
Qed.
Lemma keys_add_counts m c d s : In s (map fst (add_counts m c d)) <-> In s (map fst c) \/ In s (map fst d).
Proof.
  unfold add_counts. revert d. induction c as [|[k v] c IH]; intros d; cbn [fold_left map fst In]; [tauto|].
  rewrite IH, keys_add_count. intuition.
Qed.
Lemma nodup_add_counts m c d : NoDup (map fst d) -> NoDup (map fst (add_counts m c d)).
Proof.
  unfold add_counts. revert d. induction c as [|[k v] c IH]; intros d H; cbn [fold_left]; auto. apply IH. now apply nodup_add_count.
Qed.
Lemma keys_part p s : In s (map fst (part_count p)) <-> In s (part_syms p).
Proof.
  induction p as [e|g m IH] using part_rect'; [cbn; tauto|]. rewrite part_count_group. cbn [part_syms].
  assert (G : forall d, In s (map fst (fold_left (fun d x => add_counts m (part_count x) d) g d)) <-> In s (flat_map part_syms g) \/ In s (map fst d)).
  { induction IH as [|x g Hx _ IHg]; intros d; cbn [fold_left flat_map]; [cbn; tauto|].
    rewrite IHg, keys_add_counts, in_app_iff, Hx. tauto. }
  rewrite G. cbn. tauto.
Qed.
Lemma nodup_part p : NoDup (map fst (part_count p)).
Proof.
  destruct p as [e|g m]; [repeat constructor; cbn; tauto|]. rewrite part_count_group.
  assert (G : forall d, NoDup (map fst d) -> NoDup (map fst (fold_left (fun d x => add_counts m (part_count x) d) g d))).
  { induction g as [|x g IHg]; intros d H; cbn [fold_left]; auto. apply IHg. now apply nodup_add_counts. }
  apply G. constructor.
Qed.

(** Reading a count is a linear functional. *)
Definition indicator (k s : string) : Qc := if String.eqb k s then 1%Qc else 0%Qc.
Lemma lin_indicator_out k d : ~ In k (map fst d) -> lin (indicator k) d = 0%Qc.
Proof.
  induction d as [|[k' v] d IH]; cbn [map fst In]; intros H; [reflexivity|]. rewrite lin_cons, IH by tauto. unfold indicator.
  destruct (String.eqb_spec k k'); [subst; tauto|ring].
Qed.
Lemma get_count_lin k d : NoDup (map fst d) -> get_count k d = lin (indicator k) d.
Proof.
  induction d as [|[k' v] d IH]; cbn [map fst get_count]; intros H; [reflexivity|]. inversion H; subst.
  rewrite lin_cons. unfold indicator at 1. destruct (String.eqb_spec k k').
  - subst. rewrite (lin_indicator_out _ _ H2). ring.
  - rewrite IH by auto. ring.
Qed.
Lemma indicator_item s i : item_lin (indicator s) i = q_of_Z (item_atoms s i).
Proof.
  induction i as [t|t n|g n IH] using item_rect'; cbn [item_lin item_atoms]; unfold indicator.
  - rewrite String.eqb_sym. destruct (String.eqb _ _); [now rewrite qZ_1|now rewrite qZ_0].
  - rewrite String.eqb_sym. destruct (String.eqb _ _); [ring|rewrite qZ_0; ring].
  - rewrite qZ_mult. f_equal. induction IH as [|x g Hx _ IHg]; cbn [fold_right]; [now rewrite qZ_0|].
    rewrite qZ_plus, <- Hx, <- IHg. reflexivity.
Qed.
Lemma indicator_group s g : group_lin (indicator s) g = q_of_Z (group_atoms s g).
Proof.
  unfold group_lin, group_atoms. induction g as [|x g IHg]; cbn [fold_right]; [now rewrite qZ_0|].
  rewrite qZ_plus, <- indicator_item, <- IHg. reflexivity.
Qed.
Lemma indicator_formula s f : formula_lin (indicator s) f = q_of_Z (atoms s f).
Proof.
  unfold formula_lin, atoms. rewrite qZ_plus, indicator_group. f_equal. destruct (f_dotted f) as [[n g]|]; [|now rewrite qZ_0].
  now rewrite qZ_mult, indicator_group.
Qed.

(** * Mass *)
Definition mass_of (s : string) : Qc := match find_element s with Some e => el_mass e | None => 0%Qc end.
Lemma molar_mass_lin c : (forall s, In s (compound_syms c) -> in_table s) -> compound_molar_mass c = Ok (lin mass_of (compound_count c)).
Proof.
  intros H. unfold compound_molar_mass.
  assert (K : forall s, In s (map fst (compound_count c)) -> in_table s).
  { intros s Hs. apply H. unfold compound_count in Hs. apply keys_part in Hs. exact Hs. }
  clear H. revert K. generalize (compound_count c) as d. unfold lin.
  induction d as [|[k v] d IH]; intros K; cbn [mapM bind map fst snd]; [reflexivity|].
  destruct (proj1 (find_element_in_table k) (K k (or_introl eq_refl))) as [e He].
  unfold mass_of at 1. rewrite He. cbn [bind].
  assert (IH' := IH (fun s Hs => K s (or_intror Hs))). clear IH.
  match type of IH' with bind ?X _ = _ => destruct X as [l|x] end; cbn [bind] in *; [|discriminate]. inversion IH'.
  now rewrite !Qcsum_cons, H0.
Qed.

Lemma weight_plus a b : weight (fun s => a s + b s) = (weight a + weight b)%Qc.
Proof.
  unfold weight. induction element_dictionary as [|e l IH]; cbn [map]; [unfold Qcsum; cbn; ring|].
  rewrite !Qcsum_cons, IH, qZ_plus. ring.
Qed.
Lemma weight_scale n a : weight (fun s => n * a s) = (q_of_Z n * weight a)%Qc.
Proof.
  unfold weight. induction element_dictionary as [|e l IH]; cbn [map]; [unfold Qcsum; cbn; ring|].
  rewrite !Qcsum_cons, IH, qZ_mult. ring.
Qed.
Lemma weight_ext a b : (forall s, a s = b s) -> weight a = weight b.
Proof. intros H. unfold weight. f_equal. apply map_ext. intros e. now rewrite H. Qed.
Lemma weight_0 : weight (fun _ => 0) = 0%Qc.
Proof. unfold weight. induction element_dictionary as [|e l IH]; cbn [map]; [reflexivity|]. rewrite !Qcsum_cons, IH, qZ_0. ring. Qed.
Lemma weight_single t : in_table t -> weight (fun s => if String.eqb t s then 1 else 0) = mass_of t.
Proof.
  intros H. apply find_element_in_table in H as [e He]. unfold mass_of. rewrite He. apply find_element_some in He as [H1 H2].
  subst t. unfold weight. pose proof table_nodup as N. revert H1 N. generalize element_dictionary as l.
  induction l as [|x l IH]; [intros []|]. cbn [In map]. intros H N. inversion N; subst. rewrite Qcsum_cons. destruct H as [->|H].
  - rewrite String.eqb_refl, qZ_1.
    assert (Z : Qcsum (map (fun e0 => (el_mass e0 * q_of_Z (if String.eqb (el_symbol e) (el_symbol e0) then 1 else 0))%Qc) l) = 0%Qc).
    { clear - H2. induction l as [|y l IH]; [reflexivity|]. cbn [map In] in *. rewrite Qcsum_cons, IH by tauto.
      destruct (String.eqb_spec (el_symbol e) (el_symbol y)) as [E|E]; [exfalso; apply H2; auto|]. rewrite qZ_0. ring. }
    rewrite Z. ring.
  - rewrite (IH H H3). destruct (String.eqb_spec (el_symbol e) (el_symbol x)) as [E|E]; [|rewrite qZ_0; ring].
    exfalso. apply H2. rewrite <- E. now apply in_map.
Qed.

Lemma weight_item i : (forall s, In s (item_symbols i) -> in_table s) -> weight (fun s => item_atoms s i) = item_lin mass_of i.
Proof.
  induction i as [t|t n|g n IH] using item_rect'; intros H; cbn [item_lin item_atoms item_symbols] in *.
  - apply weight_single. apply H. cbn; auto.
  - rewrite <- (weight_single (str_of t)) by (apply H; cbn; auto). rewrite <- weight_scale. apply weight_ext.
    intros s. destruct (String.eqb _ _); lia.
  - rewrite weight_scale. f_equal. induction IH as [|x g Hx _ IHg]; cbn [fold_right]; [apply weight_0|].
    rewrite weight_plus. rewrite Hx, IHg; auto; intros s Hs; apply H; cbn; apply in_app_iff; auto.
Qed.
Lemma weight_group g : (forall s, In s (flat_map item_symbols g) -> in_table s) -> weight (fun s => group_atoms s g) = group_lin mass_of g.
Proof.
  intros H. unfold group_atoms, group_lin. induction g as [|x g IHg]; cbn [fold_right]; [apply weight_0|].
  rewrite weight_plus. rewrite weight_item, IHg; auto; intros s Hs; apply H; cbn; apply in_app_iff; auto.
Qed.
Lemma weight_formula f : all_known f -> weight (fun s => atoms s f) = formula_lin mass_of f.
Proof.
  unfold all_known, symbols, atoms, formula_lin. intros H. rewrite weight_plus, weight_group by (intros s Hs; apply H, in_app_iff; auto).
  f_equal. destruct (f_dotted f) as [[n g]|]; [|apply weight_0]. rewrite weight_scale, weight_group; auto.
  intros s Hs; apply H, in_app_iff; auto.
Qed.

(** * White space *)
Lemma lstrip_blank l t : blank l -> lstrip (l ++ t) = lstrip t.
Proof. unfold blank. induction l as [|c l IH]; cbn; auto. intros H. apply andb_true_iff in H as [H1 H2]. rewrite H1. auto. Qed.
Definition nospace (t : text) : Prop := forallb (fun c => negb (is_space c)) t = true.
Lemma lstrip_nospace t r : nospace t -> t <> [] -> lstrip (t ++ r) = t ++ r.
Proof. unfold nospace. destruct t as [|c t]; [congruence|]. cbn. intros H _. apply andb_true_iff in H as [H1 H2]. now destruct (is_space c). Qed.
Lemma blank_rev l : blank l -> blank (rev l).
Proof. unfold blank. rewrite !forallb_forall. intros H c Hc. apply H. now apply in_rev. Qed.
Lemma nospace_rev l : nospace l -> nospace (rev l).
Proof. unfold nospace. rewrite !forallb_forall. intros H c Hc. apply H. now apply in_rev. Qed.
Lemma strip_padded l t r : blank l -> blank r -> nospace t -> t <> [] -> strip (l ++ t ++ r) = t.
Proof.
  intros Hl Hr Ht Hn. unfold strip. rewrite (lstrip_blank _ _ Hl), (lstrip_nospace _ _ Ht Hn), rev_app_distr, (lstrip_blank _ _ (blank_rev _ Hr)).
  rewrite <- (app_nil_r (rev t)), lstrip_nospace, app_nil_r, rev_involutive; auto using nospace_rev.
  intros E. apply Hn. rewrite <- (rev_involutive t), E. reflexivity.
Qed.
Lemma lstrip_split t : exists l, blank l /\ t = l ++ lstrip t.
Proof.
  induction t as [|c t [l [Hl E]]]; [exists []; split; reflexivity|]. cbn. destruct (is_space c) eqn:Ec; [|exists []; split; reflexivity].
  exists (c :: l). split; [unfold blank; cbn; now rewrite Ec|]. cbn. now rewrite E at 1.
Qed.
Lemma strip_split t : exists l r, blank l /\ blank r /\ t = l ++ strip t ++ r.
Proof.
  destruct (lstrip_split t) as (l & Hl & E1). destruct (lstrip_split (rev (lstrip t))) as (r & Hr & E2).
  exists l, (rev r). split; auto. split; [now apply blank_rev|]. unfold strip. rewrite E1 at 1. f_equal.
  rewrite <- rev_app_distr, <- E2. now rewrite rev_involutive.
Qed.

Lemma nospace_app a b : nospace (a ++ b) <-> nospace a /\ nospace b.
Proof. unfold nospace. rewrite forallb_app, andb_true_iff. tauto. Qed.
Lemma nospace_impl p t : (forall c, implb (p c) (negb (is_space c)) = true) -> forallb p t = true -> nospace t.
Proof. intros H. unfold nospace. rewrite !forallb_forall. intros Hp c Hc. specialize (H c). rewrite (Hp c Hc) in H. exact H. Qed.
Lemma element_nospace t : is_element_text t -> nospace t.
Proof.
  intros (c & l & -> & Hc & Hl). change (c :: l) with ([c] ++ l). apply nospace_app. split.
  - unfold nospace. cbn. pose proof (upper_lower c) as X. rewrite Hc in X. cbn in X. apply andb_true_iff in X as [_ X]. now rewrite X.
  - apply (nospace_impl is_lower); auto. apply lower_f.
Qed.
Lemma number_nospace t : is_number_text t -> nospace t.
Proof. intros [_ H]. apply (nospace_impl is_digit); auto. char_fact. Qed.
Lemma opt_number_nospace n : opt_number n -> nospace (opt_text n).
Proof. destruct n; cbn; [apply number_nospace|reflexivity]. Qed.
Lemma gen_nospace : (forall t i, gen_item t i -> nospace t) /\ (forall t g, gen_group t g -> nospace t).
Proof.
  apply (gen_mut (fun t _ _ => nospace t) (fun t _ _ => nospace t)).
  - intros. now apply element_nospace.
  - intros. apply nospace_app. split; [now apply element_nospace|now apply number_nospace].
  - intros t g n H IH Hn. apply nospace_app. split; [reflexivity|]. apply nospace_app. split; auto. apply nospace_app. split; [reflexivity|]. now apply opt_number_nospace.
  - auto.
  - intros. apply nospace_app. auto.
Qed.
Lemma gen_compound_nospace t f : gen_compound t f -> nospace t /\ t <> [].
Proof.
  intros (a & b & c & -> & Ha & Hb & Hc). split.
  - apply nospace_app. split; [eapply (proj2 gen_nospace); eauto|]. apply nospace_app. split.
    + destruct (f_dotted f) as [[n g]|]; cbn in Hb; [|subst; reflexivity]. destruct Hb as (u & -> & Hn & Hu).
      change (nospace (["."%char] ++ opt_text n ++ u)). apply nospace_app. split; [reflexivity|]. apply nospace_app. split; [now apply opt_number_nospace|eapply (proj2 gen_nospace); eauto].
    + destruct (f_phase f) as [s|]; cbn in Hc; [|subst; reflexivity]. destruct Hc as [-> [_ Hs]].
      change (nospace (["["%char] ++ s ++ ["]"%char])). apply nospace_app. split; [reflexivity|]. apply nospace_app. split; [|reflexivity].
      apply (nospace_impl is_alnum); auto. apply alnum_f.
  - apply gen_group_head in Ha as (x & y & -> & _). discriminate.
Qed.

(** * The functions *)
Lemma written_strip s f : written s f <-> gen_compound (strip (text_of s)) f.
Proof.
  split.
  - intros (l & t & r & E & Hl & Hr & H). rewrite E. destruct (gen_compound_nospace _ _ H) as [H1 H2]. now rewrite strip_padded.
  - intros H. destruct (strip_split (text_of s)) as (l & r & Hl & Hr & E). exists l, (strip (text_of s)), r. auto.
Qed.
Lemma written_unique s f g : written s f -> written s g -> f = g.
Proof. rewrite !written_strip, <- !grammar_parse_iff. congruence. Qed.

Lemma parse_proper s f : proper s f -> exists c, parse_compound (strip (text_of s)) = Ok c /\
   (forall w, lin w (compound_count c) = formula_lin w f) /\ compound_syms c = symbols f.
Proof.
  intros [H K]. apply written_strip in H. apply grammar_parse_iff in H. unfold parse_compound. rewrite H. cbn [bind].
  pose proof (visit_compound_spec (fun _ => 0%Qc) f) as V0.
  assert (V : forall w, match visit_compound f with Ok c => lin w (compound_count c) = formula_lin w f | Err _ => True end).
  { intros w. pose proof (visit_compound_spec w f) as X. destruct (visit_compound f); tauto. }
  destruct (visit_compound f) as [c|e]; [|tauto]. exists c. repeat split; auto. apply V0.
Qed.

Lemma parse_ok s c : parse_compound (strip (text_of s)) = Ok c -> exists f, proper s f.
Proof.
  unfold parse_compound. destruct (grammar_parse (strip (text_of s))) as [f|] eqn:E; cbn [bind]; [|discriminate]. intros H.
  exists f. split; [now apply written_strip, grammar_parse_iff|]. pose proof (visit_compound_spec (fun _ => 0%Qc) f) as V. rewrite H in V. tauto.
Qed.
Lemma parse_unknown s f : written s f -> ~ all_known f -> parse_compound (strip (text_of s)) = Err VisitationError.
Proof.
  intros H K. apply written_strip in H. apply grammar_parse_iff in H. unfold parse_compound. rewrite H. cbn [bind].
  pose proof (visit_compound_spec (fun _ => 0%Qc) f) as V. destruct (visit_compound f) as [c|e]; [tauto|]. destruct V as [-> _]. reflexivity.
Qed.
Lemma parse_syntax s : (forall f, ~ written s f) -> parse_compound (strip (text_of s)) = Err ParseError.
Proof.
  intros H. unfold parse_compound. destruct (grammar_parse (strip (text_of s))) as [f|e] eqn:E; cbn [bind].
  - exfalso. apply (H f). now apply written_strip, grammar_parse_iff.
  - apply grammar_parse_err in E. now subst.
Qed.

Lemma written_nonempty s f : written s f -> text_of s <> [].
Proof.
  intros (l & t & r & E & _ & _ & H). rewrite E. destruct (gen_compound_nospace _ _ H) as [_ H2]. intros X. apply H2.
  apply app_eq_nil in X as [_ X]. now apply app_eq_nil in X as [X _].
Qed.
Lemma molar_mass_unfold s : text_of s <> [] -> molar_mass (Some s) = do p <- parse_compound (strip (text_of s)); compound_molar_mass p.
Proof. unfold molar_mass. destruct (text_of s); [congruence|reflexivity]. Qed.

Lemma molar_mass_proper s f : proper s f -> molar_mass (Some s) = Ok (weight (fun e => atoms e f)).
Proof.
  intros H. rewrite molar_mass_unfold by (eapply written_nonempty, H). destruct (parse_proper _ _ H) as (c & -> & L & S). cbn [bind].
  rewrite molar_mass_lin, L, weight_formula; auto; [apply H|]. intros e. rewrite S. apply H.
Qed.
Lemma coefficient_proper s f el : proper s f -> stoichiometry_coefficient s el = Ok (q_of_Z (atoms el f)).
Proof.
  intros H. unfold stoichiometry_coefficient. destruct (parse_proper _ _ H) as (c & -> & L & S). cbn [bind].
  rewrite get_count_lin, L, indicator_formula; auto. apply nodup_part.
Qed.
Lemma coefficients_proper s f els : proper s f -> stoichiometry_coefficients s els = Ok (map (fun e => q_of_Z (atoms e f)) els).
Proof.
  intros H. unfold stoichiometry_coefficients. destruct (parse_proper _ _ H) as (c & -> & L & S). cbn [bind]. f_equal.
  apply map_ext. intros e. rewrite get_count_lin, L, indicator_formula; auto. apply nodup_part.
Qed.
