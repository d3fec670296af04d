(** Shared activities: paths. *)
From Coq Require Import Permutation.
From Verif Require Import Prelude M_Dates M_Accounts M_Ledger M_Business M_Shared Spec_Shared Spec_Business P_Business P_Shared.
Local Open Scope string_scope.
Local Open Scope list_scope.

(** * What changes of which places *)
Definition Sub (X x y : list nat) : Prop := exists z, Permutation (y ++ X) (x ++ z).
Lemma sub_refl X x : Sub X x x.
Proof. exists X. reflexivity. Qed.
Lemma sub_nil_trans x y z : Sub [] x y -> Sub [] y z -> Sub [] x z.
Proof. intros [a A] [b B]. rewrite app_nil_r in *. exists (a ++ b). rewrite app_nil_r, B, A, <- app_assoc. reflexivity. Qed.
Lemma sub_in X x y i : Sub X x y -> In i x -> In i y \/ In i X.
Proof. intros [z P] I. apply in_app_or. apply (Permutation_in i (Permutation_sym P)). apply in_or_app. auto. Qed.
Lemma sub_nodup X x y : Sub X x y -> NoDup (y ++ X) -> NoDup x.
Proof. intros [z P] N. apply (Permutation_NoDup P) in N. clear P. induction x as [|a x IH]; [constructor|]. cbn [app] in N. inversion N as [|? ? A B]; subst. constructor; auto. intros I. apply A, in_or_app; now left. Qed.
Lemma sub_ctx X x y a b : Sub X x y -> Sub X (a ++ x ++ b) (a ++ y ++ b).
Proof.
  intros [z P]. exists z. rewrite <- !app_assoc. apply Permutation_app_head. rewrite (Permutation_app_comm b X), app_assoc, P, <- app_assoc. apply Permutation_app_head, Permutation_app_comm.
Qed.
Lemma sub_drop X a x y : Sub X x y -> Sub X x (a ++ y).
Proof. intros [z P]. exists (z ++ a). rewrite <- app_assoc, P, (app_assoc x z a). apply Permutation_app_comm. Qed.
Lemma nodup_parts {A} (x y : list A) : NoDup (x ++ y) -> NoDup x /\ NoDup y /\ forall i, In i x -> ~ In i y.
Proof.
  induction x as [|i x IH]; intros N; cbn [app] in N; [split; [constructor|split; auto]|]. inversion N as [|? ? A0 B]; subst. destruct (IH B) as (C & D & E). split; [constructor; auto; intros I; apply A0, in_or_app; now left|].
  split; auto. intros j [<-|J]; auto. intros I. apply A0, in_or_app. now right.
Qed.

Section At.
Context {A : Type} (refsA : A -> list nat).
Lemma at_nth_sub X f i : (forall a, Sub X (refsA (f a)) (refsA a)) -> forall l, Sub X (flat_map refsA (at_nth f i l)) (flat_map refsA l).
Proof.
  intros F. induction i as [|i IH]; intros [|a l]; cbn [at_nth flat_map]; try apply sub_refl.
  - apply (sub_ctx X _ _ [] (flat_map refsA l)), F.
  - specialize (IH l). apply (sub_ctx X _ _ (refsA a) []) in IH. rewrite !app_nil_r in IH. exact IH.
Qed.
Lemma remove_last_sub f : forall l, Sub [] (flat_map refsA (remove_last f l)) (flat_map refsA l).
Proof.
  induction l as [|a l IH]; cbn [remove_last flat_map]; [apply sub_refl|]. destruct (f a && negb (existsb f l)); cbn [flat_map]; [apply sub_drop, sub_refl|].
  apply (sub_ctx [] _ _ (refsA a) []) in IH. rewrite !app_nil_r in IH. exact IH.
Qed.
End At.
Lemma remove_last_in {A} f (l : list A) x : In x (remove_last f l) -> In x l.
Proof. induction l as [|a l IH]; cbn [remove_last]; auto. destruct (f a && negb (existsb f l)); [right; auto|]. intros [<-|I]; [now left|right; auto]. Qed.
Lemma at_nth_in {A} (f : A -> A) i : forall l x, In x (at_nth f i l) -> In x l \/ exists y, nth_error l i = Some y /\ x = f y.
Proof. induction i as [|i IH]; intros [|a l] x I; cbn [at_nth nth_error] in *; auto; destruct I as [<-|I]; try (left; now left); try (right; eauto; fail). left; now right. destruct (IH l x I) as [?|?]; auto. left; now right. Qed.

Lemma refs_set_parent k : forall v, refs (scomp_set_parent v k) = refs k.
Proof.
  induction k as [n pp p ss aa IH] using scomp_ind'. intros v. cbn [scomp_set_parent refs]. f_equal.
  induction IH as [|s ss S F IHs]; cbn [map flat_map]; auto. rewrite S. f_equal. exact IHs.
Qed.
Lemma refs_set_name n k : refs (scomp_set_name n k) = refs k.
Proof. destruct k as [m pp p ss aa]. cbn [scomp_set_name refs]. f_equal. induction ss as [|s ss IH]; cbn [map flat_map]; auto. now rewrite refs_set_parent, IH. Qed.
Lemma refs_create n k : refs (s_create_component n k) = refs k.
Proof. destruct k as [m pp p ss aa]. cbn [s_create_component refs]. rewrite flat_map_app. cbn. now rewrite app_nil_r. Qed.
Lemma refs_remove n k : Sub [] (refs (s_remove_component n k)) (refs k).
Proof. destruct k as [m pp p ss aa]. cbn [s_remove_component refs]. apply (sub_ctx [] _ _ [] aa), remove_last_sub. Qed.
Lemma scomp_at_sub X f : (forall k, Sub X (refs (f k)) (refs k)) -> forall addr k, Sub X (refs (scomp_at addr f k)) (refs k).
Proof.
  intros F. induction addr as [|i r IH]; intros k; cbn [scomp_at]; auto. destruct k as [n pp p ss aa]. cbn [refs].
  apply (sub_ctx X _ _ [] aa), at_nth_sub, IH.
Qed.
Lemma parents_refs k : map fst (parents k) = refs k.
Proof.
  induction k as [n pp p ss aa IH] using scomp_ind'. cbn [parents refs]. rewrite map_app, map_map. cbn [fst]. rewrite map_id. f_equal.
  induction IH as [|s ss S F IHs]; cbn [flat_map map]; auto. rewrite map_app, S, IHs. reflexivity.
Qed.
Lemma parents_all ks : map fst (flat_map parents ks) = flat_map refs ks.
Proof. induction ks as [|k ks IH]; cbn [flat_map map]; auto. now rewrite map_app, parents_refs, IH. Qed.

(** * Assignments *)
Lemma assign_len ws : forall h, length (assign ws h) = length h.
Proof. unfold assign. induction ws as [|w ws IH]; intros h; cbn [fold_left]; auto. rewrite IH. apply hset_len. Qed.
Lemma assign_other ws : forall h i, ~ In i (map fst ws) -> hget (assign ws h) i = hget h i.
Proof. unfold assign. induction ws as [|w ws IH]; intros h i N; cbn [fold_left map] in *; auto. rewrite IH by (intros Q; apply N; now right). apply hget_other. intros Q. apply N. now left. Qed.
Lemma assign_in ws : forall h i v, NoDup (map fst ws) -> inb h (map fst ws) -> In (i, v) ws -> hget (assign ws h) i = act_set_parent v (hget h i).
Proof.
  unfold assign. induction ws as [|[j w] ws IH]; intros h i v N B I; cbn [fold_left map fst snd] in *; [destruct I|]. inversion N as [|? ? A N']; subst. destruct I as [E|I].
  - injection E as -> ->. fold (assign ws (hset h i (act_set_parent v (hget h i)))). rewrite assign_other by auto. apply hget_same, B. now left.
  - rewrite (IH _ i v N'); auto.
    + rewrite hget_other; auto. intros ->. apply A. apply in_map_iff. exists (i, v). auto.
    + intros x X. rewrite hset_len. apply B. now right.
Qed.

(** * Coherent paths *)
Definition okA (h : heap) (p : string) (i : nat) : Prop := ac_ppath (hget h i) = p /\ ac_path (hget h i) = (p ++ "/" ++ ac_name (hget h i))%string.
Inductive okC (h : heap) : string -> scomp -> Prop :=
  okC_i v n ss aa : Forall (okC h (v ++ "/" ++ n)%string) ss -> Forall (okA h (v ++ "/" ++ n)%string) aa -> okC h v (SComp n v (v ++ "/" ++ n)%string ss aa).
Lemma okC_inv h v n pp p ss aa : okC h v (SComp n pp p ss aa) -> pp = v /\ p = (v ++ "/" ++ n)%string /\ Forall (okC h p) ss /\ Forall (okA h p) aa.
Proof. inversion 1; subst. auto. Qed.
Lemma okC_mk h v n p ss aa : p = (v ++ "/" ++ n)%string -> Forall (okC h p) ss -> Forall (okA h p) aa -> okC h v (SComp n v p ss aa).
Proof. intros ->. constructor; auto. Qed.
Lemma okA_keep h h' p i : hget h' i = hget h i -> okA h p i -> okA h' p i.
Proof. unfold okA. intros ->. auto. Qed.
(** The heaps agree but for names and where paths are assigned coherently. *)
Definition fine (h h' : heap) (ids : list nat) : Prop := forall i p, In i ids -> okA h p i -> okA h' p i.
Lemma okC_fine h h' k : fine h h' (refs k) -> forall v, okC h v k -> okC h' v k.
Proof.
  induction k as [n pp p ss aa IH] using scomp_ind'. intros E v O. apply okC_inv in O as (-> & -> & O1 & O2). cbn [refs] in E. apply okC_mk; auto.
  - rewrite Forall_forall in *. intros k K. apply IH; auto. intros i q I. apply E, in_or_app. left. apply in_flat_map. eauto.
  - rewrite Forall_forall in *. intros i I. apply E; auto. apply in_or_app. now right.
Qed.
Lemma fine_same h h' ids : (forall i, In i ids -> hget h' i = hget h i) -> fine h h' ids.
Proof. intros E i p I. apply okA_keep. auto. Qed.
Lemma fine_sub h h' a b : incl a b -> fine h h' b -> fine h h' a.
Proof. intros I F i p J. apply F, I, J. Qed.

Lemma okC_parented k : forall v h, (forall i p, In (i, p) (parents (scomp_set_parent v k)) -> okA h p i) -> okC h v (scomp_set_parent v k).
Proof.
  induction k as [n pp p ss aa IH] using scomp_ind'. intros v h H. cbn [scomp_set_parent parents] in *. apply okC_mk; auto.
  - rewrite Forall_forall. intros k' K'. apply in_map_iff in K' as (k & <- & K). rewrite Forall_forall in IH. apply IH; auto. intros i q I. apply H, in_or_app. left. apply in_flat_map. eexists. split; [apply in_map, K|exact I].
  - rewrite Forall_forall. intros i I. apply H, in_or_app. right. apply in_map_iff. eauto.
Qed.
Lemma okC_named n k v h : (forall i p, In (i, p) (parents (scomp_set_name n k)) -> okA h p i) -> (exists m p ss aa, k = SComp m v p ss aa) -> okC h v (scomp_set_name n k).
Proof.
  intros H (m & p & ss & aa & ->). cbn [scomp_set_name parents] in *. apply okC_mk; auto.
  - rewrite Forall_forall. intros k' K'. apply in_map_iff in K' as (k & <- & K). apply okC_parented. intros i q I. apply H, in_or_app. left. apply in_flat_map. eexists. split; [apply in_map, K|exact I].
  - rewrite Forall_forall. intros i I. apply H, in_or_app. right. apply in_map_iff. eauto.
Qed.
Lemma assigned_ok ws h : NoDup (map fst ws) -> inb h (map fst ws) -> forall i p, In (i, p) ws -> okA (assign ws h) p i.
Proof. intros N B i p I. unfold okA. rewrite (assign_in _ _ _ _ N B I). split; reflexivity. Qed.

(** One component is changed. *)
Lemma at_nth_found {A} (f : A -> A) i : forall l x, nth_error l i = Some x -> exists a b, l = a ++ x :: b /\ at_nth f i l = a ++ f x :: b.
Proof. induction i as [|i IH]; intros [|y l] x E; cbn [nth_error] in E; try discriminate; [injection E as ->; exists [], l; auto|]. destruct (IH l x E) as (a & b & -> & F). exists (y :: a), b. cbn [at_nth app]. rewrite F. auto. Qed.
Section Change.
Variables (h h' : heap) (k0 : scomp) (f : scomp -> scomp) (X : list nat).
Hypothesis change : forall i, ~ In i (refs k0) -> ~ In i X -> hget h' i = hget h i.
Hypothesis good : forall w, okC h w k0 -> okC h' w (f k0).
Lemma found_ok : forall addr ss i v, scomp_find addr ss i = Some k0 -> NoDup (flat_map refs ss) -> (forall j, In j X -> ~ In j (flat_map refs ss)) -> Forall (okC h v) ss ->
  Forall (okC h' v) (at_nth (scomp_at addr f) i ss).
Proof.
  induction addr as [|j r IH]; intros ss i v E N D O; cbn [scomp_find] in E; destruct (nth_error ss i) as [[n pp p ss' aa]|] eqn:En; try discriminate.
  - injection E as E. destruct (at_nth_found (scomp_at [] f) _ _ _ En) as (a & b & -> & ->). rewrite E in *. rewrite flat_map_app in N, D. cbn [flat_map] in *.
    apply nodup_parts in N as (Na & N & D1). apply nodup_parts in N as (_ & Nb & D2). apply Forall_app in O as [Oa O]. inversion O as [|? ? O0 Ob]; subst.
    apply Forall_app. split; [|constructor; [apply good, O0|]].
    + rewrite Forall_forall in *. intros k K. apply (okC_fine h); auto. apply fine_same. intros x I. assert (I' : In x (flat_map refs a)) by (apply in_flat_map; eauto). apply change; intros Q; [apply (D1 x I'), in_or_app; now left|apply (D x Q), in_or_app; now left].
    + rewrite Forall_forall in *. intros k K. apply (okC_fine h); auto. apply fine_same. intros x I. assert (I' : In x (flat_map refs b)) by (apply in_flat_map; eauto). apply change; intros Q; [apply (D2 x Q I')|apply (D x Q), in_or_app; right; apply in_or_app; now right].
  - destruct (at_nth_found (scomp_at (j :: r) f) _ _ _ En) as (a & b & -> & ->). rewrite flat_map_app in N, D. cbn [flat_map refs] in *.
    apply nodup_parts in N as (Na & N & D1). apply nodup_parts in N as (Nk & Nb & D2). apply nodup_parts in Nk as (Ns & Naa & D3). apply Forall_app in O as [Oa O]. inversion O as [|? ? O0 Ob]; subst.
    assert (K0 : incl (refs k0) (flat_map refs ss')).
    { clear -E. revert ss' j E. induction r as [|j' r IH]; intros ss' j E; cbn [scomp_find] in E; destruct (nth_error ss' j) as [[n pp p ss aa]|] eqn:En; try discriminate; apply nth_error_In in En.
      - injection E as <-. intros x I. apply in_flat_map. eauto.
      - intros x I. apply in_flat_map. eexists. split; [exact En|]. cbn [refs]. apply in_or_app. left. apply (IH _ _ E x I). }
    assert (C : forall x, In x (flat_map refs a) \/ In x aa \/ In x (flat_map refs b) -> hget h' x = hget h x).
    { intros x H. apply change; intros Q.
      - apply K0 in Q. destruct H as [H|[H|H]]; [apply (D1 x H), in_or_app; left; apply in_or_app; now left|apply (D3 x Q H)|apply (D2 x (in_or_app _ _ _ (or_introl Q)) H)].
      - apply (D x Q). apply in_or_app. destruct H as [H|[H|H]]; [now left|right; apply in_or_app; left; apply in_or_app; now right|right; apply in_or_app; now right]. }
    apply Forall_app. split; [|constructor].
    + rewrite Forall_forall in *. intros k K. apply (okC_fine h); auto. apply fine_same. intros x I. apply C. left. apply in_flat_map; eauto.
    + cbn [scomp_at]. apply okC_inv in O0 as (-> & -> & O1 & O2). apply okC_mk; auto.
      * apply IH; auto. intros x Q I. apply (D x Q), in_or_app. right. apply in_or_app. left. apply in_or_app. now left.
      * rewrite Forall_forall in *. intros x I. apply (okA_keep h); auto.
    + rewrite Forall_forall in *. intros k K. apply (okC_fine h); auto. apply fine_same. intros x I. apply C. right. right. apply in_flat_map; eauto.
Qed.
End Change.

(** * The invariant *)
Definition okE (h : heap) (e : sentity) : Prop := se_path e = (se_ppath e ++ "/" ++ se_name e)%string /\ Forall (okC h (se_path e)) (se_comps e).
Record inv (s : shared) (added : list nat) : Prop := {
  inv_in : incl (places s) added;
  inv_nodup : NoDup (places s);
  inv_bound : inb (sh_acts s) added;
  inv_ok : Forall (okE (sh_acts s)) (sh_ents s) }.
Lemma okE_fine h h' e : fine h h' (srefs e) -> okE h e -> okE h' e.
Proof. intros F (P & O). split; auto. rewrite Forall_forall in *. intros k K. apply (okC_fine h); auto. apply (fine_sub _ _ _ (srefs e)); auto. intros i I. apply in_flat_map. eauto. Qed.
Lemma places_srefs s : places s = flat_map srefs (sh_ents s).
Proof. reflexivity. Qed.
Lemma okE_all h h' es : fine h h' (flat_map srefs es) -> Forall (okE h) es -> Forall (okE h') es.
Proof. intros F O. rewrite Forall_forall in *. intros e E. apply (okE_fine h); auto. apply (fine_sub _ _ _ (flat_map srefs es)); auto. intros i I. apply in_flat_map. eauto. Qed.

(** Places only get fewer, or one more. *)
Lemma inv_places s s' added X : inv s added -> Sub X (places s') (places s) -> (forall i, In i X -> ~ In i added) -> NoDup X ->
  inb (sh_acts s') (added ++ X) -> Forall (okE (sh_acts s')) (sh_ents s') -> inv s' (added ++ X).
Proof.
  intros [I N B O] S D NX B' O'. split; auto.
  - intros i J. apply (sub_in _ _ _ _ S) in J. apply in_or_app. destruct J; auto.
  - apply (sub_nodup _ _ _ S). clear -I N D NX. induction (places s) as [|a l IH]; cbn [app]; auto. inversion N as [|? ? A B]; subst. constructor.
    + intros Q. apply in_app_or in Q as [Q|Q]; [auto|]. apply (D a Q), I. now left.
    + apply IH; auto. intros x Q. apply I. now right.
Qed.
Lemma inv_same s s' added : inv s added -> Sub [] (places s') (places s) -> length (sh_acts s') = length (sh_acts s) -> Forall (okE (sh_acts s')) (sh_ents s') -> inv s' added.
Proof.
  intros V S L O. rewrite <- (app_nil_r added). apply (inv_places s); auto; try constructor. rewrite app_nil_r. intros i I. rewrite L. apply (inv_bound _ _ V), I.
Qed.
Lemma same_sub x y : x = y -> Sub [] x y.
Proof. intros ->. apply sub_refl. Qed.
Lemma srefs_set_parent v e : srefs (sent_set_parent v e) = srefs e.
Proof. unfold srefs, sent_set_parent. cbn [se_comps]. induction (se_comps e) as [|k ks IH]; cbn [map flat_map]; auto. now rewrite refs_set_parent, IH. Qed.
Lemma srefs_set_name v e : srefs (sent_set_name v e) = srefs e.
Proof. unfold srefs, sent_set_name. cbn [se_comps]. induction (se_comps e) as [|k ks IH]; cbn [map flat_map]; auto. now rewrite refs_set_parent, IH. Qed.
Lemma flat_map_map {A B C} (g : B -> list C) (f : A -> B) l : flat_map g (map f l) = flat_map (fun x => g (f x)) l.
Proof. induction l as [|a l IH]; cbn [map flat_map]; congruence. Qed.
Lemma flat_map_flat_map {A B C} (g : B -> list C) (f : A -> list B) l : flat_map g (flat_map f l) = flat_map (fun x => flat_map g (f x)) l.
Proof. induction l as [|a l IH]; cbn [flat_map]; auto. now rewrite flat_map_app, IH. Qed.
Lemma map_flat_map {A B C} (g : B -> C) (f : A -> list B) l : map g (flat_map f l) = flat_map (fun x => map g (f x)) l.
Proof. induction l as [|a l IH]; cbn [map flat_map]; auto. now rewrite map_app, IH. Qed.
Lemma okE_parented h v e : (forall i p, In (i, p) (flat_map parents (se_comps (sent_set_parent v e))) -> okA h p i) -> okE h (sent_set_parent v e).
Proof.
  intros H. split; [reflexivity|]. rewrite Forall_forall. unfold sent_set_parent in *. cbn [se_comps se_path] in *. intros k' K'. pose proof K' as Q. apply in_map_iff in K' as (k & <- & K).
  apply okC_parented. intros i p I. apply H, in_flat_map. eauto.
Qed.
Lemma okE_named h v e : (forall i p, In (i, p) (flat_map parents (se_comps (sent_set_name v e))) -> okA h p i) -> okE h (sent_set_name v e).
Proof.
  intros H. split; [reflexivity|]. rewrite Forall_forall. unfold sent_set_name in *. cbn [se_comps se_path] in *. intros k' K'. pose proof K' as Q. apply in_map_iff in K' as (k & <- & K).
  apply okC_parented. intros i p I. apply H, in_flat_map. eauto.
Qed.
Lemma okC_new h v n : okC h v (scomp_set_parent v (new_scomp n)).
Proof. apply okC_parented. intros i p []. Qed.
Lemma okC_created h v n k : okC h v k -> okC h v (s_create_component n k).
Proof. destruct k as [m pp p ss aa]. intros O. apply okC_inv in O as (-> & -> & O1 & O2). apply okC_mk; auto. apply Forall_app. split; auto. constructor; [apply okC_new|constructor]. Qed.
Lemma okC_removed h v n k : okC h v k -> okC h v (s_remove_component n k).
Proof. destruct k as [m pp p ss aa]. intros O. apply okC_inv in O as (-> & -> & O1 & O2). apply okC_mk; auto. rewrite Forall_forall in *. intros k K. apply O1. eapply remove_last_in, K. Qed.
Lemma at_nth_all {A} (P : A -> Prop) f i : (forall a, P a -> P (f a)) -> forall l, Forall P l -> Forall P (at_nth f i l).
Proof. intros F. induction i as [|i IH]; intros [|a l] O; cbn [at_nth]; auto; inversion O; subst; constructor; auto. Qed.
Lemma scomp_at_all h f : (forall v k, okC h v k -> okC h v (f k)) -> forall addr v k, okC h v k -> okC h v (scomp_at addr f k).
Proof. intros F. induction addr as [|i r IH]; intros v k O; cbn [scomp_at]; auto. destruct k as [n pp p ss aa]. apply okC_inv in O as (-> & -> & O1 & O2). apply okC_mk; auto. apply at_nth_all; auto. Qed.

(** An entity's component changes together with the activities. *)
Lemma inv_change s added e i addr f k0 h' X : inv s added -> comp_of e i addr s = Some k0 ->
  (forall j, ~ In j (refs k0) -> ~ In j X -> hget h' j = hget (sh_acts s) j) -> (forall w, okC (sh_acts s) w k0 -> okC h' w (f k0)) ->
  (forall j, In j X -> ~ In j (places s)) ->
  Forall (okE h') (at_comp e i addr f s).
Proof.
  intros [I N B O] E C G D. unfold comp_of in E. destruct (nth_error (sh_ents s) e) as [x|] eqn:En; [|discriminate]. unfold at_comp.
  destruct (at_nth_found (fun x => with_scomps x (at_nth (scomp_at addr f) i (se_comps x))) _ _ _ En) as (a & b & Ea & ->).
  rewrite places_srefs in N, D. rewrite Ea in N, D, O. rewrite flat_map_app in N, D. cbn [flat_map] in N, D. apply nodup_parts in N as (Na & N & D1). apply nodup_parts in N as (Nx & Nb & D2). apply Forall_app in O as [Oa O]. inversion O as [|? ? Ox Ob]; subst.
  assert (K0 : incl (refs k0) (srefs x)).
  { clear -E. unfold srefs. revert E. generalize (se_comps x). revert i. induction addr as [|j' r IH]; intros j ss' E; cbn [scomp_find] in E; destruct (nth_error ss' j) as [[n pp p ss aa]|] eqn:En; try discriminate; apply nth_error_In in En.
    - injection E as <-. intros y I. apply in_flat_map. eauto.
    - intros y I. apply in_flat_map. eexists. split; [exact En|]. cbn [refs]. apply in_or_app. left. apply (IH _ _ E y I). }
  apply Forall_app. split; [|constructor].
  - apply (okE_all (sh_acts s)); auto. apply fine_same. intros y Y. apply C; intros Q; [apply (D1 y Y), in_or_app; left; auto|apply (D y Q), in_or_app; now left].
  - destruct Ox as [P Ox]. split; [exact P|]. cbn [se_comps se_path with_scomps]. apply (found_ok (sh_acts s) h' k0 f X); auto. intros j Q J. apply (D j Q), in_or_app. right. apply in_or_app. now left.
  - apply (okE_all (sh_acts s)); auto. apply fine_same. intros y Y. apply C; intros Q; [apply (D2 y (K0 y Q) Y)|apply (D y Q), in_or_app; right; apply in_or_app; now right].
Qed.
Lemma comp_of_refs s e i addr k0 : comp_of e i addr s = Some k0 -> exists a b, places s = a ++ refs k0 ++ b.
Proof.
  unfold comp_of. destruct (nth_error (sh_ents s) e) as [x|] eqn:En; [|discriminate]. intros E.
  assert (K0 : exists a b, srefs x = a ++ refs k0 ++ b).
  { clear -E. unfold srefs. revert E. generalize (se_comps x). revert i. induction addr as [|j' r IH]; intros j ss' E; cbn [scomp_find] in E; destruct (nth_error ss' j) as [[n pp p ss aa]|] eqn:En; try discriminate; apply nth_error_split in En as (l1 & l2 & -> & _).
    - injection E as <-. rewrite flat_map_app. cbn [flat_map]. eauto.
    - destruct (IH _ _ E) as (a & b & Q). rewrite flat_map_app. cbn [flat_map refs]. rewrite Q. exists (flat_map refs l1 ++ a), (b ++ aa ++ flat_map refs l2). rewrite <- !app_assoc. reflexivity. }
  destruct K0 as (a & b & Q). apply nth_error_split in En as (l1 & l2 & Es & _). rewrite places_srefs, Es, flat_map_app. cbn [flat_map]. rewrite Q. exists (flat_map srefs l1 ++ a), (b ++ flat_map srefs l2). rewrite <- !app_assoc. reflexivity.
Qed.
Lemma at_comp_sub X s e i addr f : (forall k, Sub X (refs (f k)) (refs k)) -> Sub X (flat_map srefs (at_comp e i addr f s)) (places s).
Proof. intros F. unfold at_comp. rewrite places_srefs. apply at_nth_sub. intros x. unfold srefs. cbn [se_comps with_scomps]. apply at_nth_sub, scomp_at_sub, F. Qed.

Definition adds (o : shared_op) : list nat := match o with SAdd _ _ _ a => [a] | _ => [] end.
Definition add_ref (a : nat) (k : scomp) : scomp := let 'SComp nm pp p ss aa := k in SComp nm pp p ss (aa ++ [a]).
Lemma inv_step s o added : inv s added -> (forall i, In i (adds o) -> ~ In i added) -> exists added', inv (shared_step s o) added' /\ incl added' (added ++ adds o).
Proof.
  intros V D. pose proof V as [I N B O]. destruct o; cbn [shared_step adds] in *; rewrite ?app_nil_r.
  - (* new activity *) exists added. split; [|apply incl_refl].
    assert (S : forall i, In i added -> hget (sh_acts s ++ [a]) i = hget (sh_acts s) i) by (intros i J; unfold hget; apply app_nth1, B, J).
    split; auto.
    + cbn [sh_acts with_ents]. intros i J. rewrite app_length. apply B in J. lia.
    + cbn [sh_acts sh_ents with_ents]. apply (okE_all (sh_acts s)); auto. apply fine_same. intros i J. apply S, I, J.
  - (* activity renamed *) exists added. split; [|apply incl_refl]. apply (inv_same s); auto; [apply sub_refl|apply hset_len|]. cbn [sh_acts sh_ents with_ents]. apply (okE_all (sh_acts s)); auto.
    intros j p J (P & Q). destruct (Nat.eq_dec i j) as [<-|Ne]; [|unfold okA; rewrite hget_other; auto]. unfold okA. rewrite hget_same by (apply B, I, J). cbn. rewrite P. auto.
  - exists added. split; [|apply incl_refl]. split; auto.
  - exists added. split; [|apply incl_refl]. split; auto.
  - (* model renamed *) exists added. split; [|apply incl_refl].
    set (es := map (sent_set_parent n) (sh_ents s)). set (ws := flat_map (fun e => flat_map parents (se_comps e)) es).
    assert (Ep : flat_map srefs es = places s).
    { unfold es. rewrite flat_map_map. apply flat_map_ext. intros e. apply srefs_set_parent. }
    assert (Ew : map fst ws = places s).
    { unfold ws. rewrite map_flat_map. rewrite <- Ep. apply flat_map_ext. intros e. apply parents_all. }
    apply (inv_same s); auto; [apply same_sub; exact Ep|apply assign_len|]. cbn [sh_acts sh_ents].
    assert (K : forall i p, In (i, p) ws -> okA (assign ws (sh_acts s)) p i) by (apply assigned_ok; rewrite Ew; auto; intros i J; apply B, I, J).
    rewrite Forall_forall. intros e' E'. pose proof E' as Q. unfold es in E'. apply in_map_iff in E' as (e & <- & E). apply okE_parented. intros i p J. apply K. unfold ws. apply in_flat_map. eauto.
  - destruct (Nat.ltb b _); [|exists added; split; [auto|apply incl_refl]]. exists added. split; [|apply incl_refl]. apply (inv_same s); auto.
    + apply same_sub. rewrite places_srefs. cbn [sh_ents with_ents]. rewrite flat_map_app. cbn. apply app_nil_r.
    + cbn [sh_acts sh_ents with_ents]. apply Forall_app. split; auto. constructor; [|constructor]. split; [reflexivity|constructor].
  - exists added. split; [|apply incl_refl]. apply (inv_same s); auto; [apply (remove_last_sub srefs)|]. cbn [sh_acts sh_ents with_ents]. rewrite Forall_forall in *. intros e E. apply O. eapply remove_last_in, E.
  - (* entity renamed *) exists added. split; [|apply incl_refl]. set (es := at_nth (sent_set_name n) e (sh_ents s)).
    assert (Ep : flat_map srefs es = places s).
    { unfold es. rewrite places_srefs. clear. revert e. induction (sh_ents s) as [|x l IH]; intros [|e]; cbn [at_nth flat_map]; auto; [now rewrite srefs_set_name|now rewrite IH]. }
    apply (inv_same s); auto; [apply same_sub; exact Ep|apply assign_len|]. cbn [sh_acts sh_ents with_ents].
    destruct (nth_error (sh_ents s) e) as [x|] eqn:En.
    + destruct (at_nth_found (sent_set_name n) _ _ _ En) as (a & b & Es & Ee). fold es in Ee.
      assert (Ex : nth_error es e = Some (sent_set_name n x)).
      { unfold es. clear -En. revert En. generalize (sh_ents s). induction e as [|e IH]; intros [|y l] H; cbn [nth_error at_nth] in *; try discriminate; [congruence|]. apply IH, H. }
      rewrite Ex. set (ws := flat_map parents (se_comps (sent_set_name n x))).
      assert (Ew : map fst ws = srefs x) by (unfold ws; rewrite parents_all; apply (srefs_set_name n)).
      pose proof N as N'. rewrite places_srefs, Es, flat_map_app in N'. cbn [flat_map] in N'. apply nodup_parts in N' as (Na & N' & D1). apply nodup_parts in N' as (Nx & Nb & D2).
      assert (Bx : inb (sh_acts s) (srefs x)).
      { intros i J. apply B, I. rewrite places_srefs, Es, flat_map_app. apply in_or_app. right. cbn. apply in_or_app. now left. }
      rewrite Ee. rewrite Es in O. apply Forall_app in O as [Oa O]. inversion O as [|? ? Ox Ob]; subst. apply Forall_app. split; [|constructor].
      * apply (okE_all (sh_acts s)); auto. apply fine_same. intros i J. apply assign_other. rewrite Ew. intros Q. apply (D1 i J), in_or_app. now left.
      * apply okE_named. fold ws. apply assigned_ok; rewrite Ew; auto.
      * apply (okE_all (sh_acts s)); auto. apply fine_same. intros i J. apply assign_other. rewrite Ew. intros Q. apply (D2 i Q J).
    + assert (Es : es = sh_ents s). { unfold es. clear -En. revert En. generalize (sh_ents s). induction e as [|e IH]; intros [|y l] H; cbn [nth_error at_nth] in *; try discriminate; auto. now rewrite IH. }
      rewrite Es, En. exact O.
  - exists added. split; [|apply incl_refl]. apply (inv_same s); auto.
    + rewrite places_srefs. cbn [sh_ents with_ents]. rewrite places_srefs. apply at_nth_sub. intros x. unfold srefs. cbn. rewrite flat_map_app. cbn. rewrite app_nil_r. apply sub_refl.
    + cbn [sh_acts sh_ents with_ents]. apply at_nth_all; auto. intros x [P Ox]. split; auto. cbn [se_comps with_scomps sent_create_component se_path]. apply Forall_app. split; auto. constructor; [apply okC_new|constructor].
  - exists added. split; [|apply incl_refl]. apply (inv_same s); auto.
    + rewrite places_srefs. cbn [sh_ents with_ents]. rewrite places_srefs. apply at_nth_sub. intros x. unfold srefs. cbn. apply remove_last_sub.
    + cbn [sh_acts sh_ents with_ents]. apply at_nth_all; auto. intros x [P Ox]. split; auto. cbn [se_comps with_scomps sent_remove_component se_path]. rewrite Forall_forall in *. intros k K. apply Ox. eapply remove_last_in, K.
  - (* component renamed *) exists added. split; [|apply incl_refl]. destruct (comp_of e i addr s) as [k0|] eqn:E; [|auto]. apply (inv_same s); auto; [|apply assign_len|].
    + apply at_comp_sub. intros k. rewrite refs_set_name. apply sub_refl.
    + cbn [sh_acts sh_ents with_ents]. set (ws := parents (scomp_set_name n k0)). assert (Ew : map fst ws = refs k0) by (unfold ws; rewrite parents_refs; apply refs_set_name).
      destruct (comp_of_refs _ _ _ _ _ E) as (a & b & Q). pose proof N as N'. rewrite Q in N'. apply nodup_parts in N' as (_ & N' & _). apply nodup_parts in N' as (Nk & _ & _).
      apply (inv_change s added e i addr (scomp_set_name n) k0 _ []); auto.
      * intros j J _. apply assign_other. rewrite Ew. exact J.
      * intros w Ok. apply okC_named; [|destruct k0 as [m pp p ss aa]; apply okC_inv in Ok as (-> & _); eauto]. apply assigned_ok; fold ws; rewrite Ew; auto. intros j J. apply B, I. rewrite Q. apply in_or_app. right. apply in_or_app. now left.
  - exists added. split; [|apply incl_refl]. apply (inv_same s); auto.
    + apply at_comp_sub. intros k. rewrite refs_create. apply sub_refl.
    + cbn [sh_acts sh_ents with_ents]. apply at_nth_all; auto. intros x [P Ox]. split; auto. cbn [se_comps with_scomps se_path]. apply at_nth_all; auto. intros k. apply scomp_at_all. intros v k'. apply okC_created.
  - exists added. split; [|apply incl_refl]. apply (inv_same s); auto.
    + apply at_comp_sub. intros k. apply refs_remove.
    + cbn [sh_acts sh_ents with_ents]. apply at_nth_all; auto. intros x [P Ox]. split; auto. cbn [se_comps with_scomps se_path]. apply at_nth_all; auto. intros k. apply scomp_at_all. intros v k'. apply okC_removed.
  - (* an activity is added *)
    destruct (nth_error (sh_ents s) e) as [x|]; [|exists added; split; [auto|intros j J; apply in_or_app; now left]].
    destruct (comp_of e i addr s) as [k0|] eqn:E; [|exists added; split; [auto|intros j J; apply in_or_app; now left]].
    destruct (Nat.ltb_spec a (length (sh_acts s))) as [L|L]; cbn [negb]; [|exists added; split; [auto|intros j J; apply in_or_app; now left]].
    destruct (validate_account_names _ _); [|exists added; split; [auto|intros j J; apply in_or_app; now left]].
    exists (added ++ [a]). split; [|apply incl_refl].
    assert (Da : ~ In a added) by (apply D; now left).
    apply (inv_places s); auto.
    + apply at_comp_sub. intros [nm pp p ss aa]. cbn [refs]. exists []. rewrite app_nil_r, app_assoc. reflexivity.
    + constructor; [intros []|constructor].
    + cbn [sh_acts with_ents]. intros j J. rewrite assign_len. apply in_app_or in J as [J|[<-|[]]]; auto.
    + cbn [sh_acts sh_ents with_ents]. apply (inv_change s added e i addr (add_ref a) k0 _ [a]); auto.
      * intros j J Q. apply assign_other. cbn [map fst]. exact Q.
      * intros w Ok. assert (G : forall j, j <> a -> hget (assign [(a, sc_path k0)] (sh_acts s)) j = hget (sh_acts s) j) by (intros j J; apply assign_other; cbn; intros [Q|[]]; auto).
        destruct (comp_of_refs _ _ _ _ _ E) as (a1 & b1 & Q). assert (Ka : ~ In a (refs k0)). { intros J. apply Da, I. rewrite Q. apply in_or_app. right. apply in_or_app. now left. }
        assert (Fk : okC (assign [(a, sc_path k0)] (sh_acts s)) w k0). { apply (okC_fine (sh_acts s)); auto. apply fine_same. intros j J. apply G. intros ->. auto. }
        destruct k0 as [nm pp p ss aa]. apply okC_inv in Fk as (-> & -> & F1 & F2). apply okC_mk; auto. apply Forall_app. split; auto. constructor; [|constructor].
        unfold okA. cbn [sc_path]. rewrite (assign_in _ _ a (w ++ "/" ++ nm)%string); [split; reflexivity|cbn; constructor; [intros []|constructor]|intros j [<-|[]]; auto|now left].
      * intros j [<-|[]] J. apply Da, I, J.
Qed.
Lemma built_inv name start p n ops : added_once ops -> exists added, inv (shared_built name start p n ops) added.
Proof.
  unfold shared_built, added_once. change (fun o => match o with SAdd _ _ _ a => [a] | _ => [] end) with adds. intros N.
  assert (G : forall ops s added, inv s added -> NoDup (flat_map adds ops) -> (forall i, In i added -> ~ In i (flat_map adds ops)) -> exists added', inv (fold_left shared_step ops s) added').
  { clear. induction ops as [|o ops IH]; intros s added V N D; cbn [fold_left flat_map] in *; [eauto|]. apply nodup_parts in N as (No & N & D2).
    destruct (inv_step s o added V) as (added' & V' & In').
    - intros i I J. apply (D i J), in_or_app. now left.
    - apply (IH _ added' V' N). intros i I J. apply In' in I. apply in_app_or in I as [I|I]; [apply (D i I), in_or_app; now right|apply (D2 i I J)]. }
  apply (G ops _ []); auto. split; cbn; auto; try (intros i []); constructor.
Qed.
Lemma okE_under h v l w k : s_under v l w k -> Forall (okC h v) l -> okC h w k.
Proof.
  induction 1 as [v l k I|v l k w d I U IH]; intros F; rewrite Forall_forall in F; [auto|]. apply IH. specialize (F k I). destruct k as [n pp p ss aa]. apply okC_inv in F as (_ & _ & F & _). exact F.
Qed.
Lemma built_paths name start p n ops e : added_once ops -> In e (sh_ents (shared_built name start p n ops)) ->
  se_path e = (se_ppath e ++ "/" ++ se_name e)%string /\
  forall w k, s_under (se_path e) (se_comps e) w k -> sc_path k = (w ++ "/" ++ sc_name k)%string /\
    forall i, In i (sc_acts k) -> let a := hget (sh_acts (shared_built name start p n ops)) i in ac_path a = (sc_path k ++ "/" ++ ac_name a)%string.
Proof.
  intros N I. destruct (built_inv name start p n ops N) as (added & V). destruct V as [_ _ _ O]. rewrite Forall_forall in O. destruct (O e I) as [P Q]. split; auto.
  intros w k U. apply (okE_under _ _ _ _ _ U) in Q. destruct k as [m pp q ss aa]. apply okC_inv in Q as (_ & -> & _ & F). split; [reflexivity|]. intros i J. rewrite Forall_forall in F. apply (F i J).
Qed.

(** Only existing activities are referred to. *)
Lemma sound_step s o : sound s -> sound (shared_step s o).
Proof.
  unfold sound. intros I.
  assert (G : forall s', (length (sh_acts s) <= length (sh_acts s'))%nat -> Sub [] (places s') (places s) -> inb (sh_acts s') (places s')).
  { intros s' L S i J. apply (sub_in _ _ _ _ S) in J as [J|[]]. apply I in J. lia. }
  destruct o; cbn [shared_step].
  - apply G; [cbn; rewrite app_length; lia|apply sub_refl].
  - apply G; [cbn; rewrite hset_len; lia|apply sub_refl].
  - exact I.
  - exact I.
  - apply G; [cbn; rewrite assign_len; lia|]. apply same_sub. rewrite places_srefs. cbn [sh_ents]. rewrite flat_map_map. rewrite places_srefs. apply flat_map_ext. intros e. apply srefs_set_parent.
  - destruct (Nat.ltb b _); [|exact I]. apply G; [auto|]. apply same_sub. rewrite places_srefs. cbn [sh_ents with_ents]. rewrite flat_map_app. cbn. apply app_nil_r.
  - apply G; [auto|]. apply (remove_last_sub srefs).
  - apply G; [cbn; rewrite assign_len; lia|]. rewrite places_srefs. cbn [sh_ents with_ents]. rewrite places_srefs. apply at_nth_sub. intros x. rewrite srefs_set_name. apply sub_refl.
  - apply G; [auto|]. rewrite places_srefs. cbn [sh_ents with_ents]. rewrite places_srefs. apply at_nth_sub. intros x. unfold srefs. cbn. rewrite flat_map_app. cbn. rewrite app_nil_r. apply sub_refl.
  - apply G; [auto|]. rewrite places_srefs. cbn [sh_ents with_ents]. rewrite places_srefs. apply at_nth_sub. intros x. unfold srefs. cbn. apply remove_last_sub.
  - destruct (comp_of e i addr s) as [k0|]; [|exact I]. apply G; [cbn; rewrite assign_len; lia|]. apply at_comp_sub. intros k. rewrite refs_set_name. apply sub_refl.
  - apply G; [auto|]. apply at_comp_sub. intros k. rewrite refs_create. apply sub_refl.
  - apply G; [auto|]. apply at_comp_sub. intros k. apply refs_remove.
  - destruct (nth_error (sh_ents s) e) as [x|]; [|exact I]. destruct (comp_of e i addr s) as [k0|]; [|exact I]. destruct (Nat.ltb_spec a (length (sh_acts s))) as [L|L]; cbn [negb]; [|exact I]. destruct (validate_account_names _ _); [|exact I].
    intros j J. cbn [sh_acts with_ents]. rewrite assign_len. assert (S : Sub [a] (places (with_ents s (assign [(a, sc_path k0)] (sh_acts s)) (at_comp e i addr (add_ref a) s))) (places s)).
    { apply at_comp_sub. intros [nm pp p ss aa]. cbn [refs add_ref]. exists []. rewrite app_nil_r, app_assoc. reflexivity. }
    apply (sub_in _ _ _ _ S) in J as [J|[<-|[]]]; auto.
Qed.
Lemma built_sound name start p n ops : sound (shared_built name start p n ops).
Proof.
  unfold shared_built. assert (G : forall ops s, sound s -> sound (fold_left shared_step ops s)) by (clear; induction ops as [|o ops IH]; intros s I; cbn [fold_left]; auto using sound_step).
  apply G. intros i [].
Qed.

(** The last owner of an activity. *)
Lemma last_owner s e i addr a x k : nth_error (sh_ents s) e = Some x -> comp_of e i addr s = Some k -> (a < length (sh_acts s))%nat ->
  is_ok (validate_account_names (book (sh_books s) (se_book x)) (referenced_accounts (hget (sh_acts s) a))) = true ->
  let b := hget (sh_acts (shared_step s (SAdd e i addr a))) a in ac_path b = (sc_path k ++ "/" ++ ac_name b)%string /\ ac_name b = ac_name (hget (sh_acts s) a).
Proof.
  intros E K L V. cbn [shared_step]. rewrite E, K. destruct (Nat.ltb_spec a (length (sh_acts s))) as [_|Q]; [|lia]. cbn [negb]. destruct (validate_account_names _ _); [|discriminate]. cbn [sh_acts with_ents assign fold_left fst snd].
  rewrite hget_same by auto. split; reflexivity.
Qed.
(** The structures. *)
Lemma at_nth_len {A} (f : A -> A) i : forall l, length (at_nth f i l) = length l.
Proof. induction i as [|i IH]; intros [|a l]; cbn; auto. Qed.
Lemma at_nth_nth {A} (f : A -> A) d i j : forall l, (i < length l)%nat -> nth j (at_nth f i l) d = if Nat.eqb i j then f (nth j l d) else nth j l d.
Proof.
  revert j. induction i as [|i IH]; intros [|j] [|a l] L; cbn [at_nth nth length Nat.eqb] in *; try lia; auto. apply IH. lia.
Qed.
Definition books_ok (s : shared) : Prop := forall e, In e (sh_ents s) -> (se_book e < length (sh_books s))%nat.
Lemma at_nth_book (f : sentity -> sentity) i l : (forall x, se_book (f x) = se_book x) -> forall e, In e (at_nth f i l) -> exists x, In x l /\ se_book e = se_book x.
Proof. intros F e I. apply at_nth_in in I as [I|(y & E & ->)]; eauto. apply nth_error_In in E. eauto. Qed.
Lemma books_step s o : books_ok s -> books_ok (shared_step s o) /\ (length (sh_books s) <= length (sh_books (shared_step s o)))%nat /\
  forall b, (b < length (sh_books s))%nat -> book (sh_books (shared_step s o)) b = fold_left gls_step (book_ops b [o]) (book (sh_books s) b).
Proof.
  intros B. unfold books_ok in *.
  assert (T : forall es, (forall e, In e es -> exists x, In x (sh_ents s) /\ se_book e = se_book x) -> forall e, In e es -> (se_book e < length (sh_books s))%nat).
  { intros es H e I. destruct (H e I) as (x & X & ->). auto. }
  destruct o; cbn [shared_step book_ops flat_map app fold_left]; try (split; [exact B|split; [auto|reflexivity]]; fail).
  - split; [|split].
    + cbn [sh_ents sh_books]. intros e I. rewrite app_length. apply B in I. lia.
    + cbn [sh_books]. rewrite app_length. lia.
    + intros b L. cbn [sh_books]. unfold book. apply app_nth1, L.
  - cbn [sh_ents sh_books]. rewrite at_nth_len. split; [exact B|]. split; auto. intros c L. destruct (Nat.lt_ge_cases b (length (sh_books s))) as [Lb|Lb].
    + unfold book. rewrite at_nth_nth by auto. rewrite (Nat.eqb_sym c b). destruct (Nat.eqb b c); reflexivity.
    + assert (E : at_nth (fun g => gls_step g o) b (sh_books s) = sh_books s). { clear -Lb. revert Lb. generalize (sh_books s). induction b as [|b IH]; intros [|x l] L; cbn in *; auto; try lia. rewrite IH; auto. lia. }
      rewrite E. destruct (Nat.eqb_spec c b); [lia|reflexivity].
  - cbn [sh_ents sh_books]. split; [|split; [auto|reflexivity]]. apply T. intros e I. apply in_map_iff in I as (x & <- & X). eauto.
  - destruct (Nat.ltb_spec b (length (sh_books s))) as [L|L]; [|split; [exact B|split; [auto|reflexivity]]]. split; [|split; [auto|reflexivity]]. cbn [sh_ents sh_books with_ents]. intros e I. apply in_app_or in I as [I|[<-|[]]]; auto.
  - split; [|split; [auto|reflexivity]]. cbn [sh_ents sh_books with_ents]. apply T. intros e I. apply remove_last_in in I. eauto.
  - split; [|split; [auto|reflexivity]]. cbn [sh_ents sh_books with_ents]. apply T, at_nth_book. reflexivity.
  - split; [|split; [auto|reflexivity]]. cbn [sh_ents sh_books with_ents]. apply T, at_nth_book. reflexivity.
  - split; [|split; [auto|reflexivity]]. cbn [sh_ents sh_books with_ents]. apply T, at_nth_book. reflexivity.
  - destruct (comp_of e i addr s) as [k0|]; [|split; [exact B|split; [auto|reflexivity]]]. split; [|split; [auto|reflexivity]]. cbn [sh_ents sh_books with_ents]. apply T, at_nth_book. reflexivity.
  - split; [|split; [auto|reflexivity]]. cbn [sh_ents sh_books with_ents]. apply T, at_nth_book. reflexivity.
  - split; [|split; [auto|reflexivity]]. cbn [sh_ents sh_books with_ents]. apply T, at_nth_book. reflexivity.
  - destruct (nth_error (sh_ents s) e) as [x|]; [|split; [exact B|split; [auto|reflexivity]]]. destruct (comp_of e i addr s) as [k0|]; [|split; [exact B|split; [auto|reflexivity]]]. destruct (negb _); [split; [exact B|split; [auto|reflexivity]]|]. destruct (validate_account_names _ _); [|split; [exact B|split; [auto|reflexivity]]].
    split; [|split; [auto|reflexivity]]. cbn [sh_ents sh_books with_ents]. apply T, at_nth_book. reflexivity.
Qed.

Lemma last_owner' s e i addr a x k : nth_error (sh_ents s) e = Some x -> comp_of e i addr s = Some k -> (a < length (sh_acts s))%nat ->
  is_ok (validate_account_names (book (sh_books s) (se_book x)) (referenced_accounts (hget (sh_acts s) a))) = true ->
  let b := hget (sh_acts (shared_step s (SAdd e i addr a))) a in ac_path b = (sc_path k ++ "/" ++ ac_name b)%string /\ ac_name b = ac_name (hget (sh_acts s) a) /\
  forall q, q <> sc_path k -> ac_path b <> (q ++ "/" ++ ac_name b)%string.
Proof.
  intros E K L V b. destruct (last_owner s e i addr a x k E K L V) as [P N]. split; auto. split; auto. intros q Q H. apply Q. fold b in P. rewrite P in H.
  assert (I : forall (u v w : string), (u ++ w = v ++ w)%string -> u = v).
  { clear. assert (Le : forall u w, String.length (u ++ w) = (String.length u + String.length w)%nat) by (induction u; cbn; auto).
    induction u as [|c u IH]; intros [|d v] w E; auto.
    - apply (f_equal String.length) in E. cbn [append String.length] in E. rewrite Le in E. lia.
    - apply (f_equal String.length) in E. cbn [append String.length] in E. rewrite Le in E. lia.
    - cbn in E. injection E as -> E. f_equal. eapply IH, E. }
  symmetry. eapply I, H.
Qed.
Lemma books_all s : books_ok s -> forall ops, books_ok (fold_left shared_step ops s) /\
  forall b, (b < length (sh_books s))%nat -> book (sh_books (fold_left shared_step ops s)) b = fold_left gls_step (book_ops b ops) (book (sh_books s) b).
Proof.
  intros B ops. revert s B. induction ops as [|o ops IH]; intros s B; cbn [fold_left]; [split; auto|]. destruct (books_step s o B) as (B1 & L & E). destruct (IH _ B1) as [B2 E2]. split; auto.
  intros b Lb. rewrite E2 by lia. rewrite E by auto. unfold book_ops. cbn [flat_map]. rewrite app_nil_r, fold_left_app. reflexivity.
Qed.
Lemma structures_shared name start p n ops more e : let s := shared_built name start p n ops in let s' := fold_left shared_step more s in
  In e (sh_ents s) ->
  l_structure (en_gl (own_entity (sh_acts s') (sh_books s') e)) = fold_left gls_step (book_ops (se_book e) more) (l_structure (en_gl (own_entity (sh_acts s) (sh_books s) e))).
Proof.
  intros s s' I. unfold own_entity. cbn [en_gl l_structure]. assert (B : books_ok s) by (apply books_all; intros x []). apply books_all; auto.
Qed.
Lemma shared_loan c now l h i n : (i < length h)%nat ->
  ac_kind (hget h i) = KLoan n -> ln_months n = 0%Z -> ac_interval (hget h i) <> 0%Z -> criteria (hget h i) (ck_ix c) = true -> get_datetime c = Ok now ->
  exists l' h' t1 t2 t3, foldM (run_ref c) [i; i] (l, h) = Ok (l', h') /\ l_txs l' = l_txs l ++ [t1; t2; t3] /\
    tx_desc t1 = Some "Make a loan" /\ tx_desc t2 = Some "Consider interest" /\ tx_desc t3 = Some "Pay principle".
Proof.
  intros B K M N C D. cbn [foldM]. unfold run_ref at 1. cbn [fst snd]. unfold run_activity at 1. rewrite C, D. cbn [negb bind]. rewrite K, M. cbn [Z.eqb bind fst snd].
  unfold run_ref. cbn [fst snd]. rewrite hget_same by auto. unfold run_activity.
  match goal with |- context[criteria ?a (ck_ix c)] => assert (C2 : criteria a (ck_ix c) = true) end.
  { unfold criteria in *. rewrite K in C. cbn [ac_kind with_kind ln_amount ln_duration]. unfold criteria_base in *. cbn [ac_interval ac_start_ix ac_end_ix with_kind]. exact C. }
  rewrite C2, D. cbn [negb bind ac_kind with_kind ln_months]. destruct (Z.eqb_spec (0 + ac_interval (hget h i)) 0) as [Q|Q]; [lia|]. cbn [bind fst snd].
  unfold create_transaction. cbn [fst l_txs l_structure]. rewrite <- !app_assoc. cbn [app].
  eexists _, _, _, _, _. split; [reflexivity|]. split; [reflexivity|]. split; [reflexivity|]. split; reflexivity.
Qed.
