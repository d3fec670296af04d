From Verif Require Import Prelude M_Lists M_Heap Spec_Heap.
Local Open Scope list_scope.

Section Put.
Context {A : Type}.
Lemma put_length (l : list A) i a : length (put l i a) = length l.
Proof. revert i; induction l as [|x l IH]; intros [|i]; cbn; auto. Qed.
Lemma put_same (l : list A) i a : (i < length l)%nat -> nth_error (put l i a) i = Some a.
Proof. revert i; induction l as [|x l IH]; intros [|i] H; cbn in *; try lia; auto. apply IH. lia. Qed.
Lemma put_other (l : list A) i j a : i <> j -> nth_error (put l i a) j = nth_error l j.
Proof. revert i j; induction l as [|x l IH]; intros [|i] [|j] H; cbn; auto; congruence. Qed.
Lemma put_id (l : list A) i a : nth_error l i = Some a -> put l i a = l.
Proof. revert i; induction l as [|x l IH]; intros [|i] H; cbn in *; try discriminate; f_equal; auto; congruence. Qed.
Lemma put_app (l l' : list A) i a : (i < length l)%nat -> put (l ++ l') i a = put l i a ++ l'.
Proof. revert i; induction l as [|x l IH]; intros [|i] H; cbn in *; try lia; auto. f_equal. apply IH. lia. Qed.
End Put.
Lemma put_map {A B} (f : A -> B) (l : list A) i a : map f (put l i a) = put (map f l) i (f a).
Proof. revert i; induction l as [|x l IH]; intros [|i]; cbn; auto. f_equal. auto. Qed.
Lemma put_in {A} (l : list A) i a x : In x (put l i a) -> x = a \/ In x l.
Proof. revert i; induction l as [|y l IH]; intros [|i]; cbn; intuition. apply IH in H0. intuition. Qed.

Section Heap.
Context {P F N : Type} {L : Layout P F N}.
Implicit Types (w : world F N) (p q : P) (k n : nat).

(** No two objects refer to the same array. *)
Definition wf w : Prop := NoDup (map snd (w_objects w)) /\ Forall (fun o => (snd o < length (w_arrays w))%nat) (w_objects w).
Definition keeps w w' : Prop := forall j p, view w j = Some p -> view w' j = Some p.
Definition only w w' k : Prop := forall j p, j <> k -> view w j = Some p -> view w' j = Some p.

Lemma keeps_refl w : keeps w w.
Proof. easy. Qed.
Lemma keeps_trans w w1 w2 : keeps w w1 -> keeps w1 w2 -> keeps w w2.
Proof. unfold keeps. auto. Qed.
Lemma only_keeps w w1 w2 n : keeps w w1 -> view w n = None -> only w1 w2 n -> keeps w w2.
Proof. intros K V O j p H. apply O; auto. intros ->. congruence. Qed.
Lemma keeps_only w w' k : keeps w w' -> only w w' k.
Proof. unfold keeps, only. auto. Qed.
Lemma only_trans w w1 w2 k : only w w1 k -> only w1 w2 k -> only w w2 k.
Proof. unfold only. auto. Qed.
Lemma fresh w w1 n : keeps w w1 -> view w1 n = None -> view w n = None.
Proof. intros K V. destruct (view w n) eqn:E; auto. apply K in E. congruence. Qed.

Lemma view_inv w k p : view w k = Some p -> exists f r l, nth_error (w_objects w) k = Some (f, r) /\ nth_error (w_arrays w) r = Some l /\ p = make f l.
Proof.
  unfold view. destruct (nth_error (w_objects w) k) as [[f r]|] eqn:E; [|discriminate]. destruct (nth_error (w_arrays w) r) as [l|] eqn:G; [|discriminate].
  intros H. injection H as <-. eauto 8.
Qed.
Lemma view_bound w k p : view w k = Some p -> (k < length (w_objects w))%nat.
Proof. intros H. apply view_inv in H. destruct H as (f & r & l & E & _). apply nth_error_Some. congruence. Qed.
Lemma view_none w : view w (length (w_objects w)) = None.
Proof. unfold view. rewrite (proj2 (nth_error_None _ _)); auto. Qed.

Lemma read_run w k p : view w k = Some p -> read k w = (w, Ok p).
Proof. intros H. unfold read. now rewrite H. Qed.

Lemma nodup_fresh (l : list (F * nat)) n f : NoDup (map snd l) -> Forall (fun o => (snd o < n)%nat) l -> NoDup (map snd (l ++ [(f, n)])).
Proof.
  intros D B. rewrite map_app. cbn. apply NoDup_Add with (a := n) (l := map snd l).
  - rewrite <- (app_nil_r (map snd l)) at 1. apply Add_app.
  - split; auto. intros I. apply in_map_iff in I. destruct I as ([f' r] & E & I). rewrite Forall_forall in B. apply B in I. cbn in *. lia.
Qed.
Lemma app_view w k p (a : list (list N)) (o : list (F * nat)) : view w k = Some p -> view (mkworld (w_arrays w ++ a) (w_objects w ++ o)) k = Some p.
Proof.
  intros H. apply view_inv in H. destruct H as (f & r & l & E & G & ->). unfold view. cbn [w_objects w_arrays].
  rewrite nth_error_app1 by (apply nth_error_Some; congruence). rewrite E. rewrite nth_error_app1 by (apply nth_error_Some; congruence). now rewrite G.
Qed.

Lemma new_run w p : wf w -> exists w' n, new p w = (w', Ok n) /\ wf w' /\ keeps w w' /\ view w n = None /\ view w' n = Some p.
Proof.
  intros [D B]. eexists _, _. split; [reflexivity|]. split; [|split; [|split]].
  - split; cbn [w_objects w_arrays].
    + now apply nodup_fresh.
    + rewrite app_length. cbn. apply Forall_app. split; [|repeat constructor; cbn; lia]. eapply Forall_impl; [|exact B]. cbn. lia.
  - intros j q H. now apply app_view.
  - apply view_none.
  - unfold view. cbn [w_objects w_arrays]. rewrite nth_error_app2, Nat.sub_diag by lia. cbn. rewrite nth_error_app2, Nat.sub_diag by lia. cbn. now rewrite make_eta.
Qed.

Lemma nodup_put (l : list (F * nat)) k f n : NoDup (map snd l) -> Forall (fun o => (snd o < n)%nat) l -> NoDup (map snd (put l k (f, n))).
Proof.
  revert k. induction l as [|[f' r] l IH]; intros [|k] D B; cbn in *; auto.
  - inversion_clear D. inversion_clear B. constructor; auto. intros I. apply in_map_iff in I. destruct I as (o & E & I). rewrite Forall_forall in H2. apply H2 in I. cbn in *. lia.
  - inversion_clear D. inversion_clear B. constructor; auto. intros I. apply in_map_iff in I. destruct I as ([f2 r2] & E & I). cbn in E. subst r2. apply put_in in I. destruct I as [I|I].
    + injection I as -> ->. cbn in *. lia.
    + apply H. apply in_map_iff. exists (f2, r). auto.
Qed.
Lemma forall_put {B} (Q : B -> Prop) (l : list B) k a : Forall Q l -> Q a -> Forall Q (put l k a).
Proof. intros H A. apply Forall_forall. intros x I. apply put_in in I. rewrite Forall_forall in H. destruct I as [->|I]; auto. Qed.

Lemma rebind_run w k p l : wf w -> view w k = Some p -> exists w', rebind k l w = (w', Ok tt) /\ wf w' /\ view w' k = Some (make (attrs p) l) /\ only w w' k.
Proof.
  intros [D B] V. pose proof (view_bound _ _ _ V) as K. apply view_inv in V. destruct V as (f & r & l0 & E & G & ->). unfold rebind. rewrite E. eexists. split; [reflexivity|]. rewrite attrs_make. split; [|split].
  - split; cbn [w_objects w_arrays].
    + now apply nodup_put.
    + rewrite app_length. cbn. apply forall_put; cbn; [|lia]. eapply Forall_impl; [|exact B]. cbn. lia.
  - unfold view. cbn [w_objects w_arrays]. rewrite put_same by exact K. rewrite nth_error_app2, Nat.sub_diag by lia. reflexivity.
  - intros j q J H. apply view_inv in H. destruct H as (f' & r' & l' & E' & G' & ->). unfold view. cbn [w_objects w_arrays]. rewrite put_other by auto. rewrite E'. rewrite nth_error_app1 by (apply nth_error_Some; congruence). now rewrite G'.
Qed.

Lemma nodup_nth (l : list (F * nat)) i j f g r : NoDup (map snd l) -> nth_error l i = Some (f, r) -> nth_error l j = Some (g, r) -> i = j.
Proof.
  intros D A B. apply (map_nth_error snd) in A, B. cbn in A, B. rewrite NoDup_nth_error in D. apply D; [|congruence]. apply nth_error_Some. congruence.
Qed.
Lemma array_run w k p l l' f r : wf w -> nth_error (w_objects w) k = Some (f, r) -> nth_error (w_arrays w) r = Some l -> p = make f l ->
  let w' := mkworld (put (w_arrays w) r l') (w_objects w) in wf w' /\ view w' k = Some (make (attrs p) l') /\ only w w' k.
Proof.
  intros [D B] E G -> w'. rewrite attrs_make. split; [|split].
  - split; cbn; auto. rewrite put_length. auto.
  - unfold view, w'. cbn [w_objects w_arrays]. rewrite E, put_same; auto. apply nth_error_Some. congruence.
  - intros j q J H. apply view_inv in H. destruct H as (f' & r' & l2 & E' & G' & ->). unfold view, w'. cbn [w_objects w_arrays]. rewrite E', put_other; [now rewrite G'|]. intros <-. apply J. symmetry. eapply nodup_nth; eauto.
Qed.
Lemma store_ok w k p i x l : wf w -> view w k = Some p -> set_nth (items p) i x = Ok l -> exists w', store k i x w = (w', Ok tt) /\ wf w' /\ view w' k = Some (make (attrs p) l) /\ only w w' k.
Proof.
  intros W V S. apply view_inv in V. destruct V as (f & r & l0 & E & G & Hp). unfold store. rewrite E, G. rewrite Hp, items_make in S. rewrite S. eexists. split; [reflexivity|]. eapply array_run; eauto.
Qed.
Lemma store_err w k p i x e : view w k = Some p -> set_nth (items p) i x = Err e -> store k i x w = (w, Err e).
Proof. intros V S. apply view_inv in V. destruct V as (f & r & l0 & E & G & ->). unfold store. rewrite E, G. rewrite items_make in S. now rewrite S. Qed.
Lemma extend_run w k p l : wf w -> view w k = Some p -> exists w', extend k l w = (w', Ok tt) /\ wf w' /\ view w' k = Some (make (attrs p) (items p ++ l)) /\ only w w' k.
Proof.
  intros W V. apply view_inv in V. destruct V as (f & r & l0 & E & G & Hp). unfold extend. rewrite E, G. eexists. split; [reflexivity|].
  replace (items p) with l0 by now rewrite Hp, items_make. eapply array_run; eauto.
Qed.
Lemma set_attrs_run w k p f : wf w -> view w k = Some p -> exists w', set_attrs k f w = (w', Ok tt) /\ wf w' /\ view w' k = Some (make f (items p)) /\ only w w' k.
Proof.
  intros [D B] V. pose proof (view_bound _ _ _ V) as K. apply view_inv in V. destruct V as (f0 & r & l & E & G & ->). unfold set_attrs. rewrite E. eexists. split; [reflexivity|]. rewrite items_make. split; [|split].
  - split; cbn [w_objects w_arrays].
    + rewrite put_map. cbn. rewrite put_id; auto. erewrite map_nth_error by exact E. reflexivity.
    + apply forall_put; auto. rewrite Forall_forall in B. apply nth_error_In in E. apply B in E. exact E.
  - unfold view. cbn [w_objects w_arrays]. rewrite put_same by exact K. now rewrite G.
  - intros j q J H. apply view_inv in H. destruct H as (f' & r' & l' & E' & G' & ->). unfold view. cbn [w_objects w_arrays]. rewrite put_other by auto. now rewrite E', G'.
Qed.

Lemma put_last {A} (l : list A) a b : put (l ++ [a]) (length l) b = l ++ [b].
Proof. induction l; cbn; congruence. Qed.
Lemma clone_run w k p : wf w -> view w k = Some p -> exists w' n, clone k w = (w', Ok n) /\ wf w' /\ keeps w w' /\ view w n = None /\ view w' n = Some p.
Proof.
  intros W V. assert (E : clone k w = new p w).
  { unfold clone, bindM at 1. rewrite (read_run _ _ _ V). pose proof V as V'. apply view_inv in V. destruct V as (f & r & l & E & G & ->). unfold bindM, copy. rewrite E. unfold rebind. cbn [w_objects w_arrays]. rewrite nth_error_app2, Nat.sub_diag by lia. cbn [nth_error]. unfold ret, new. rewrite put_last, attrs_make. reflexivity. }
  rewrite E. now apply new_run.
Qed.

Ltac parts := repeat match goal with |- wf _ => assumption | |- _ /\ _ => split | |- keeps ?w ?w => apply keeps_refl end; auto.
(** * Methods *)
(** A method that returns a new package and changes nothing. *)
Definition makes w (x : world F N * res nat) (r : res P) : Prop :=
  exists w' s, x = (w', s) /\ wf w' /\ keeps w w' /\
  match r, s with Ok q, Ok n => view w n = None /\ view w' n = Some q | Err e, Err e' => e' = e | _, _ => False end.
(** A method that changes [k] to [p'] and nothing else, and may return a new package. *)
Definition effects w k (x : world F N * res (option nat)) (p' : P) (r : res (option P)) : Prop :=
  exists w' s, x = (w', s) /\ wf w' /\ only w w' k /\ view w' k = Some p' /\
  match r, s with
  | Ok (Some q), Ok (Some n) => view w n = None /\ n <> k /\ view w' n = Some q
  | Ok None, Ok None => True
  | Err e, Err e' => e' = e
  | _, _ => False
  end.

Lemma makes_new w p : wf w -> makes w (new p w) (Ok p).
Proof. intros W. destruct (new_run w p W) as (w' & n & -> & W' & K & V & V'). exists w', (Ok n). parts. Qed.
Lemma makes_clone w k p : wf w -> view w k = Some p -> makes w (clone k w) (Ok p).
Proof. intros W H. destruct (clone_run w k p W H) as (w' & n & -> & W' & K & V & V'). exists w', (Ok n). parts. Qed.
Lemma makes_lift w (r : res P) : wf w -> makes w ((do! p <- lift r; new p) w) r.
Proof. intros W. destruct r as [p|e]; cbn. - apply makes_new; auto. - exists w, (Err e). parts. Qed.
Lemma makes_err w e : wf w -> makes w (w, Err e) (Err e).
Proof. intros W. exists w, (Err e). parts. Qed.

(** Sequencing: the first step makes [q]; the rest goes on with it. *)
Lemma makes_bind w (m : M nat) (f : nat -> M nat) (r : res P) (g : P -> res P) : makes w (m w) r ->
  (forall w1 n q, r = Ok q -> wf w1 -> keeps w w1 -> view w n = None -> view w1 n = Some q -> makes w (f n w1) (g q)) -> makes w (bindM m f w) (bind r g).
Proof.
  intros (w1 & s & E & W1 & K & H) C. unfold bindM. rewrite E. destruct r as [q|e], s as [n|e']; try contradiction; cbn [bind].
  - destruct H as [V V1]. apply C; auto.
  - subst e'. exists w1, (Err e). parts.
Qed.
(** A method called on the way, from a later world. *)
Lemma makes_later w w1 x r : keeps w w1 -> makes w1 x r -> makes w x r.
Proof.
  intros K (w' & s & E & W & K' & H). exists w', s. parts; [eapply keeps_trans; eauto|]. destruct r as [q|e], s as [n|e']; auto. destruct H. split; auto. eapply fresh; eauto.
Qed.
Lemma makes_ret w w' n q : wf w' -> keeps w w' -> view w n = None -> view w' n = Some q -> makes w (ret n w') (Ok q).
Proof. intros W K V V'. exists w', (Ok n). parts. Qed.

Lemma effects_makes w k p (m : M nat) r : view w k = Some p -> makes w (m w) r -> effects w k ((do! n <- m; ret (Some n)) w) p (do q <- r; Ok (Some q)).
Proof.
  intros V (w' & s & E & W & K & H). unfold bindM. rewrite E. destruct r as [q|e], s as [n|e']; try contradiction.
  - destruct H as [N1 N2]. exists w', (Ok (Some n)). parts; [now apply keeps_only|cbn [bind]; parts; intros ->; congruence].
  - exists w', (Err e'). parts. now apply keeps_only.
Qed.
Lemma effects_err w k p e : wf w -> view w k = Some p -> effects w k (w, Err e) p (Err e).
Proof. intros W V. exists w, (Err e). parts. easy. Qed.

(** * Stepping through a method; [w0] is the world it was called in. *)
Definition updates {A} w k (x : world F N * res A) (p' : P) (r : res A) : Prop :=
  exists w', x = (w', r) /\ wf w' /\ only w w' k /\ view w' k = Some p'.
Lemma only_refl w k : only w w k.
Proof. easy. Qed.
Lemma updates_rebind w k p l : wf w -> view w k = Some p -> updates w k (rebind k l w) (make (attrs p) l) (Ok tt).
Proof. intros W V. destruct (rebind_run w k p l W V) as (w' & E & ? & ? & ?). exists w'. parts. Qed.
Lemma updates_extend w k p l : wf w -> view w k = Some p -> updates w k (extend k l w) (make (attrs p) (items p ++ l)) (Ok tt).
Proof. intros W V. destruct (extend_run w k p l W V) as (w' & E & ? & ? & ?). exists w'. parts. Qed.
Lemma updates_attrs w k p f : wf w -> view w k = Some p -> updates w k (set_attrs k f w) (make f (items p)) (Ok tt).
Proof. intros W V. destruct (set_attrs_run w k p f W V) as (w' & E & ? & ? & ?). exists w'. parts. Qed.
Lemma updates_store w k p i x : wf w -> view w k = Some p ->
  updates w k (store k i x w) (match set_nth (items p) i x with Ok l => make (attrs p) l | Err _ => p end) (do _ <- set_nth (items p) i x; Ok tt).
Proof.
  intros W V. destruct (set_nth (items p) i x) as [l|e] eqn:E.
  - destruct (store_ok w k p i x l W V E) as (w' & -> & ? & ? & ?). exists w'. parts.
  - rewrite (store_err w k p i x e V E). exists w. parts. easy.
Qed.
Lemma updates_ret {A} w k p (a : A) : wf w -> view w k = Some p -> updates w k (ret a w) p (Ok a).
Proof. intros. exists w. parts. easy. Qed.
Lemma updates_lift {A} w k p (r : res A) : wf w -> view w k = Some p -> updates w k (lift r w) p r.
Proof. intros. exists w. parts. easy. Qed.
Lemma updates_from {A} w0 w k (x : world F N * res A) p r : only w0 w k -> updates w k x p r -> updates w0 k x p r.
Proof. intros On (w' & -> & ? & ? & ?). exists w'. parts. eapply only_trans; eauto. Qed.
(** A step on [k] itself. *)
Lemma updates_bind {A B} w k (u : @M F N A) (f : A -> @M F N B) p1 r p' (R : res B) : updates w k (u w) p1 r ->
  (forall a, r = Ok a -> forall w1, wf w1 -> only w w1 k -> view w1 k = Some p1 -> updates w1 k (f a w1) p' R) -> (forall e, r = Err e -> p' = p1 /\ R = Err e) -> updates w k (bindM u f w) p' R.
Proof.
  intros (w1 & E & W1 & On & V1) C X. unfold bindM. rewrite E. destruct r as [a|e].
  - eapply updates_from; eauto.
  - destruct (X e eq_refl) as [-> ->]. exists w1. parts.
Qed.
Lemma updates_read {B} w k j q (f : P -> @M F N B) p' R : view w j = Some q -> updates w k (f q w) p' R -> updates w k (bindM (read j) f w) p' R.
Proof. intros V H. unfold bindM. now rewrite (read_run _ _ _ V). Qed.

Lemma updates_setter w k p (g : P -> P * res unit) : wf w -> view w k = Some p -> items (fst (g p)) = items p -> updates w k (setter k g w) (fst (g p)) (snd (g p)).
Proof.
  intros W V I. unfold setter. apply (updates_read _ _ _ p); auto. eapply updates_bind; [apply updates_attrs; eauto| |discriminate]. intros _ _ w1 W1 O1 V1. rewrite <- I, make_eta in V1. apply updates_lift; auto.
Qed.
Lemma makes_read w0 w j q (f : P -> @M F N nat) R : view w j = Some q -> makes w0 (f q w) R -> makes w0 (bindM (read j) f w) R.
Proof. intros V H. unfold bindM. now rewrite (read_run _ _ _ V). Qed.
Lemma makes_lift_bind {A} w0 w (r : res A) (f : A -> @M F N nat) (g : A -> res P) : wf w -> keeps w0 w -> (forall a, r = Ok a -> makes w0 (f a w) (g a)) -> makes w0 (bindM (lift r) f w) (bind r g).
Proof. intros W K H. unfold bindM, lift. destruct r as [a|e]; cbn [bind]; auto. exists w, (Err e). parts. Qed.
Lemma makes_raise w0 w e : wf w -> keeps w0 w -> makes w0 (lift (Err e) w) (Err e).
Proof. intros W K. exists w, (Err e). parts. Qed.
Lemma makes_from w0 w x r : keeps w0 w -> makes w x r -> makes w0 x r.
Proof. apply makes_later. Qed.
Lemma makes_step w0 w (m : @M F N nat) (f : nat -> @M F N nat) (r : res P) (g : P -> res P) : keeps w0 w -> makes w (m w) r ->
  (forall w1 n q, r = Ok q -> wf w1 -> keeps w w1 -> keeps w0 w1 -> view w n = None -> view w0 n = None -> view w1 n = Some q -> makes w0 (f n w1) (g q)) -> makes w0 (bindM m f w) (bind r g).
Proof.
  intros K (w1 & s & E & W1 & K1 & H) C. unfold bindM. rewrite E. destruct r as [q|e], s as [n|e']; try contradiction; cbn [bind].
  - destruct H as [V V1]. apply C; auto; [eapply keeps_trans; eauto|eapply fresh; eauto].
  - subst e'. exists w1, (Err e). parts. eapply keeps_trans; eauto.
Qed.
(** A step on the object [n] that is being made. *)
Lemma makes_update {A} w0 w n (u : @M F N A) (f : A -> @M F N nat) q r R : keeps w0 w -> view w0 n = None -> updates w n (u w) q r ->
  (forall a, r = Ok a -> forall w1, wf w1 -> keeps w0 w1 -> only w w1 n -> view w1 n = Some q -> makes w0 (f a w1) R) -> (forall e, r = Err e -> R = Err e) -> makes w0 (bindM u f w) R.
Proof.
  intros K V (w1 & E & W1 & On & V1) C X. assert (K1 : keeps w0 w1) by (eapply only_keeps; eauto). unfold bindM. rewrite E. destruct r as [a|e].
  - eapply C; eauto.
  - rewrite (X e eq_refl). exists w1, (Err e). parts.
Qed.

Lemma effects_read w0 w k j q (f : P -> @M F N (option nat)) p' R : view w j = Some q -> effects w0 k (f q w) p' R -> effects w0 k (bindM (read j) f w) p' R.
Proof. intros V H. unfold bindM. now rewrite (read_run _ _ _ V). Qed.
Lemma effects_lift_bind {A} w0 w k (r : res A) (f : A -> @M F N (option nat)) p' R : wf w -> only w0 w k -> (forall a, r = Ok a -> effects w0 k (f a w) p' R) -> (forall e, r = Err e -> view w k = Some p' /\ R = Err e) -> effects w0 k (bindM (lift r) f w) p' R.
Proof. intros W K H X. unfold bindM, lift. destruct r as [a|e]; cbn [bind]; auto. destruct (X e eq_refl) as [V ->]. exists w, (Err e). parts. Qed.
Lemma effects_raise w0 w k p e : wf w -> only w0 w k -> view w k = Some p -> effects w0 k (lift (Err e) w) p (Err e).
Proof. intros W K V. exists w, (Err e). parts. Qed.
Lemma effects_self {A} w0 w k (u : @M F N A) (f : A -> @M F N (option nat)) p1 r p' R : only w0 w k -> updates w k (u w) p1 r ->
  (forall a, r = Ok a -> forall w1, wf w1 -> only w0 w1 k -> only w w1 k -> view w1 k = Some p1 -> effects w0 k (f a w1) p' R) -> (forall e, r = Err e -> p' = p1 /\ R = Err e) -> effects w0 k (bindM u f w) p' R.
Proof.
  intros K (w1 & E & W1 & On & V1) C X. unfold bindM. rewrite E. destruct r as [a|e].
  - apply (C a); auto. eapply only_trans; eauto.
  - destruct (X e eq_refl) as [-> ->]. exists w1, (Err e). parts. eapply only_trans; eauto.
Qed.
Lemma effects_fresh {A} w0 w k n (u : @M F N A) (f : A -> @M F N (option nat)) p q r p' R : only w0 w k -> view w0 n = None -> n <> k -> view w k = Some p -> updates w n (u w) q r ->
  (forall a, r = Ok a -> forall w1, wf w1 -> only w0 w1 k -> only w w1 n -> view w1 k = Some p -> view w1 n = Some q -> effects w0 k (f a w1) p' R) -> (forall e, r = Err e -> p' = p /\ R = Err e) -> effects w0 k (bindM u f w) p' R.
Proof.
  intros K V D Vk (w1 & E & W1 & On & V1) C X. assert (K1 : only w0 w1 k). { intros j x J H. apply On; [|now apply K]. intros ->. congruence. }
  assert (Vk1 : view w1 k = Some p) by (apply On; auto). unfold bindM. rewrite E. destruct r as [a|e].
  - apply (C a); auto.
  - destruct (X e eq_refl) as [-> ->]. exists w1, (Err e). parts.
Qed.
Lemma effects_step w0 w k (m : @M F N nat) (f : nat -> @M F N (option nat)) p (r : res P) p' R : only w0 w k -> view w k = Some p -> makes w (m w) r ->
  (forall w1 n q, r = Ok q -> wf w1 -> only w0 w1 k -> keeps w w1 -> view w n = None -> view w0 n = None -> n <> k -> view w1 k = Some p -> view w1 n = Some q -> effects w0 k (f n w1) p' R) ->
  (forall e, r = Err e -> p' = p /\ R = Err e) -> effects w0 k (bindM m f w) p' R.
Proof.
  intros K Vk (w1 & s & E & W1 & K1 & H) C X. unfold bindM. rewrite E. destruct r as [q|e], s as [n|e']; try contradiction.
  - destruct H as [V V1]. assert (n <> k) by congruence. apply (C w1 n q); auto.
    + intros j x J G. apply K1. now apply K.
    + destruct (view w0 n) eqn:G; auto. apply K in G; auto. congruence.
  - subst e'. destruct (X e eq_refl) as [-> ->]. exists w1, (Err e). parts. intros j x J G. apply K1. now apply K.
Qed.
(** A method of [k] called on the way. *)
Lemma effects_call w0 w k (m : @M F N (option nat)) (f : option nat -> @M F N (option nat)) p1 r p' R : only w0 w k -> effects w k (m w) p1 r ->
  (forall x, r = Ok x -> forall w1 s, wf w1 -> only w0 w1 k -> only w w1 k -> view w1 k = Some p1 -> effects w0 k (f s w1) p' R) -> (forall e, r = Err e -> p' = p1 /\ R = Err e) -> effects w0 k (bindM m f w) p' R.
Proof.
  intros K (w1 & s & E & W1 & On & V1 & H) C X. unfold bindM. rewrite E. destruct s as [s|e].
  - destruct r as [x|e]; [|destruct s; contradiction]. apply (C x); auto. eapply only_trans; eauto.
  - destruct r as [[x|]|e']; try contradiction. subst e'. destruct (X e eq_refl) as [-> ->]. exists w1, (Err e). parts. eapply only_trans; eauto.
Qed.
Lemma only_other w w1 k n q : only w w1 k -> n <> k -> view w n = Some q -> view w1 n = Some q.
Proof. intros On D V. now apply On. Qed.
Lemma effects_return w0 w k n p q : wf w -> only w0 w k -> view w k = Some p -> view w0 n = None -> n <> k -> view w n = Some q -> effects w0 k (ret (Some n) w) p (Ok (Some q)).
Proof. intros. exists w, (Ok (Some n)). parts. Qed.
Lemma effects_none w0 w k p : wf w -> only w0 w k -> view w k = Some p -> effects w0 k (ret None w) p (Ok None).
Proof. intros. exists w, (Ok None). parts. Qed.
Lemma effects_updates w k (u : @M F N unit) p' r : updates w k (u w) p' r -> effects w k (bindM u (fun _ => ret None) w) p' (do _ <- r; Ok None).
Proof. intros (w1 & E & W1 & On & V1). unfold bindM. rewrite E. destruct r as [a|e].
  - exists w1, (Ok None). parts. exact I.
  - exists w1, (Err e). parts. reflexivity.
Qed.
End Heap.
Ltac parts := repeat match goal with |- wf _ => assumption | |- _ /\ _ => split | |- keeps ?w ?w => apply keeps_refl | |- only ?w ?w _ => apply only_refl end; auto.

(** * Programs *)
Section Programs.
Context {P F N C O A : Type} {L : Layout P F N}.
Context (vcreate : C -> res P) (vmethod : O -> P -> operand P A -> P * res (option P)).
Context (hcreate : C -> @M F N nat) (hmethod : O -> nat -> operand nat A -> @M F N (option nat)).
Definition sees (w : world F N) (y : operand nat A) (v : operand P A) : Prop :=
  match y, v with OPackage j, OPackage q => view w j = Some q | OOther a, OOther b => a = b | _, _ => False end.
Hypothesis creates : forall w c, wf w -> makes w (hcreate c w) (vcreate c).
Hypothesis acts : forall w o k p y v, wf w -> view w k = Some p -> sees w y v -> effects w k (hmethod o k y w) (fst (vmethod o p v)) (snd (vmethod o p v)).

Definition shows (w : world F N) (hs : list nat) (vs : list P) : Prop := wf w /\ NoDup hs /\ map (view w) hs = map Some vs.
Lemma shows_nth w hs vs i k : shows w hs vs -> nth_error hs i = Some k -> exists p, nth_error vs i = Some p /\ view w k = Some p.
Proof.
  intros (_ & _ & M) H. apply (map_nth_error (view w)) in H. rewrite M in H. rewrite nth_error_map in H. destruct (nth_error vs i) as [p|]; [|discriminate]. cbn in H. injection H as H. eauto.
Qed.
Lemma shows_len w hs vs : shows w hs vs -> length hs = length vs.
Proof. intros (_ & _ & M). apply (f_equal (@length _)) in M. now rewrite !map_length in M. Qed.
Lemma shows_none w hs vs i : shows w hs vs -> nth_error hs i = None -> nth_error vs i = None.
Proof. intros S H. apply nth_error_None in H. apply nth_error_None. rewrite <- (shows_len _ _ _ S). exact H. Qed.
Lemma shows_in w hs vs k : shows w hs vs -> In k hs -> exists p, view w k = Some p.
Proof. intros S I. apply In_nth_error in I. destruct I as [i I]. destruct (shows_nth _ _ _ _ _ S I) as (p & _ & V). eauto. Qed.
Lemma shows_app w hs vs n q : shows w hs vs -> ~ In n hs -> view w n = Some q -> shows w (hs ++ [n]) (vs ++ [q]).
Proof.
  intros (W & D & M) I V. split; [exact W|split].
  - apply NoDup_Add with (a := n) (l := hs); auto. rewrite <- (app_nil_r hs) at 1. apply Add_app.
  - rewrite !map_app, M. cbn. now rewrite V.
Qed.
Lemma shows_put w w' hs vs i k p : shows w hs vs -> nth_error hs i = Some k -> wf w' -> only w w' k -> view w' k = Some p -> shows w' hs (put vs i p).
Proof.
  intros (W & D & M) I W' On V. split; [exact W'|split; [exact D|]]. revert vs i I M. induction hs as [|h hs IH]; intros vs i I M; [destruct i; discriminate|].
  destruct vs as [|v vs]; [discriminate|]. cbn in M. injection M as M1 M2. inversion_clear D. destruct i as [|i]; cbn in *.
  - injection I as ->. rewrite V. f_equal. rewrite <- M2. apply map_ext_in. intros a J. assert (X : exists q, view w a = Some q). { apply In_nth_error in J. destruct J as [n J]. apply (map_nth_error (view w)) in J. rewrite M2, nth_error_map in J. destruct (nth_error vs n); [|discriminate]. cbn in J. injection J as J. eauto. }
    destruct X as [q X]. rewrite X. apply On; auto. intros ->. contradiction.
  - rewrite (IH H0 vs i I M2). f_equal. rewrite <- M1. rewrite M1. apply On; auto. intros ->. apply H. eapply nth_error_In; eauto.
Qed.
Lemma shows_keeps w w' hs vs : shows w hs vs -> wf w' -> keeps w w' -> shows w' hs vs.
Proof.
  intros (W & D & M) W' K. split; [exact W'|split; [exact D|]]. rewrite <- M. apply map_ext_in. intros a J. apply In_nth_error in J. destruct J as [n J]. apply (map_nth_error (view w)) in J. rewrite M, nth_error_map in J. destruct (nth_error vs n); [|discriminate]. cbn in J. injection J as J. rewrite <- J. now apply K.
Qed.

Lemma step_shows w hs vs c : shows w hs vs ->
  let o := object_step hcreate hmethod w hs c in let v := value_step vcreate vmethod vs c in
  snd o = snd v /\ shows (fst (fst o)) (snd (fst o)) (fst v).
Proof.
  intros S. pose proof S as (W & D & Mv). destruct c as [c|o x y]; cbn [object_step value_step].
  - destruct (creates w c W) as (w' & s & -> & W' & K & H). destruct (vcreate c) as [p|e], s as [n|e']; try contradiction; cbn [fst snd].
    + destruct H as [V V']. split; auto. apply shows_app; auto. * eapply shows_keeps; eauto. * intros I. destruct (shows_in _ _ _ _ S I). congruence.
    + subst. split; auto. eapply shows_keeps; eauto.
  - destruct (nth_error hs x) as [k|] eqn:E; [|rewrite (shows_none _ _ _ _ S E); auto]. destruct (shows_nth _ _ _ _ _ S E) as (p & -> & V).
    assert (Y : match handle_of hs y, value_of vs y with Ok h, Ok u => sees w h u | Err e, Err e' => e = e' | _, _ => False end).
    { destruct y as [j|a]; cbn; auto. destruct (nth_error hs j) as [h|] eqn:J; [|rewrite (shows_none _ _ _ _ S J); auto]. destruct (shows_nth _ _ _ _ _ S J) as (q & -> & Vq). exact Vq. }
    destruct (handle_of hs y) as [h|], (value_of vs y) as [u|]; try contradiction; [|subst; auto].
    destruct (acts w o k p h u W V Y) as (w' & s & -> & W' & On & V' & H). destruct (vmethod o p u) as [p' r]. cbn [fst snd] in *.
    pose proof (shows_put _ _ _ _ _ _ _ S E W' On V') as S'.
    destruct r as [[q|]|e], s as [[n|]|e']; try contradiction; cbn [fst snd]; [|auto|subst; auto].
    destruct H as (N1 & N2 & N3). split; auto. apply shows_app; auto. intros I. destruct (shows_in _ _ _ _ S I). congruence.
Qed.
Lemma run_shows cs : forall w hs vs, shows w hs vs ->
  let o := object_run hcreate hmethod w hs cs in let v := value_run vcreate vmethod vs cs in
  snd o = snd v /\ shows (fst (fst o)) (snd (fst o)) (fst v).
Proof.
  induction cs as [|c cs IH]; intros w hs vs S; [cbn; auto|]. cbn [object_run value_run]. pose proof (step_shows w hs vs c S) as H. cbn zeta in H.
  destruct (object_step hcreate hmethod w hs c) as [[w' h'] r], (value_step vcreate vmethod vs c) as [v' r']. cbn [fst snd] in H. destruct H as [-> S'].
  pose proof (IH _ _ _ S') as H. cbn zeta in H. destruct (object_run hcreate hmethod w' h' cs) as [[w2 h2] rs], (value_run vcreate vmethod v' cs) as [v2 rs']. cbn [fst snd] in *. destruct H as [-> S2]. auto.
Qed.
Lemma shows_empty : shows empty_world [] [].
Proof. split; [split; constructor|split; [constructor|reflexivity]]. Qed.
Lemma run_agrees cs : agree (object_run hcreate hmethod empty_world [] cs) (value_run vcreate vmethod [] cs).
Proof. destruct (run_shows cs _ _ _ shows_empty) as (E & _ & _ & M). split; auto. Qed.
End Programs.

Section Independence.
Context {P F N C O A : Type} {L : Layout P F N}.
Context (vcreate : C -> res P) (vmethod : O -> P -> operand P A -> P * res (option P)).
Context (hcreate : C -> @M F N nat) (hmethod : O -> nat -> operand nat A -> @M F N (option nat)).
Hypothesis creates : forall w c, wf w -> makes w (hcreate c w) (vcreate c).
Hypothesis acts : forall w o k p y v, wf w -> view w k = Some p -> sees w y v -> effects w k (hmethod o k y w) (fst (vmethod o p v)) (snd (vmethod o p v)).
Lemma agree_contents {R} (o : world F N * list nat * R) (v : list P * R) i : agree o v -> contents o i = nth_error (fst v) i.
Proof.
  intros [_ H]. unfold contents. apply (f_equal (fun l => nth_error l i)) in H. rewrite !nth_error_map in H.
  destruct (nth_error (snd (fst o)) i), (nth_error (fst v) i); cbn in *; congruence.
Qed.
Lemma value_run_app cs c : forall vs, fst (value_run vcreate vmethod vs (cs ++ [c])) = fst (value_step vcreate vmethod (fst (value_run vcreate vmethod vs cs)) c).
Proof.
  induction cs as [|d cs IH]; intros vs; cbn [app value_run].
  - cbn [fst]. destruct (value_step vcreate vmethod vs c). reflexivity.
  - destruct (value_step vcreate vmethod vs d) as [v r]. specialize (IH v). destruct (value_run vcreate vmethod v cs), (value_run vcreate vmethod v (cs ++ [c])). cbn [fst] in *. exact IH.
Qed.
Lemma nth_put {B} (l : list B) : forall i j b x, nth_error l j = Some x -> nth_error (put l i b) j = Some (if Nat.eqb i j then b else x).
Proof.
  induction l as [|a l IH]; intros i j b x H; [destruct j; discriminate|]. destruct i as [|i], j as [|j]; cbn in *; auto.
Qed.
Lemma nth_app {B} (l l' : list B) j x : nth_error l j = Some x -> nth_error (l ++ l') j = Some x.
Proof. intros H. rewrite nth_error_app1; auto. apply nth_error_Some. congruence. Qed.
Lemma call_others vs o x y i p : nth_error vs i = Some p -> (i <> x \/ forall q v, fst (vmethod o q v) = q) -> nth_error (fst (value_step vcreate vmethod vs (Call o x y))) i = Some p.
Proof.
  intros H S. cbn [value_step]. destruct (nth_error vs x) as [q|] eqn:X; [|exact H]. destruct (value_of vs y) as [v|e]; [|exact H].
  assert (E : nth_error (put vs x (fst (vmethod o q v))) i = Some p).
  { rewrite (nth_put _ _ _ _ _ H). destruct (Nat.eqb x i) eqn:E; auto. apply Nat.eqb_eq in E. destruct S as [S|S]; [now symmetry in E|]. rewrite S. congruence. }
  destruct (vmethod o q v) as [p' [[r|]|e]]; cbn [fst] in *; auto using nth_app.
Qed.
Lemma others_alone o : leaves_alone hcreate hmethod o other_variables.
Proof.
  intros cs x y i p S H. rewrite (agree_contents _ _ _ (run_agrees vcreate vmethod hcreate hmethod creates acts _)) in H. rewrite (agree_contents _ _ _ (run_agrees vcreate vmethod hcreate hmethod creates acts _)), value_run_app. apply call_others; [exact H|left; exact S].
Qed.
Lemma all_alone o : (forall q v, fst (vmethod o q v) = q) -> leaves_alone hcreate hmethod o all_variables.
Proof.
  intros E cs x y i p S H. rewrite (agree_contents _ _ _ (run_agrees vcreate vmethod hcreate hmethod creates acts _)) in H. rewrite (agree_contents _ _ _ (run_agrees vcreate vmethod hcreate hmethod creates acts _)), value_run_app. apply call_others; [exact H|right; exact E].
Qed.
End Independence.
