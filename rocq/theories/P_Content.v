(** Lists of names and masses: indices, contents and sums. *)
From Verif Require Import Prelude M_Lists Spec_Material P_Convert.
From Coq Require Import Field.
Local Open Scope list_scope.

Lemma sum_cons x l : Qcsum (x :: l) = (x + Qcsum l)%Qc. Proof. reflexivity. Qed.
Lemma sum_app a b : Qcsum (a ++ b) = (Qcsum a + Qcsum b)%Qc.
Proof. induction a as [|x a IH]; cbn [app]; [unfold Qcsum; cbn; ring|]. rewrite !sum_cons, IH. ring. Qed.
Lemma sum_scaled k l : Qcsum (scaled k l) = (k * Qcsum l)%Qc.
Proof. unfold scaled. apply sum_scale. Qed.
Lemma sum_plus a b : length a = length b -> Qcsum (plus_lists a b) = (Qcsum a + Qcsum b)%Qc.
Proof.
  revert b. induction a as [|x a IH]; intros [|y b] H; try discriminate; cbn [plus_lists]; [unfold Qcsum; cbn; ring|].
  rewrite !sum_cons, IH by (cbn in H; lia). ring.
Qed.
Lemma sum_repeat n : Qcsum (repeat 0%Qc n) = 0%Qc.
Proof. induction n; auto. cbn [repeat]. rewrite sum_cons, IHn. ring. Qed.

(** * Indices *)
Section Generic.
Context {C : Type} (dec : forall a b : C, {a = b} + {a <> b}).
Lemma index_ok x l i : index_of dec x l = Ok i -> nth_error l i = Some x /\ forall j, (j < i)%nat -> nth_error l j <> Some x.
Proof.
  revert i. induction l as [|y l IH]; intros i; cbn [index_of]; [discriminate|]. destruct (dec y x) as [E|E].
  - intros H. injection H as <-. subst. split; auto. intros j L. lia.
  - destruct (index_of dec x l) as [k|]; cbn [bind]; [|discriminate]. intros H. injection H as <-. destruct (IH k eq_refl) as [A B]. split; auto.
    intros [|j] L; cbn; [congruence|]. apply B. lia.
Qed.
Lemma index_total x l : In x l -> exists i, index_of dec x l = Ok i.
Proof.
  induction l as [|y l IH]; [intros []|]. intros H. cbn [index_of]. destruct (dec y x) as [E|E]; [eauto|].
  destruct H as [->|H]; [congruence|]. destruct (IH H) as [i ->]. cbn [bind]. eauto.
Qed.
Lemma index_err x l e : index_of dec x l = Err e -> e = ValueError /\ ~ In x l.
Proof.
  induction l as [|y l IH]; cbn [index_of]. - intros H. injection H as <-. split; auto.
  - destruct (dec y x) as [E|E]; [discriminate|]. destruct (index_of dec x l) as [k|]; cbn [bind]; [discriminate|]. intros H. injection H as <-.
    destruct (IH eq_refl) as [-> N]. split; auto. intros [->|K]; [congruence|tauto].
Qed.
Lemma index_absent x l : ~ In x l -> index_of dec x l = Err ValueError.
Proof. intros N. destruct (index_of dec x l) as [i|e] eqn:E. - apply index_ok in E. destruct E as [E _]. apply nth_error_In in E. tauto. - apply index_err in E. destruct E as [-> _]. auto. Qed.
Lemma index_nth l i x : NoDup l -> nth_error l i = Some x -> index_of dec x l = Ok i.
Proof.
  intros N H. destruct (index_total x l) as [j E]; [eapply nth_error_In; eauto|]. rewrite E. f_equal. apply index_ok in E. destruct E as [A _].
  rewrite NoDup_nth_error in N. apply N; [|congruence]. apply nth_error_Some. congruence.
Qed.
Lemma member_In c l : member dec c l = true <-> In c l.
Proof. unfold member. destruct (in_dec dec c l); split; auto; discriminate. Qed.
Lemma member_not c l : member dec c l = false <-> ~ In c l.
Proof. unfold member. destruct (in_dec dec c l); split; auto; try discriminate. tauto. Qed.
End Generic.
Lemma get_ok {A} (l : list A) i a : get l i = Ok a <-> nth_error l i = Some a.
Proof. unfold get. destruct (nth_error l i); split; intros H; inversion H; auto. Qed.
Lemma set_nth_ok {A} (l : list A) i a : (i < length l)%nat -> exists r, set_nth l i a = Ok r.
Proof.
  revert i. induction l as [|x l IH]; intros [|i] H; cbn in *; try lia; [eauto|]. destruct (IH i) as [r ->]; [lia|]. cbn [bind]. eauto.
Qed.
Lemma set_nth_split {A} (l : list A) i a r x : set_nth l i a = Ok r -> nth_error l i = Some x ->
  exists u v, l = u ++ x :: v /\ r = u ++ a :: v /\ length u = i.
Proof.
  revert i r. induction l as [|y l IH]; intros [|i] r H X; cbn in *; try discriminate.
  - injection H as <-. injection X as ->. exists [], l. auto.
  - destruct (set_nth l i a) as [s|] eqn:E; cbn [bind] in H; [|discriminate]. injection H as <-. destruct (IH i s E X) as (u & v & -> & -> & <-).
    exists (y :: u), v. auto.
Qed.
Lemma set_nth_at {A} (u : list A) a x v : set_nth (u ++ x :: v) (length u) a = Ok (u ++ a :: v).
Proof. induction u as [|y u IH]; cbn [app length set_nth]; [reflexivity|]. rewrite IH. reflexivity. Qed.
Lemma nth_at {A} (u : list A) x v : nth_error (u ++ x :: v) (length u) = Some x.
Proof. rewrite nth_error_app2, Nat.sub_diag; auto. Qed.

(** * Contents *)
Section Contents.
Context {C : Type} (dec : forall a b : C, {a = b} + {a <> b}).
Notation scontent := (content dec).
Lemma content_cons n ns m ms c : scontent (n :: ns) (m :: ms) c = ((if dec n c then m else 0) + scontent ns ms c)%Qc.
Proof. unfold content. cbn [combine filter fst]. destruct (dec n c); cbn [map snd]; [now rewrite sum_cons|ring]. Qed.
Lemma content_nil_r ns c : scontent ns [] c = 0%Qc.
Proof. unfold content. destruct ns; reflexivity. Qed.
Lemma content_absent ns ms c : ~ In c ns -> scontent ns ms c = 0%Qc.
Proof.
  revert ms. induction ns as [|n ns IH]; intros [|m ms] H; auto. rewrite content_cons, IH by (cbn in H; tauto).
  destruct (dec n c); [subst; cbn in H; tauto|ring].
Qed.
Lemma content_app ns ms ns' ms' c : length ns = length ms -> scontent (ns ++ ns') (ms ++ ms') c = (scontent ns ms c + scontent ns' ms' c)%Qc.
Proof.
  revert ms. induction ns as [|n ns IH]; intros [|m ms] H; try discriminate; cbn [app]; [unfold content at 2; cbn; unfold Qcsum; cbn; ring|].
  rewrite !content_cons, IH by (cbn in H; lia). ring.
Qed.
Lemma content_nth ns ms i c x : NoDup ns -> nth_error ns i = Some c -> nth_error ms i = Some x -> scontent ns ms c = x.
Proof.
  revert ns ms. induction i as [|i IH]; intros [|n ns] [|m ms] N A B; try discriminate; cbn in A, B; rewrite content_cons; inversion N; subst.
  - injection A as ->. injection B as ->. rewrite content_absent by auto. destruct (dec c c); [ring|congruence].
  - rewrite (IH ns ms) by auto. destruct (dec n c); [|ring]. subst. exfalso. apply H1. eapply nth_error_In; eauto.
Qed.
Lemma content_scaled k ns ms c : scontent ns (scaled k ms) c = (k * scontent ns ms c)%Qc.
Proof.
  revert ms. induction ns as [|n ns IH]; intros [|m ms]; cbn [scaled map].
  - unfold content; cbn; unfold Qcsum; cbn; ring. - unfold content; cbn; unfold Qcsum; cbn; ring. - rewrite !content_nil_r; ring.
  - rewrite !content_cons. change (map _ ms) with (scaled k ms). rewrite IH. destruct (dec n c); ring.
Qed.
Lemma content_plus ns a b c : length a = length ns -> length b = length ns -> scontent ns (plus_lists a b) c = (scontent ns a c + scontent ns b c)%Qc.
Proof.
  revert a b. induction ns as [|n ns IH]; intros [|x a] [|y b] A B; try discriminate; cbn [plus_lists].
  - unfold content; cbn; unfold Qcsum; cbn; ring.
  - rewrite !content_cons, IH by (cbn in *; lia). destruct (dec n c); ring.
Qed.
Lemma nth_split_both {A B} (l : list A) (m : list B) i a : length l = length m -> nth_error l i = Some a ->
  exists u v b u' v', l = u ++ a :: v /\ m = u' ++ b :: v' /\ length u = i /\ length u' = i /\ length v = length v'.
Proof.
  intros L H. destruct (nth_error_split _ _ H) as (u & v & -> & <-).
  destruct (nth_error m (length u)) as [b|] eqn:E.
  - destruct (nth_error_split _ _ E) as (u' & v' & -> & Lu). exists u, v, b, u', v'. rewrite !app_length in L. cbn in L. repeat split; auto. lia.
  - apply nth_error_None in E. rewrite app_length in L. cbn in L. lia.
Qed.

Lemma plus_app a b c d : length a = length c -> plus_lists (a ++ b) (c ++ d) = plus_lists a c ++ plus_lists b d.
Proof. revert c. induction a as [|x a IH]; intros [|y c] H; try discriminate; auto. cbn [app plus_lists]. rewrite IH by (cbn in H; lia). reflexivity. Qed.
Lemma plus_zero_l l : plus_lists (repeat 0%Qc (length l)) l = l.
Proof. induction l as [|x l IH]; auto. cbn [length repeat plus_lists]. rewrite IH. f_equal. ring. Qed.
Lemma map_zero {A} (l : list A) : map (fun _ => 0%Qc) l = repeat 0%Qc (length l).
Proof. induction l; cbn; congruence. Qed.
(** The list with [x] at position [i] and zero elsewhere. *)
Definition only (n i : nat) (x : Qc) : list Qc := repeat 0%Qc i ++ x :: repeat 0%Qc (n - i - 1).
Lemma repeat_split {A} (a : A) i n : (i < n)%nat -> repeat a n = repeat a i ++ a :: repeat a (n - i - 1).
Proof. intros H. replace n with (i + S (n - i - 1))%nat at 1 by lia. rewrite repeat_app. reflexivity. Qed.
Lemma sum_only n i x : Qcsum (only n i x) = x.
Proof. unfold only. rewrite sum_app, sum_cons, !sum_repeat. ring. Qed.
Lemma content_only ns i c x d : (nth_error ns i = Some c) -> scontent ns (only (length ns) i x) d = if dec c d then x else 0%Qc.
Proof.
  intros H. destruct (nth_error_split _ _ H) as (u & v & -> & <-). unfold only. rewrite app_length. cbn [length]. rewrite content_app by now rewrite repeat_length.
  rewrite content_cons. replace (length u + S (length v) - length u - 1)%nat with (length v) by lia.
  assert (Z : forall l, scontent l (repeat 0%Qc (length l)) d = 0%Qc).
  { induction l as [|n l IH]; [reflexivity|]. cbn [length repeat]. rewrite content_cons, IH. destruct (dec n d); ring. }
  rewrite !Z. destruct (dec c d); ring.
Qed.

Lemma plus_length a b : length a = length b -> length (plus_lists a b) = length a.
Proof. revert b. induction a as [|x a IH]; intros [|y b] H; try discriminate; cbn [plus_lists length]; auto. Qed.
Lemma plus_map {A} (f g : A -> Qc) l : plus_lists (map f l) (map g l) = map (fun a => (f a + g a)%Qc) l.
Proof. induction l; cbn; congruence. Qed.
Lemma sum_has ns ms : length ms = length ns -> NoDup ns -> Qcsum (map (scontent ns ms) ns) = Qcsum ms.
Proof.
  revert ms. induction ns as [|n ns IH]; intros [|m ms] L N; try discriminate; auto. inversion N; subst. cbn [map]. rewrite !sum_cons, content_cons, content_absent by auto.
  rewrite <- (IH ms) by (cbn in L; auto; lia). destruct (dec n n); [|congruence]. f_equal; [ring|]. f_equal. apply map_ext_in. intros a Ha. rewrite content_cons.
  destruct (dec n a); [subst; tauto|ring].
Qed.
End Contents.
Lemma sum_swap {A B} (f : A -> B -> Qc) la lb : Qcsum (map (fun a => Qcsum (map (f a) lb)) la) = Qcsum (map (fun b => Qcsum (map (fun a => f a b) la)) lb).
Proof.
  induction la as [|a la IH]; cbn [map]. - rewrite map_zero, sum_repeat. reflexivity.
  - rewrite sum_cons, IH. clear. induction lb as [|b lb IH]; cbn [map]; [unfold Qcsum; cbn; ring|]. rewrite !sum_cons, <- IH. ring.
Qed.
