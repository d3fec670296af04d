(** Shared activities and structures: running a model with shared objects. *)
From Verif Require Import Prelude M_Dates M_Accounts M_Ledger M_Business M_Shared Spec_Shared Spec_Business P_Business.
Local Open Scope string_scope.
Local Open Scope list_scope.

Lemma hset_len h : forall i a, length (hset h i a) = length h.
Proof. induction h as [|b h IH]; intros [|i] a; cbn [hset length]; auto. Qed.
Lemma hget_same h : forall i a, (i < length h)%nat -> hget (hset h i a) i = a.
Proof. unfold hget. induction h as [|b h IH]; intros [|i] a L; cbn [hset nth length] in *; try lia; auto. apply IH. lia. Qed.
Lemma hget_other h : forall i j a, i <> j -> hget (hset h i a) j = hget h j.
Proof. unfold hget. induction h as [|b h IH]; intros [|i] [|j] a N; cbn [hset nth]; auto; try congruence. Qed.
Definition inb (h : heap) (ids : list nat) : Prop := forall i, In i ids -> (i < length h)%nat.

Lemma scomp_ind' (P : scomp -> Prop) :
  (forall n pp p ss aa, Forall P ss -> P (SComp n pp p ss aa)) -> forall k, P k.
Proof. intros H. fix IH 1. intros [n pp p ss aa]. apply H. induction ss as [|x ss IHs]; constructor; auto. Qed.
Lemma own_ext h h' k : (forall i, In i (refs k) -> hget h i = hget h' i) -> own_comp h k = own_comp h' k.
Proof.
  induction k as [n pp p ss aa IH] using scomp_ind'. cbn [refs own_comp]. intros E. f_equal.
  - assert (G : forall i, In i (flat_map refs ss) -> hget h i = hget h' i) by (intros i I; apply E, in_or_app; now left).
    clear E. induction IH as [|s ss S F IHs]; cbn [map flat_map] in *; auto. f_equal; [apply S; intros; apply G, in_or_app; now left|apply IHs; intros; apply G, in_or_app; now right].
  - apply map_ext_in. intros i I. apply E, in_or_app. now right.
Qed.
Lemma own_comps_ext h h' ks : (forall i, In i (flat_map refs ks) -> hget h i = hget h' i) -> map (own_comp h) ks = map (own_comp h') ks.
Proof. intros E. apply map_ext_in. intros k K. apply own_ext. intros i I. apply E, in_flat_map. eauto. Qed.

(** * Preparing *)
Section Prepare.
Variables (c : clock) (n : Z) (h0 : heap).
Definition finished (h : heap) (i : nat) : Prop := prepare_activity c n (hget h0 i) = Ok (hget h i).
Definition prepd (h : heap) : Prop := length h = length h0 /\ forall i, hget h i = hget h0 i \/ finished h i.
Definition grows (h h' : heap) (ids : list nat) : Prop := prepd h' /\ (forall i, In i ids -> finished h' i) /\ forall i, finished h i -> finished h' i.

Lemma prep_ref h i : prepd h -> (i < length h0)%nat ->
  match prepare_ref c n h i with Ok h' => grows h h' [i] | Err e => prepare_activity c n (hget h0 i) = Err e end.
Proof.
  intros [L P] B. unfold prepare_ref. destruct (P i) as [E|F].
  - rewrite E. destruct (prepare_activity c n (hget h0 i)) as [a|e] eqn:A; cbn [bind]; auto.
    assert (X : forall j, finished h j -> finished (hset h i a) j).
    { intros j J. unfold finished in *. destruct (Nat.eq_dec i j) as [<-|N]; [rewrite hget_same by congruence; auto|rewrite hget_other; auto]. }
    split; [split; [now rewrite hset_len|]|split; auto].
    + intros j. destruct (Nat.eq_dec i j) as [<-|N]; [right; unfold finished; rewrite hget_same by congruence; auto|]. rewrite hget_other by auto. destruct (P j); auto.
    + intros j [<-|[]]. unfold finished. rewrite hget_same by congruence. auto.
  - rewrite (prepare_act_idem _ _ _ _ F). cbn [bind].
    assert (X : forall j, hget (hset h i (hget h i)) j = hget h j).
    { intros j. destruct (Nat.eq_dec i j) as [<-|N]; [apply hget_same; congruence|now apply hget_other]. }
    unfold grows, prepd, finished in *. rewrite hset_len. split; [split; auto; intros j; rewrite X; apply P|]. split; intros j J; rewrite X; auto. destruct J as [<-|[]]; auto.
Qed.
Lemma grows_trans h h1 h2 a b : grows h h1 a -> grows h1 h2 b -> grows h h2 (a ++ b).
Proof. intros (A1 & A2 & A3) (B1 & B2 & B3). split; auto. split; auto. intros i I. apply in_app_or in I. destruct I; auto. Qed.

Section Each.
Context {A B : Type} (refsA : A -> list nat) (hstep : heap -> A -> res heap) (vstep : A -> res B).
Definition prepares (x : A) : Prop := forall h, prepd h -> inb h0 (refsA x) -> match hstep h x with Ok h' => grows h h' (refsA x) | Err e => vstep x = Err e end.
Lemma each_prepares l : Forall prepares l -> (forall x, In x l -> (exists h, prepd h /\ forall i, In i (refsA x) -> finished h i) -> exists y, vstep x = Ok y) ->
  forall h, prepd h -> inb h0 (flat_map refsA l) ->
  match foldM hstep l h with Ok h' => grows h h' (flat_map refsA l) | Err e => mapM vstep l = Err e end.
Proof.
  induction 1 as [|x l X F IH]; intros V h P I; cbn [foldM flat_map mapM]; [split; auto; split; auto; intros i []|].
  assert (Ix : inb h0 (refsA x)) by (intros i J; apply I, in_or_app; now left).
  specialize (X h P Ix). destruct (hstep h x) as [h1|e]; cbn [bind]; [|rewrite X; reflexivity].
  assert (Il : inb h0 (flat_map refsA l)) by (intros i J; apply I, in_or_app; now right).
  specialize (IH (fun y Y => V y (or_intror Y)) h1 (proj1 X) Il). destruct (foldM hstep l h1) as [h2|e]; [eapply grows_trans; eauto|].
  destruct (V x (or_introl eq_refl)) as [y Y]; [exists h1; split; [apply X|apply X]|]. rewrite Y. cbn [bind]. rewrite IH. reflexivity.
Qed.
End Each.
Lemma mapM_finished h ids : (forall i, In i ids -> finished h i) -> mapM (fun i => prepare_activity c n (hget h0 i)) ids = Ok (map (hget h) ids).
Proof. induction ids as [|i ids IH]; intros F; cbn [mapM map]; auto. rewrite (F i) by now left. cbn [bind]. rewrite IH; [reflexivity|]. intros; apply F; now right. Qed.
Lemma mapM_map {A B C} (g : A -> B) (f : B -> res C) l : mapM f (map g l) = mapM (fun x => f (g x)) l.
Proof. induction l as [|a l IH]; cbn [mapM map]; auto. rewrite IH. reflexivity. Qed.
Lemma own_prepared h k : (forall i, In i (refs k) -> finished h i) -> prepare_comp c n (own_comp h0 k) = Ok (own_comp h k).
Proof.
  induction k as [nm pp p ss aa IH] using scomp_ind'. cbn [refs own_comp prepare_comp]. intros F.
  assert (G : mapM (prepare_comp c n) (map (own_comp h0) ss) = Ok (map (own_comp h) ss)).
  { assert (F1 : forall i, In i (flat_map refs ss) -> finished h i) by (intros; apply F, in_or_app; now left). clear F.
    induction IH as [|s ss S Fs IHs]; cbn [map mapM flat_map] in *; auto. rewrite S by (intros; apply F1, in_or_app; now left). cbn [bind]. rewrite IHs by (intros; apply F1, in_or_app; now right). reflexivity. }
  rewrite G. cbn [bind]. rewrite mapM_map, (mapM_finished h) by (intros; apply F, in_or_app; now right). reflexivity.
Qed.
Lemma own_prepared_all h ks : (forall i, In i (flat_map refs ks) -> finished h i) -> mapM (prepare_comp c n) (map (own_comp h0) ks) = Ok (map (own_comp h) ks).
Proof. induction ks as [|k ks IH]; intros F; cbn [map mapM flat_map] in *; auto. rewrite (own_prepared h) by (intros; apply F, in_or_app; now left). cbn [bind]. rewrite IH by (intros; apply F, in_or_app; now right). reflexivity. Qed.
Lemma prep_scomp k : prepares refs (fun h k => prepare_scomp c n h k) (fun k => prepare_comp c n (own_comp h0 k)) k.
Proof.
  induction k as [nm pp p ss aa IH] using scomp_ind'. intros h P I. cbn [refs own_comp prepare_comp prepare_scomp] in *.
  assert (V1 := each_prepares refs (fun h s => prepare_scomp c n h s) (fun k => prepare_comp c n (own_comp h0 k)) ss IH (fun x _ H => match H with ex_intro _ h' (conj _ Q) => ex_intro _ _ (own_prepared h' x Q) end) h P).
  specialize (V1 (fun i J => I i (in_or_app _ _ _ (or_introl J)))). rewrite <- mapM_map in V1.
  destruct (foldM (fun h s => prepare_scomp c n h s) ss h) as [h1|e]; cbn [bind]; [|rewrite V1; reflexivity].
  assert (V2 := each_prepares (fun i => [i]) (prepare_ref c n) (fun i => prepare_activity c n (hget h0 i)) aa).
  rewrite (own_prepared_all h1) by apply V1. cbn [bind].
  assert (E : flat_map (fun i : nat => [i]) aa = aa) by (clear; induction aa; cbn; congruence). rewrite E in V2.
  assert (V3 : match foldM (prepare_ref c n) aa h1 with Ok h' => grows h1 h' aa | Err e => mapM (fun i => prepare_activity c n (hget h0 i)) aa = Err e end).
  { apply V2.
    - clear -I. apply Forall_forall. intros i _ h P J. apply prep_ref; auto. apply J. now left.
    - intros i _ (h' & _ & Q). eexists. apply (Q i). now left.
    - apply V1.
    - intros i J. apply I, in_or_app. now right. }
  destruct (foldM (prepare_ref c n) aa h1) as [h2|e]; [eapply grows_trans; eauto|]. rewrite mapM_map, V3. reflexivity.
Qed.
Variable bs : list gls.
Definition begun (ex cu : datetime) (e : sentity) : sentity := mksent (se_name e) (se_ppath e) (se_path e) (se_book e) [] (se_comps e) n (ck_start c) cu ex.
Definition srefs (e : sentity) : list nat := flat_map refs (se_comps e).
Lemma prep_entities es : forall h, prepd h -> inb h0 (flat_map srefs es) ->
  match traverse (prepare_sentity c n) es h with
  | Ok (h', es') => grows h h' (flat_map srefs es) /\ (forall h2, (forall j, In j (flat_map srefs es) -> finished h2 j) -> mapM (prepare_entity c n) (map (own_entity h0 bs) es) = Ok (map (own_entity h2 bs) es')) /\ flat_map srefs es' = flat_map srefs es
  | Err e => mapM (prepare_entity c n) (map (own_entity h0 bs) es) = Err e
  end.
Proof.
  induction es as [|x es IH]; intros h P I; cbn [traverse map mapM flat_map].
  { split; [split; auto; split; auto; intros i []|]. auto. }
  assert (Ix : inb h0 (srefs x)) by (intros i J; apply I, in_or_app; now left). assert (Il : inb h0 (flat_map srefs es)) by (intros i J; apply I, in_or_app; now right).
  assert (PE : prepare_entity c n (own_entity h0 bs x) = do ex <- datetime_at c n; do cu <- add_years (ck_start c) 1; do cs <- mapM (prepare_comp c n) (map (own_comp h0) (se_comps x));
    Ok (mkent (se_name x) (se_ppath x) (se_path x) (mkledger (book bs (se_book x)) []) cs n (ck_start c) cu ex)) by reflexivity.
  unfold prepare_sentity at 1.
  destruct (datetime_at c n) as [ex|er]; cbn [bind] in *; [|rewrite PE; reflexivity]. destruct (add_years (ck_start c) 1) as [cu|er]; cbn [bind] in *; [|rewrite PE; reflexivity].
  assert (FA : Forall (prepares refs (fun h k => prepare_scomp c n h k) (fun k => prepare_comp c n (own_comp h0 k))) (se_comps x)) by (apply Forall_forall; intros k _; apply prep_scomp).
  assert (V := each_prepares refs (fun h s => prepare_scomp c n h s) (fun k => prepare_comp c n (own_comp h0 k)) (se_comps x) FA (fun x _ H => match H with ex_intro _ h' (conj _ Q) => ex_intro _ _ (own_prepared h' x Q) end) h P Ix).
  rewrite <- mapM_map in V. change (fun h s => prepare_scomp c n h s) with (prepare_scomp c n) in V. destruct (foldM (prepare_scomp c n) (se_comps x) h) as [h1|er]; cbn [bind fst snd]; [|rewrite PE, V; reflexivity].
  specialize (IH h1 (proj1 V) Il). destruct (traverse (prepare_sentity c n) es h1) as [[h2 es']|er]; cbn [bind fst snd].
  - destruct IH as (G & Q1 & Q2). split; [eapply grows_trans; eauto|]. split.
    + intros h3 F. rewrite PE, (own_prepared_all h3) by (intros; apply F, in_or_app; now left). cbn [bind]. rewrite (Q1 h3) by (intros; apply F, in_or_app; now right). reflexivity.
    + cbn [flat_map]. rewrite Q2. reflexivity.
  - rewrite PE, (own_prepared_all h1) by apply V. cbn [bind]. rewrite IH. reflexivity.
Qed.
End Prepare.

(** * Running *)
Definition loan_in (h : heap) (i : nat) : bool := is_loan (hget h i).
Definition keeps (h h' : heap) (ids : list nat) : Prop :=
  length h' = length h /\ (forall i, loan_in h' i = loan_in h i) /\ forall i, ~ (In i ids /\ loan_in h i = true) -> hget h' i = hget h i.
Definition once (h : heap) (ids : list nat) : Prop := NoDup (filter (loan_in h) ids).
Lemma keeps_trans h h1 h2 a b : keeps h h1 a -> keeps h1 h2 b -> keeps h h2 (a ++ b).
Proof.
  intros (A1 & A2 & A3) (B1 & B2 & B3). split; [congruence|]. split; [intros i; rewrite B2; auto|]. intros i N.
  rewrite B3, A3; auto; intros [I L]; apply N; split; try (apply in_or_app; auto); auto. rewrite A2 in L. exact L.
Qed.
Lemma once_app h a b : once h (a ++ b) -> once h a /\ once h b /\ forall i, In i a -> In i b -> loan_in h i = false.
Proof.
  unfold once. rewrite filter_app. intros N.
  assert (G : forall (x y : list nat), NoDup (x ++ y) -> NoDup x /\ NoDup y /\ forall i, In i x -> ~ In i y).
  { clear. induction x as [|i x IH]; intros y N; cbn [app] in N; [split; [constructor|split; auto]|]. inversion N as [|? ? A B]; subst. destruct (IH y B) as (C & D & E). split; [constructor; auto; intros I; apply A, in_or_app; now left|].
    split; auto. intros j [<-|J]; auto. intros I. apply A, in_or_app. now right. }
  destruct (G _ _ N) as (A & B & C). split; auto. split; auto. intros i I J. destruct (loan_in h i) eqn:L; auto. exfalso. apply (C i); apply filter_In; auto.
Qed.
Lemma once_keeps h h' a ids : keeps h h' a -> once h ids -> once h' ids.
Proof. intros (_ & E & _). unfold once. rewrite (filter_ext _ _ E). auto. Qed.
Lemma next_loan c a : is_loan (act_next c a) = is_loan a.
Proof. unfold act_next, is_loan. destruct (criteria a (ck_ix c)); auto. destruct (ac_kind a) eqn:E; cbn; rewrite ?E; auto. Qed.
Lemma next_basic c a : is_loan a = false -> act_next c a = a.
Proof. unfold act_next, is_loan. destruct (criteria a (ck_ix c)); auto. destruct (ac_kind a); [auto|discriminate]. Qed.

Section Jobs.
Context {S A B : Type} (refsA : A -> list nat) (hrun : S * heap -> A -> res (S * heap)) (ownA : heap -> A -> B) (vrun : S -> B -> res (S * B)).
Hypothesis ownA_ext : forall a h h', (forall i, In i (refsA a) -> hget h i = hget h' i) -> ownA h a = ownA h' a.
Definition runs (a : A) : Prop := forall l h, inb h (refsA a) -> once h (refsA a) ->
  match hrun (l, h) a with Ok (l', h') => vrun l (ownA h a) = Ok (l', ownA h' a) /\ keeps h h' (refsA a) | Err e => vrun l (ownA h a) = Err e end.
Lemma own_kept h h' a ids : keeps h h' ids -> (forall i, In i ids -> In i (refsA a) -> loan_in h i = false) -> ownA h' a = ownA h a.
Proof. intros (_ & _ & K) D. apply ownA_ext. intros i I. apply K. intros [J L]. rewrite (D i J I) in L. discriminate. Qed.
Lemma jobs l : Forall runs l -> forall s h, inb h (flat_map refsA l) -> once h (flat_map refsA l) ->
  match foldM hrun l (s, h) with
  | Ok (s', h') => traverse vrun (map (ownA h) l) s = Ok (s', map (ownA h') l) /\ keeps h h' (flat_map refsA l)
  | Err e => traverse vrun (map (ownA h) l) s = Err e
  end.
Proof.
  induction 1 as [|x l X F IH]; intros s h I N; cbn [foldM map flat_map traverse]; [split; auto; split; auto|].
  assert (Ix : inb h (refsA x)) by (intros i J; apply I, in_or_app; now left). assert (Il : inb h (flat_map refsA l)) by (intros i J; apply I, in_or_app; now right).
  cbn [flat_map] in N. destruct (once_app _ _ _ N) as (Nx & Nl & D). specialize (X s h Ix Nx). destruct (hrun (s, h) x) as [[s1 h1]|e]; cbn [bind]; [|rewrite X; reflexivity].
  destruct X as [X K]. rewrite X. cbn [bind fst snd].
  assert (E : map (ownA h) l = map (ownA h1) l).
  { apply map_ext_in. intros a Ha. symmetry. apply (own_kept _ _ _ _ K). intros i J Q. apply (D i J). apply in_flat_map. eauto. }
  rewrite E. assert (Il1 : inb h1 (flat_map refsA l)) by (intros i J; rewrite (proj1 K); auto).
  specialize (IH s1 h1 Il1 (once_keeps _ _ _ _ K Nl)). destruct (foldM hrun l (s1, h1)) as [[s2 h2]|e]; cbn [bind fst snd].
  - destruct IH as [V K2]. rewrite V. cbn [bind fst snd]. split; [|eapply keeps_trans; eauto]. do 3 f_equal. symmetry. apply (own_kept _ _ _ _ K2). intros i J Q. rewrite (proj1 (proj2 K)). apply (D i Q J).
  - rewrite IH. reflexivity.
Qed.
End Jobs.

Lemma runs_ref c i : runs (fun i => [i]) (run_ref c) hget (run_activity c) i.
Proof.
  intros l h I _. unfold run_ref. cbn [fst snd]. destruct (run_activity c l (hget h i)) as [[l' a']|e] eqn:E; cbn [bind fst snd]; auto.
  apply run_activity_ok in E as E'. destruct E' as (_ & _ & Ea). assert (B : (i < length h)%nat) by (apply I; now left). rewrite hget_same by auto. split; auto. split; [apply hset_len|]. split.
  - intros j. unfold loan_in. destruct (Nat.eq_dec i j) as [<-|N]; [rewrite hget_same, Ea by auto; apply next_loan|now rewrite hget_other].
  - intros j N. destruct (Nat.eq_dec i j) as [<-|D]; [|now apply hget_other]. rewrite hget_same by auto. rewrite Ea. apply next_basic. destruct (is_loan (hget h i)) eqn:L; auto. exfalso. apply N. split; [now left|exact L].
Qed.
Lemma flat_single (l : list nat) : flat_map (fun i => [i]) l = l.
Proof. induction l; cbn; congruence. Qed.
Lemma runs_scomp c k : runs refs (fun x s => run_scomp c x s) own_comp (fun l s => run_comp c l s) k.
Proof.
  induction k as [nm pp p ss aa IH] using scomp_ind'. intros l h I N. cbn [refs own_comp run_scomp run_comp] in *.
  destruct (once_app _ _ _ N) as (Ns & Na & D).
  assert (V := jobs refs (fun x s => run_scomp c x s) own_comp (fun l s => run_comp c l s) (fun a h h' => own_ext h h' a) ss IH l h (fun i J => I i (in_or_app _ _ _ (or_introl J))) Ns).
  destruct (foldM (fun x s => run_scomp c x s) ss (l, h)) as [[l1 h1]|e]; cbn [bind]; [|rewrite V; reflexivity]. destruct V as [V K]. rewrite V. cbn [bind fst snd].
  assert (E : map (hget h) aa = map (hget h1) aa).
  { apply map_ext_in. intros i Hi. symmetry. apply K. intros [J L]. rewrite (D i J Hi) in L. discriminate. }
  rewrite E.
  assert (W := jobs (fun i => [i]) (run_ref c) hget (run_activity c) (fun a h h' Q => Q a (or_introl eq_refl)) aa (proj2 (Forall_forall _ _) (fun i _ => runs_ref c i)) l1 h1).
  rewrite flat_single in W. specialize (W ltac:(intros i J; rewrite (proj1 K); apply I, in_or_app; now right) (once_keeps _ _ _ _ K Na)).
  destruct (foldM (run_ref c) aa (l1, h1)) as [[l2 h2]|e]; [|rewrite W; reflexivity]. destruct W as [W K2]. rewrite W. cbn [bind fst snd]. split; [|eapply keeps_trans; eauto].
  do 3 f_equal. apply own_comps_ext. intros i J. symmetry. apply K2. intros [Q L]. rewrite (proj1 (proj2 K)) in L. rewrite (D i J Q) in L. discriminate.
Qed.
Lemma year_end_frame c e : year_end c e = do y <- year_end c (mkent (en_name e) (en_ppath e) (en_path e) (en_gl e) [] (en_count e) (en_prev e) (en_curr e) (en_exec e));
  Ok (mkent (en_name e) (en_ppath e) (en_path e) (mkledger (l_structure (en_gl e)) (l_txs (en_gl y))) (en_comps e) (en_count y) (en_prev y) (en_curr y) (en_exec y)).
Proof.
  unfold year_end. cbn [en_curr en_count en_exec en_gl en_path en_prev en_name en_ppath en_comps]. destruct (get_datetime c) as [now|]; cbn [bind]; auto.
  destruct (dt_leb (en_curr e) now || (ck_ix c =? en_count e)%Z).
  - destruct (add_us (en_curr e) (-1000000)) as [ye|]; cbn [bind]; auto. destruct (add_years (en_curr e) 1) as [nx|]; cbn [bind]; auto.
    destruct (close_year _ _ _ _ _) as [cl|]; cbn [bind]; auto.
  - cbn [bind en_gl en_count en_prev en_curr en_exec]. destruct e as [a b p [g t] k n u v w]. reflexivity.
Qed.
Lemma runs_sentity c bs e h : inb h (srefs e) -> once h (srefs e) ->
  match run_sentity c bs h e with
  | Ok (h', e') => run_entity c (own_entity h bs e) = Ok (own_entity h' bs e') /\ keeps h h' (srefs e) /\ srefs e' = srefs e
  | Err x => run_entity c (own_entity h bs e) = Err x
  end.
Proof.
  intros I N. unfold run_sentity, run_entity. cbn [own_entity en_count en_comps en_gl en_name en_ppath en_path en_prev en_curr en_exec].
  destruct (se_count e <=? ck_ix c)%Z; [split; auto; split; auto; split; auto|].
  assert (V := jobs refs (fun x s => run_scomp c x s) own_comp (fun l s => run_comp c l s) (fun a h h' => own_ext h h' a) (se_comps e) (proj2 (Forall_forall _ _) (fun k _ => runs_scomp c k)) (mkledger (book bs (se_book e)) (se_txs e)) h I N).
  change (fun x s => run_scomp c x s) with (run_scomp c) in V. change (fun l s => run_comp c l s) with (run_comp c) in V.
  destruct (foldM (run_scomp c) (se_comps e) (mkledger (book bs (se_book e)) (se_txs e), h)) as [[l h1]|x]; cbn [bind]; [|rewrite V; reflexivity]. destruct V as [V K]. rewrite V. cbn [bind fst snd].
  apply run_comps_ok in V as (V1 & V2 & _).
  assert (El : mkledger (l_structure l) (l_txs l) = l) by (destruct l; reflexivity).
  match goal with |- context[match (do y <- year_end c (frame_of ?g ?t e); _) with _ => _ end] => remember (frame_of g t e) as fr eqn:Ef end.
  unfold frame_of in Ef. rewrite El in Ef.
  match goal with |- context[year_end c (mkent ?a ?b ?d ?g (map ?f ?z) ?i ?j ?k ?m)] => rewrite (year_end_frame c (mkent a b d g (map f z) i j k m)) end. cbn [en_gl en_name en_ppath en_path en_comps en_count en_prev en_curr en_exec]. rewrite <- Ef. clear Ef.
  destruct (year_end c fr) as [y|x]; cbn [bind]; [|reflexivity]. split; [|split; auto]. unfold own_entity. cbn [se_name se_ppath se_path se_book se_txs se_comps se_count se_prev se_curr se_exec]. rewrite V2. reflexivity.
Qed.
Lemma own_entity_kept h h' bs e ids : keeps h h' ids -> (forall i, In i ids -> In i (srefs e) -> loan_in h i = false) -> own_entity h' bs e = own_entity h bs e.
Proof.
  intros (_ & _ & K) D. unfold own_entity. f_equal. apply own_comps_ext. intros i I. apply K. intros [J L]. rewrite (D i J I) in L. discriminate.
Qed.
Lemma runs_entities c bs es : forall h, inb h (flat_map srefs es) -> once h (flat_map srefs es) ->
  match traverse (run_sentity c bs) es h with
  | Ok (h', es') => mapM (run_entity c) (map (own_entity h bs) es) = Ok (map (own_entity h' bs) es') /\ keeps h h' (flat_map srefs es) /\ flat_map srefs es' = flat_map srefs es
  | Err x => mapM (run_entity c) (map (own_entity h bs) es) = Err x
  end.
Proof.
  induction es as [|x es IH]; intros h I N; cbn [traverse map mapM flat_map]; [split; auto; split; auto; split; auto|].
  assert (Ix : inb h (srefs x)) by (intros i J; apply I, in_or_app; now left). assert (Il : inb h (flat_map srefs es)) by (intros i J; apply I, in_or_app; now right).
  cbn [flat_map] in N. destruct (once_app _ _ _ N) as (Nx & Nl & D). assert (X := runs_sentity c bs x h Ix Nx). destruct (run_sentity c bs h x) as [[h1 x']|e]; cbn [bind fst snd]; [|rewrite X; reflexivity].
  destruct X as (X & K & Ex). rewrite X. cbn [bind].
  assert (E : map (own_entity h bs) es = map (own_entity h1 bs) es).
  { apply map_ext_in. intros a Ha. symmetry. apply (own_entity_kept _ _ _ _ _ K). intros i J Q. apply (D i J). apply in_flat_map. eauto. }
  rewrite E. assert (Il1 : inb h1 (flat_map srefs es)) by (intros i J; rewrite (proj1 K); auto).
  specialize (IH h1 Il1 (once_keeps _ _ _ _ K Nl)). destruct (traverse (run_sentity c bs) es h1) as [[h2 es']|e]; cbn [bind fst snd].
  - destruct IH as (V & K2 & E2). rewrite V. cbn [bind map flat_map]. split; [|split; [eapply keeps_trans; eauto|congruence]]. do 2 f_equal. symmetry. apply (own_entity_kept _ _ _ _ _ K2). intros i J Q. rewrite (proj1 (proj2 K)). apply (D i); auto. rewrite <- Ex. exact Q.
  - rewrite IH. reflexivity.
Qed.
Definition sound (s : shared) : Prop := inb (sh_acts s) (places s).
Lemma run_periods_own n : forall s, sound s -> once (sh_acts s) (places s) ->
  run_periods n (own s) = do s' <- run_shared_periods n s; Ok (own s').
Proof.
  induction n as [|n IH]; intros s I N; cbn [run_periods run_shared_periods]; [reflexivity|].
  assert (V := runs_entities (sh_clock s) (sh_books s) (sh_ents s) (sh_acts s) I N). unfold own at 1 2. cbn [md_clock md_ents].
  destruct (traverse _ (sh_ents s) (sh_acts s)) as [[h' es']|e]; cbn [bind fst snd]; [|rewrite V; reflexivity]. destruct V as (V & K & E). rewrite V. cbn [bind].
  rewrite <- IH; [reflexivity| |].
  - unfold sound, places in *. cbn [sh_acts sh_ents]. change (fun e => flat_map refs (se_comps e)) with srefs in *. intros i J. rewrite E in J. rewrite (proj1 K). apply I, J.
  - unfold places in *. cbn [sh_acts sh_ents]. change (fun e => flat_map refs (se_comps e)) with srefs in *. rewrite E. apply (once_keeps _ _ _ _ K N).
Qed.
Lemma prepare_loan c n a b : prepare_activity c n a = Ok b -> is_loan b = is_loan a.
Proof.
  unfold prepare_activity, prepare_base. destruct (if (ac_start_ix a =? -1)%Z && _ then _ else _) as [f|]; cbn [bind]; [|discriminate]. destruct (if (ac_count a =? -1)%Z && _ then _ else _) as [g|]; cbn [bind]; [|discriminate]. injection 1 as <-. unfold is_loan. cbn. destruct (ac_kind a); reflexivity.
Qed.
Lemma run_own s : sound s -> loans_once s -> run_model (own s) = do s' <- run_shared s; Ok (own s').
Proof.
  intros I N. unfold run_model, run_shared, prepare_model, prepare_shared. set (c := reset (sh_clock s)).
  assert (P0 : prepd c (sh_count s) (sh_acts s) (sh_acts s)) by (split; auto).
  assert (V := prep_entities c (sh_count s) (sh_acts s) (sh_books s) (sh_ents s) (sh_acts s) P0 I). unfold own at 1 2 3. cbn [md_clock md_count md_ents]. fold c.
  destruct (traverse (prepare_sentity c (sh_count s)) (sh_ents s) (sh_acts s)) as [[h' es']|e]; cbn [bind fst snd]; [|rewrite V; reflexivity].
  destruct V as (((L & G1) & G2 & _) & V & E). rewrite (V h') by auto. cbn [bind]. unfold own at 1. cbn [md_count sh_count].
  assert (Lo : forall i, loan_in h' i = loan_in (sh_acts s) i).
  { intros i. unfold loan_in. destruct (G1 i) as [X|X]; [now rewrite X|]. apply (prepare_loan _ _ _ _ X). }
  set (p := mkshared (sh_name s) c (sh_count s) h' (sh_books s) es'). 
  change (run_periods (Z.to_nat (sh_count p)) (own p) = (do s' <- run_shared_periods (Z.to_nat (sh_count p)) p; Ok (own s'))). apply run_periods_own.
  - intros i J. unfold places, p in *. cbn [sh_acts sh_ents] in *. change (fun e => flat_map refs (se_comps e)) with srefs in *. rewrite E in J. rewrite L. apply I, J.
  - unfold once, places, p. cbn [sh_acts sh_ents]. change (fun e => flat_map refs (se_comps e)) with srefs. rewrite E. rewrite (filter_ext _ _ Lo). exact N.
Qed.
