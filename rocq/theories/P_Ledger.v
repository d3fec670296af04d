From Verif Require Import Prelude M_Dates M_Accounts M_Ledger Spec_Accounts Spec_Ledger P_Accounts.
From Coq Require Import Permutation Sorting.Sorted.
Open Scope string_scope.

(** ** Sums *)
Lemma Qcsum_app l1 l2 : Qcsum (l1 ++ l2) = (Qcsum l1 + Qcsum l2)%Qc.
Proof. induction l1 as [|x l1 IH]; unfold Qcsum in *; cbn; [ring|]. rewrite IH. ring. Qed.
Lemma Qcsum_cons x l : Qcsum (x :: l) = (x + Qcsum l)%Qc.
Proof. reflexivity. Qed.
Lemma Qcsum_perm l1 l2 : Permutation l1 l2 -> Qcsum l1 = Qcsum l2.
Proof. induction 1; rewrite ?Qcsum_cons in *; try congruence; auto. ring. Qed.

(** ** Dictionaries *)
Definition op := (string * (Qc * Qc))%type.
Definition run_ops (ops : list op) (d : dict) : dict :=
  fold_left (fun d o => dict_upd (fst o) (fst (snd o)) (snd (snd o)) d) ops d.
Definition ops_at (k : string) (ops : list op) : list op := filter (fun o => fst o =? k) ops.
Definition sum_delta (ops : list op) : Qc := Qcsum (map (fun o => fst (snd o)) ops).

Lemma dict_get_upd k dl i d k' :
  dict_get k' (dict_upd k dl i d) =
  if k =? k' then Some (match dict_get k d with Some v => (v + dl)%Qc | None => i end) else dict_get k' d.
Proof.
  induction d as [|[k0 v] d IH]; cbn.
  - destruct (k =? k') eqn:E; reflexivity.
  - destruct (k0 =? k) eqn:E0; cbn.
    + apply String.eqb_eq in E0. subst k0. destruct (k =? k'); reflexivity.
    + destruct (k0 =? k') eqn:E1.
      * apply String.eqb_eq in E1. subst k0. rewrite String.eqb_sym in E0. rewrite E0. reflexivity.
      * exact IH.
Qed.

Lemma dict_get_run ops k d :
  dict_get k (run_ops ops d) =
  match dict_get k d with
  | Some v => Some (v + sum_delta (ops_at k ops))%Qc
  | None => match ops_at k ops with
            | [] => None
            | o :: r => Some (snd (snd o) + sum_delta r)%Qc
            end
  end.
Proof.
  revert d. induction ops as [|[k0 [dl i]] ops IH]; intros d; cbn [run_ops fold_left].
  - cbn. destruct (dict_get k d); auto. f_equal. unfold sum_delta, Qcsum; cbn. ring.
  - unfold run_ops in IH. rewrite IH, dict_get_upd. cbn [fst snd]. unfold ops_at. cbn [filter fst].
    destruct (k0 =? k) eqn:E.
    + apply String.eqb_eq in E. subst k0. destruct (dict_get k d) as [v|]; cbn.
      * f_equal. unfold sum_delta. cbn. rewrite Qcsum_cons. ring.
      * reflexivity.
    + reflexivity.
Qed.

Lemma keys_upd k dl i d : keys (dict_upd k dl i d) = if existsb (fun x => x =? k) (keys d) then keys d else (keys d ++ [k])%list.
Proof.
  induction d as [|[k0 v] d IH]; [reflexivity|]. unfold keys in *. cbn [dict_upd map fst existsb].
  destruct (k0 =? k) eqn:E; cbn [map fst orb]; [reflexivity|].
  rewrite IH. destruct (existsb _ (map fst d)); reflexivity.
Qed.

Lemma nodup_upd k dl i d : NoDup (keys d) -> NoDup (keys (dict_upd k dl i d)).
Proof.
  intros H. rewrite keys_upd. destruct (existsb _ _) eqn:E; auto.
  apply (Permutation_NoDup (l := k :: keys d)).
  - apply Permutation_cons_append.
  - constructor; auto. intros Hin. apply not_true_iff_false in E. apply E. apply existsb_exists. exists k. split; auto.
    apply String.eqb_refl.
Qed.

Lemma nodup_run ops d : NoDup (keys d) -> NoDup (keys (run_ops ops d)).
Proof.
  revert d; induction ops as [|o ops IH]; intros d H; [exact H|]. cbn. apply IH, nodup_upd, H.
Qed.

Lemma in_dict_get d k v : NoDup (keys d) -> (In (k, v) d <-> dict_get k d = Some v).
Proof.
  induction d as [|[k0 v0] d IH]; cbn.
  - split; [tauto|discriminate].
  - intros H. inversion H as [|? ? N1 N2]; subst. destruct (k0 =? k) eqn:E.
    + apply String.eqb_eq in E. subst k0. split.
      * intros [X|X]; [congruence|]. exfalso. apply N1. apply in_map_iff. exists (k, v). auto.
      * intros X; left; congruence.
    + apply String.eqb_neq in E. rewrite <- IH by auto. split; [intros [X|X]; [congruence|auto]|auto].
Qed.

Lemma dict_sum_upd k dl i d :
  dict_sum (dict_upd k dl i d) = (dict_sum d + match dict_get k d with Some _ => dl | None => i end)%Qc.
Proof.
  unfold dict_sum. induction d as [|[k0 v] d IH]; cbn; rewrite ?Qcsum_cons.
  - unfold Qcsum; cbn. ring.
  - destruct (k0 =? k); cbn; rewrite ?Qcsum_cons; [ring|]. rewrite IH. ring.
Qed.

(** the sum of a dictionary is the sum of the deltas when every first entry is
    stored with its delta *)
Definition firsts_ok (ops : list op) (d : dict) : Prop :=
  forall k o r, dict_get k d = None -> ops_at k ops = o :: r -> snd (snd o) = fst (snd o).

Lemma dict_sum_run ops d : firsts_ok ops d -> dict_sum (run_ops ops d) = (dict_sum d + sum_delta ops)%Qc.
Proof.
  revert d. induction ops as [|[k0 [dl i]] ops IH]; intros d H; cbn [run_ops fold_left].
  - unfold sum_delta, Qcsum; cbn. ring.
  - unfold run_ops in IH. rewrite IH.
    + cbn [fst snd]. rewrite dict_sum_upd. unfold sum_delta. cbn. rewrite Qcsum_cons.
      assert (E : match dict_get k0 d with Some _ => dl | None => i end = dl).
      { destruct (dict_get k0 d) eqn:E; auto. specialize (H k0 (k0, (dl, i))). cbn in H. rewrite String.eqb_refl in H.
        exact (H _ E eq_refl). }
      rewrite E. ring.
    + intros k o r Hk Ho. cbn [fst snd] in Hk. rewrite dict_get_upd in Hk. destruct (k0 =? k) eqn:E; [discriminate|].
      apply (H k o r Hk). cbn. rewrite E. exact Ho.
Qed.

(** ** Dates *)
Lemma py_le_ok a b r : py_le a b = Ok r -> r = py_leb a b /\ comparable a b.
Proof. unfold py_le, py_leb, comparable. destruct a, b; cbn; intros H; inversion H; auto. Qed.

Lemma py_le_comparable a b : comparable a b -> py_le a b = Ok (py_leb a b).
Proof. unfold py_le, py_leb, comparable. destruct a, b; cbn; intros H; try discriminate; reflexivity. Qed.

Lemma py_le_err a b e : py_le a b = Err e -> e = TypeError /\ ~ comparable a b.
Proof. unfold py_le, comparable. destruct a, b; cbn; intros H; inversion H; split; auto; discriminate. Qed.

Lemma py_between_ok a t b r : py_between a t b = Ok r -> r = py_leb a t && py_leb t b.
Proof.
  unfold py_between. destruct (py_le a t) as [l|] eqn:E; cbn; [|discriminate].
  apply py_le_ok in E as [-> _]. destruct (py_leb a t); cbn.
  - intros H. apply py_le_ok in H. tauto.
  - congruence.
Qed.

Lemma py_between_comparable a t b : comparable a t -> comparable t b -> py_between a t b = Ok (py_leb a t && py_leb t b).
Proof.
  intros H1 H2. unfold py_between. rewrite py_le_comparable by auto. cbn.
  destruct (py_leb a t); auto. apply py_le_comparable; auto.
Qed.

(** ** Append-only ledger *)
Lemma posts_append ps l :
  l_txs (fold_left post ps l) = (l_txs l ++ map plain ps)%list /\
  l_structure (fold_left post ps l) = l_structure l.
Proof.
  revert l. induction ps as [|p ps IH]; intros l; cbn [fold_left map].
  - rewrite app_nil_r. auto.
  - destruct (IH (post l p)) as [E1 E2]. rewrite E1, E2. unfold post, create_transaction; cbn.
    rewrite <- app_assoc. auto.
Qed.

Lemma create_returns l n d dte dt cr src amt :
  let '(l', t) := create_transaction l n d dte dt cr src amt in
  l_txs l' = (l_txs l ++ [t])%list /\ l_structure l' = l_structure l /\
  t = mktx n d dte dt cr src amt false false.
Proof. cbn. auto. Qed.

(** ** Stable sort by date *)
Definition tleb (x y : tx) : bool := dt_leb (py_raw (tx_date x)) (py_raw (tx_date y)).

Lemma dt_cmp_flip a b : dt_cmp a b = CompOpp (dt_cmp b a).
Proof.
  unfold dt_cmp. rewrite (Z.compare_antisym (dt_year b)). destruct (dt_year b ?= dt_year a)%Z; cbn; auto.
  rewrite (Z.compare_antisym (dt_month b)). destruct (dt_month b ?= dt_month a)%Z; cbn; auto.
  rewrite (Z.compare_antisym (dt_day b)). destruct (dt_day b ?= dt_day a)%Z; cbn; auto.
  apply Z.compare_antisym.
Qed.

Lemma dt_leb_total a b : dt_leb a b = true \/ dt_leb b a = true.
Proof. unfold dt_leb. rewrite (dt_cmp_flip a b). destruct (dt_cmp b a); cbn; auto. Qed.

Lemma dt_leb_iff a b : dt_leb a b = true <->
  (dt_year a < dt_year b \/ dt_year a = dt_year b /\
   (dt_month a < dt_month b \/ dt_month a = dt_month b /\
    (dt_day a < dt_day b \/ dt_day a = dt_day b /\ dt_us a <= dt_us b)))%Z.
Proof.
  unfold dt_leb, dt_cmp.
  destruct (Z.compare_spec (dt_year a) (dt_year b)); [|split; auto; lia|split; [discriminate|lia]].
  destruct (Z.compare_spec (dt_month a) (dt_month b)); [|split; auto; lia|split; [discriminate|lia]].
  destruct (Z.compare_spec (dt_day a) (dt_day b)); [|split; auto; lia|split; [discriminate|lia]].
  destruct (Z.compare_spec (dt_us a) (dt_us b)); [split; auto; lia|split; auto; lia|split; [discriminate|lia]].
Qed.

Lemma dt_leb_trans a b c : dt_leb a b = true -> dt_leb b c = true -> dt_leb a c = true.
Proof. rewrite !dt_leb_iff. lia. Qed.

Lemma insert_perm x l : Permutation (x :: l) (insert_tx x l).
Proof.
  induction l as [|y l IH]; cbn; auto. destruct (dt_leb _ _); auto.
  eapply perm_trans; [apply perm_swap|]. constructor; auto.
Qed.

Lemma sort_perm l : Permutation l (sort_raw l).
Proof. induction l as [|x l IH]; cbn; auto. eapply perm_trans; [|apply insert_perm]. constructor; auto. Qed.


Lemma insert_sorted x l : StronglySorted date_le l -> StronglySorted date_le (insert_tx x l).
Proof.
  induction l as [|y l IH]; cbn; intros H.
  - constructor; constructor.
  - inversion H as [|? ? H1 H2]; subst. destruct (dt_leb _ _) eqn:E.
    + constructor; auto. constructor; auto. rewrite Forall_forall in *. intros z Hz. eapply dt_leb_trans; [exact E|apply H2; auto].
    + constructor; auto. apply Forall_forall. intros z Hz.
      apply (Permutation_in z (Permutation_sym (insert_perm x l))) in Hz. destruct Hz as [<-|Hz].
      * destruct (dt_leb_total (py_raw (tx_date x)) (py_raw (tx_date y))); [congruence|auto].
      * rewrite Forall_forall in H2; auto.
Qed.

Lemma sort_sorted l : StronglySorted date_le (sort_raw l).
Proof. induction l as [|x l IH]; cbn; [constructor|]. apply insert_sorted; auto. Qed.

(** stability: transactions with the same date keep their order *)
Lemma insert_stable d x l : StronglySorted date_le l ->
  filter (fun t => dt_eqb (py_raw (tx_date t)) d) (insert_tx x l) =
  filter (fun t => dt_eqb (py_raw (tx_date t)) d) (x :: l).
Proof.
  induction l as [|y l IH]; intros H; cbn [insert_tx]; auto.
  inversion H as [|? ? H1 H2]; subst. destruct (dt_leb _ _) eqn:E; auto.
  cbn [filter] in *. rewrite (IH H1).
  destruct (dt_eqb (py_raw (tx_date y)) d) eqn:Ey, (dt_eqb (py_raw (tx_date x)) d) eqn:Ex; auto.
  exfalso. assert (dt_cmp (py_raw (tx_date y)) d = Eq) by (unfold dt_eqb in Ey; destruct (dt_cmp _ _); congruence).
  assert (dt_cmp (py_raw (tx_date x)) d = Eq) by (unfold dt_eqb in Ex; destruct (dt_cmp _ _); congruence).
  assert (EQ : forall a, dt_cmp a d = Eq -> a = d).
  { clear. intros [y m dd u] Hc. unfold dt_cmp in Hc. destruct d as [y' m' d' u']; cbn in *.
    destruct (Z.compare_spec y y'); try discriminate. destruct (Z.compare_spec m m'); try discriminate.
    destruct (Z.compare_spec dd d'); try discriminate. destruct (Z.compare_spec u u'); try discriminate. congruence. }
  apply EQ in H0, H3. rewrite H0, H3 in E.
  destruct (dt_leb_total d d); congruence.
Qed.

Lemma sort_stable d l :
  filter (fun t => dt_eqb (py_raw (tx_date t)) d) (sort_raw l) = filter (fun t => dt_eqb (py_raw (tx_date t)) d) l.
Proof.
  induction l as [|x l IH]; auto. cbn [sort_raw]. rewrite insert_stable by apply sort_sorted. cbn. rewrite IH. reflexivity.
Qed.

Lemma filter_perm {A} (f : A -> bool) l l' : Permutation l l' -> Permutation (filter f l) (filter f l').
Proof.
  induction 1 as [|x l l' H IH|x y l|l l' l'' H1 IH1 H2 IH2]; cbn.
  - constructor.
  - destruct (f x); auto.
  - destruct (f x), (f y); auto. constructor.
  - eapply perm_trans; eauto.
Qed.

Lemma sorted_filter {A} (R : A -> A -> Prop) f l : StronglySorted R l -> StronglySorted R (filter f l).
Proof.
  induction 1 as [|x l H IH HF]; cbn; [constructor|]. destruct (f x); auto. constructor; auto.
  rewrite Forall_forall in *. intros y Hy. apply filter_In in Hy. apply HF; tauto.
Qed.

Lemma filter_comm {A} (f h : A -> bool) l : filter f (filter h l) = filter h (filter f l).
Proof. induction l as [|x l IH]; cbn; auto. destruct (h x) eqn:E1, (f x) eqn:E2; cbn; rewrite ?E1, ?E2, IH; auto. Qed.

(** ** Transaction list *)
Lemma tl_fold start fin path l rows tot r :
  foldM (tl_step start fin path) l (rows, tot) = Ok r ->
  fst r = (rows ++ map tl_row_of (selected start fin path l))%list /\
  snd r = (tot + Qcsum (map tx_amount (selected start fin path l)))%Qc.
Proof.
  revert rows tot. induction l as [|t l IH]; intros rows tot; cbn [foldM].
  - intros H; inversion H; subst; cbn. rewrite app_nil_r. split; auto. unfold Qcsum; cbn; ring.
  - unfold tl_step at 1. unfold source_starts. destruct (tx_source t) as [s|] eqn:Es; cbn [bind]; [|discriminate].
    unfold selected; cbn [filter]. rewrite Es. cbn [str_of].
    destruct (starts_with s path); cbn [negb andb].
    + destruct (py_between start (tx_date t) fin) as [b|] eqn:Eb; cbn [bind]; [|discriminate].
      apply py_between_ok in Eb. rewrite <- Eb. destruct b; cbn [bind fst snd].
      * intros H. apply IH in H as [H1 H2]. unfold selected in H1, H2. rewrite H1, H2. cbn [map]. rewrite <- app_assoc, Qcsum_cons.
        split; auto. ring.
      * apply IH.
    + apply IH.
Qed.

Lemma transaction_list_correct l start fin path rows tot :
  transaction_list l start fin path = Ok (rows, tot) ->
  exists ts, rows = map tl_row_of ts /\
    Permutation ts (selected start fin path (l_txs l)) /\
    StronglySorted date_le ts /\
    (forall d, filter (fun t => dt_eqb (py_raw (tx_date t)) d) ts =
               filter (fun t => dt_eqb (py_raw (tx_date t)) d) (selected start fin path (l_txs l))) /\
    tot = Qcsum (map tx_amount (selected start fin path (l_txs l))).
Proof.
  unfold transaction_list, sorted_by_date. destruct (same_kind (l_txs l)); cbn [bind]; [|discriminate].
  intros H. apply tl_fold in H as [H1 H2]. cbn in H1, H2.
  exists (selected start fin path (sort_raw (l_txs l))). split; auto.
  assert (P : Permutation (selected start fin path (sort_raw (l_txs l))) (selected start fin path (l_txs l))).
  { apply filter_perm, Permutation_sym, sort_perm. }
  split; auto. split; [apply sorted_filter, sort_sorted|]. split.
  - intros d. unfold selected. rewrite filter_comm, sort_stable, filter_comm. reflexivity.
  - rewrite H2. rewrite (Qcsum_perm _ _ (Permutation_map tx_amount P)). ring.
Qed.

Definition kind_of (p : pytime) := py_is_dt p.

Lemma tl_step_total start fin path acc t s :
  tx_source t = Some s -> comparable start (tx_date t) -> comparable (tx_date t) fin ->
  exists r, tl_step start fin path acc t = Ok r.
Proof.
  intros Es H1 H2. unfold tl_step, source_starts. rewrite Es. cbn.
  destruct (starts_with s path); cbn; [|eauto]. rewrite py_between_comparable by auto. cbn.
  destruct (_ && _); eauto.
Qed.

Lemma transaction_list_total l start fin path :
  comparable start fin ->
  (forall t, In t (l_txs l) -> (exists s, tx_source t = Some s) /\ comparable start (tx_date t)) ->
  exists r, transaction_list l start fin path = Ok r.
Proof.
  intros Hc H. unfold transaction_list, sorted_by_date.
  assert (K : same_kind (l_txs l) = true).
  { unfold same_kind. unfold comparable in *. destruct (py_is_dt start) eqn:E; [apply orb_true_intro; left|apply orb_true_intro; right];
    apply forallb_forall; intros t Ht; destruct (H t Ht) as [_ X]; rewrite <- X; reflexivity. }
  rewrite K. cbn [bind].
  assert (G : forall ts acc, (forall t, In t ts -> In t (l_txs l)) -> exists r, foldM (tl_step start fin path) ts acc = Ok r).
  { induction ts as [|t ts IH]; intros acc Hin; cbn [foldM]; [eauto|].
    destruct (H t (Hin t (or_introl eq_refl))) as [[s Es] X].
    destruct (tl_step_total start fin path acc t s Es X) as [r Er]; [unfold comparable in *; congruence|].
    rewrite Er. cbn. apply IH. intros; apply Hin; right; auto. }
  apply G. intros t Ht. eapply Permutation_in; [apply Permutation_sym, sort_perm|exact Ht].
Qed.

(** a date bound (as made from a string argument) on a ledger of datetimes raises *)
Lemma transaction_list_mixed l start fin t0 :
  In t0 (l_txs l) -> (exists s, tx_source t0 = Some s) -> same_kind (l_txs l) = true ->
  (forall t, In t (l_txs l) -> exists s, tx_source t = Some s) ->
  ~ comparable start (tx_date t0) -> transaction_list l start fin "" = Err TypeError.
Proof.
  intros Hin _ K Hs Hc. unfold transaction_list, sorted_by_date. rewrite K. cbn [bind].
  assert (Hall : forall t, In t (sort_raw (l_txs l)) -> (exists s, tx_source t = Some s) /\ ~ comparable start (tx_date t)).
  { intros t Ht. apply (Permutation_in t (Permutation_sym (sort_perm (l_txs l)))) in Ht. split; auto.
    unfold comparable in *. unfold same_kind in K. apply orb_true_iff in K as [K|K]; rewrite forallb_forall in K;
    pose proof (K _ Ht) as A; pose proof (K _ Hin) as B; rewrite ?negb_true_iff in *; congruence. }
  assert (Hne : sort_raw (l_txs l) <> []).
  { intros E. pose proof (sort_perm (l_txs l)) as P. rewrite E in P. apply Permutation_sym, Permutation_nil in P. rewrite P in Hin. destruct Hin. }
  destruct (sort_raw (l_txs l)) as [|t ts]; [congruence|]. cbn [foldM].
  destruct (Hall t (or_introl eq_refl)) as [[s Es] Hn].
  unfold tl_step, source_starts. rewrite Es. cbn.
  replace (starts_with s "") with true by (destruct s; reflexivity). cbn.
  unfold py_between. destruct (py_le start (tx_date t)) eqn:E; cbn.
  - apply py_le_ok in E. tauto.
  - apply py_le_err in E as [-> _]. reflexivity.
Qed.
