From Verif Require Import Prelude M_Dates M_Accounts M_Ledger M_Business Spec_Dates Spec_Accounts Spec_Ledger Spec_Business Spec_Loan
  P_Dates P_Ledger P_Business P_Year P_Close.
From Coq Require Import Field.
Local Open Scope Qc_scope.

Lemma twelve_nz : twelve <> 0. Proof. intros H. apply (f_equal this) in H. vm_compute in H. discriminate. Qed.

Lemma pydiv_ok a b r : pydiv a b = Ok r -> b <> 0 /\ r = a / b.
Proof.
  unfold pydiv. destruct (Qc_eq_bool b 0) eqn:E; [discriminate|]. intros H; inversion H. split; auto.
  intros ->. unfold Qc_eq_bool in E. destruct (Qc_eq_dec 0 0); [discriminate|congruence].
Qed.
Lemma pydiv_0 a : pydiv a 0 = Err ZeroDivisionError.
Proof. reflexivity. Qed.

Lemma pow_S (x : Qc) n : Qcpower x (S n) = x * Qcpower x n. Proof. reflexivity. Qed.
Lemma pow_1 n : Qcpower 1 n = 1.
Proof. induction n as [|n IH]; [reflexivity|]. rewrite pow_S, IH. ring. Qed.

Lemma payment_facts A r n pay : (1 <= n)%Z -> monthly_payment A r n = Ok pay ->
  let P := Qcpower (1 + r) (Z.to_nat n) in
  P <> 0 /\ P - 1 <> 0 /\ r <> 0 /\ pay * (P - 1) = A * r * P.
Proof.
  intros Hn H P. unfold monthly_payment, pypow in H. replace (0 <=? n)%Z with true in H by lia. cbn [bind] in H. fold P in H.
  destruct (pydiv 1 P) as [d|] eqn:E1; cbn [bind] in H; [|discriminate]. apply pydiv_ok in E1 as [P0 ->].
  apply pydiv_ok in H as [D0 ->].
  assert (P1 : P - 1 <> 0).
  { intros X. apply D0. replace P with 1 by (rewrite <- (Qcplus_0_r 1), <- X; ring). field. discriminate. }
  split; auto. split; auto. split.
  - intros ->. apply P1. unfold P. replace (1 + 0) with 1 by ring. rewrite pow_1. ring.
  - field. split; auto.
Qed.

Lemma outstanding_closed A r pay k : r * outstanding A r pay k = A * r * Qcpower (1 + r) k - pay * (Qcpower (1 + r) k - 1).
Proof.
  induction k as [|k IH]; cbn [outstanding]; [cbn; ring|]. rewrite pow_S.
  transitivity ((r * outstanding A r pay k) * (1 + r) - r * pay); [ring|]. rewrite IH. ring.
Qed.

Lemma cancel_l x a b : x <> 0 -> x * a = x * b -> a = b.
Proof. intros H E. transitivity (x * a / x); [field; auto|]. rewrite E. field; auto. Qed.

Lemma outstanding_scaled A r n pay k : (1 <= n)%Z -> monthly_payment A r n = Ok pay ->
  outstanding A r pay k * (Qcpower (1 + r) (Z.to_nat n) - 1) = A * (Qcpower (1 + r) (Z.to_nat n) - Qcpower (1 + r) k).
Proof.
  intros Hn H. destruct (payment_facts _ _ _ _ Hn H) as (P0 & P1 & R0 & E). set (P := Qcpower (1 + r) (Z.to_nat n)) in *.
  apply (cancel_l r); auto. pose proof (outstanding_closed A r pay k) as C. set (Pk := Qcpower (1 + r) k) in *.
  transitivity ((r * outstanding A r pay k) * (P - 1)); [ring|]. rewrite C.
  transitivity (A * r * Pk * (P - 1) - (pay * (P - 1)) * (Pk - 1)); [ring|]. rewrite E. ring.
Qed.

Theorem outstanding_end A r n pay : (1 <= n)%Z -> monthly_payment A r n = Ok pay -> outstanding A r pay (Z.to_nat n) = 0.
Proof.
  intros Hn H. pose proof (outstanding_scaled _ _ _ _ (Z.to_nat n) Hn H) as E.
  destruct (payment_facts _ _ _ _ Hn H) as (P0 & P1 & _). apply (cancel_l (Qcpower (1 + r) (Z.to_nat n) - 1)); auto.
  rewrite Qcmult_comm, E. ring.
Qed.

Lemma lt_sub a b : a < b <-> 0 < b - a.
Proof. apply Qclt_minus_iff. Qed.
Lemma mul_pos a b : 0 < a -> 0 < b -> 0 < a * b.
Proof. intros A B. pose proof (Qcmult_lt_compat_r 0 a b B A) as H. rewrite Qcmult_0_l in H. exact H. Qed.

Lemma pow_pos_ x k : 0 < x -> 0 < Qcpower x k.
Proof. intros H. induction k as [|k IH]; [reflexivity|]. rewrite pow_S. apply mul_pos; auto. Qed.
Lemma pow_mono r j k : 0 < r -> (j < k)%nat -> Qcpower (1 + r) j < Qcpower (1 + r) k.
Proof.
  intros R L. assert (S1 : forall k, Qcpower (1 + r) k < Qcpower (1 + r) (S k)).
  { intros i. rewrite pow_S. apply lt_sub. replace ((1 + r) * Qcpower (1 + r) i - Qcpower (1 + r) i) with (r * Qcpower (1 + r) i) by ring.
    apply mul_pos; auto. apply pow_pos_. apply Qclt_trans with 1; [reflexivity|]. apply lt_sub. replace (1 + r - 1) with r by ring. auto. }
  induction L as [|k L IH]; auto. eapply Qclt_trans; eauto.
Qed.
Lemma pos_cancel a x : 0 < x -> 0 < a * x -> 0 < a.
Proof.
  intros X H. destruct (Qclt_le_dec 0 a) as [L|L]; auto. exfalso.
  apply (Qcmult_le_compat_r a 0 x) in L; [|apply Qclt_le_weak; auto]. rewrite Qcmult_0_l in L.
  eapply Qclt_not_le; eauto.
Qed.

Theorem outstanding_pos A r n pay k : 0 < A -> 0 < r -> (1 <= n)%Z -> monthly_payment A r n = Ok pay ->
  (Z.of_nat k < n)%Z -> 0 < outstanding A r pay k.
Proof.
  intros HA HR Hn H Hk. pose proof (outstanding_scaled _ _ _ _ k Hn H) as E.
  assert (0 < Qcpower (1 + r) (Z.to_nat n) - 1).
  { apply (proj1 (lt_sub _ _)). apply (pow_mono r 0 (Z.to_nat n)); auto. lia. }
  apply (pos_cancel _ _ H0). rewrite E. apply mul_pos; auto. apply (proj1 (lt_sub _ _)). apply pow_mono; auto. lia.
Qed.

Theorem outstanding_decr A r n pay j k : 0 < A -> 0 < r -> (1 <= n)%Z -> monthly_payment A r n = Ok pay ->
  (j < k)%nat -> outstanding A r pay k < outstanding A r pay j.
Proof.
  intros HA HR Hn H L. pose proof (outstanding_scaled _ _ _ _ k Hn H) as Ek. pose proof (outstanding_scaled _ _ _ _ j Hn H) as Ej.
  assert (H0 : 0 < Qcpower (1 + r) (Z.to_nat n) - 1).
  { apply (proj1 (lt_sub _ _)). apply (pow_mono r 0 (Z.to_nat n)); auto. lia. }
  apply (proj2 (lt_sub _ _)). apply (pos_cancel _ _ H0).
  set (P := Qcpower (1 + r) (Z.to_nat n)) in *.
  replace ((outstanding A r pay j - outstanding A r pay k) * (P - 1)) with
    (outstanding A r pay j * (P - 1) - outstanding A r pay k * (P - 1)) by ring.
  rewrite Ek, Ej. replace (A * (P - Qcpower (1 + r) j) - A * (P - Qcpower (1 + r) k)) with (A * (Qcpower (1 + r) k - Qcpower (1 + r) j)) by ring.
  apply mul_pos; auto. apply (proj1 (lt_sub _ _)). apply pow_mono; auto.
Qed.

(** ** executions *)
Definition with_loan (a : activity) (l : loan) (m : Z) (left : Qc) : activity :=
  with_kind a (KLoan (mkloan (ln_bank l) (ln_loan l) (ln_interest l) (ln_amount l) (ln_rate l) (ln_mrate l) (ln_payment l)
                             (ln_duration l) m left)).

Definition due_state (a : activity) (l : loan) (k : nat) : activity :=
  with_loan a l (Z.of_nat k * ac_interval a) (outstanding (ln_amount l) (ln_rate l / twelve) (ln_payment l) (pred k)).

Lemma due_criteria a l k ix : ac_kind a = KLoan l -> criteria (due_state a l k) ix = criteria a ix.
Proof. intros E. unfold criteria, due_state, with_loan, criteria_base. cbn. rewrite E. reflexivity. Qed.

Lemma due_0 a l : ac_kind a = KLoan l -> ln_months l = 0%Z -> ln_left l = ln_amount l -> due_state a l 0 = a.
Proof.
  intros E M L. unfold due_state, with_loan, with_kind. cbn [pred outstanding Z.of_nat Z.mul]. rewrite <- L, <- M.
  destruct a, l. cbn in *. congruence.
Qed.

Lemma due_step a l k c gl gl' a' : ac_kind a = KLoan l -> (1 <= ac_interval a)%Z ->
  run_activity c gl (due_state a l k) = Ok (gl', a') ->
  a' = due_state a l (if criteria a (ck_ix c) then S k else k).
Proof.
  intros E I. unfold run_activity. rewrite (due_criteria _ _ _ _ E). destruct (criteria a (ck_ix c)); cbn [negb].
  2: { intros H; inversion H; auto. }
  destruct (get_datetime c) as [now|]; cbn [bind]; [|discriminate].
  unfold due_state at 1. cbn [with_loan with_kind ac_kind ln_months].
  destruct (Z.of_nat k * ac_interval a =? 0)%Z eqn:K.
  - apply Z.eqb_eq in K. assert (k = 0)%nat by (destruct k; [auto|exfalso; nia]). subst k. intros H; inversion H; subst. unfold due_state, with_loan, with_kind. cbn.
    f_equal. f_equal. f_equal. destruct (ac_interval a); reflexivity.
  - destruct k as [|k]; [cbn in K; discriminate|]. intros H; inversion H; subst. unfold due_state, with_loan, with_kind. cbn [pred ac_name ac_desc ac_ppath ac_path ac_start ac_end ac_interval ac_start_ix ac_end_ix ac_count ln_bank ln_loan ln_interest ln_amount ln_rate ln_mrate ln_payment ln_duration ln_left].
    f_equal. f_equal. cbn [outstanding]. f_equal; [change (Z.of_nat (S k) * ac_interval a + ac_interval a = Z.of_nat (S (S k)) * ac_interval a)%Z; rewrite !Nat2Z.inj_succ; ring|]. field. apply twelve_nz.
Qed.

Theorem run_at_state cs : forall a l k gl gl' a', ac_kind a = KLoan l -> (1 <= ac_interval a)%Z ->
  run_at cs gl (due_state a l k) = Ok (gl', a') -> a' = due_state a l (k + executions a cs).
Proof.
  induction cs as [|c cs IH]; intros a l k gl gl' a' E I; unfold run_at in *; cbn [foldM].
  - intros H; inversion H; subst. unfold executions; cbn. rewrite Nat.add_0_r. auto.
  - destruct (run_activity c _ _) as [[g1 a1]|] eqn:E1; cbn [bind]; [|discriminate]. cbn [fst snd] in E1.
    apply due_step in E1; auto. subst a1. intros H. apply IH in H; auto. rewrite H. f_equal.
    unfold executions. cbn [filter]. destruct (criteria a (ck_ix c)); cbn [length]; lia.
Qed.

Theorem loan_left_after cs a l gl gl' a' : ac_kind a = KLoan l -> (1 <= ac_interval a)%Z ->
  ln_months l = 0%Z -> ln_left l = ln_amount l -> run_at cs gl a = Ok (gl', a') ->
  exists l', ac_kind a' = KLoan l' /\
    ln_left l' = outstanding (ln_amount l) (ln_rate l / twelve) (ln_payment l) (pred (executions a cs)).
Proof.
  intros E I M L H. rewrite <- (due_0 a l E M L) in H. apply run_at_state in H; auto. subst a'. eexists. split; reflexivity.
Qed.

(** ** postings *)
Definition due_posts (a : activity) (l : loan) (k : nat) (now : datetime) : list tx :=
  match k with
  | O => [loan_tx a now "Make a loan" (ln_bank l) (ln_loan l) (ln_amount l)]
  | S j => [loan_tx a now "Consider interest" (ln_interest l) (ln_loan l)
              (outstanding (ln_amount l) (ln_rate l / twelve) (ln_payment l) j * (ln_rate l / twelve));
            loan_tx a now "Pay principle" (ln_loan l) (ln_bank l) (ln_payment l)]
  end.

Lemma due_posts_step a l k c gl gl' a' : ac_kind a = KLoan l -> (1 <= ac_interval a)%Z ->
  run_activity c gl (due_state a l k) = Ok (gl', a') ->
  exists ps, l_txs gl' = (l_txs gl ++ ps)%list /\ l_structure gl' = l_structure gl /\
    (if criteria a (ck_ix c) then exists now, get_datetime c = Ok now /\ ps = due_posts a l k now else ps = []).
Proof.
  intros E I. unfold run_activity. rewrite (due_criteria _ _ _ _ E). destruct (criteria a (ck_ix c)); cbn [negb].
  2: { intros H; inversion H; subst. exists []. rewrite app_nil_r. auto. }
  destruct (get_datetime c) as [now|]; cbn [bind]; [|discriminate].
  unfold due_state at 1. cbn [with_loan with_kind ac_kind ln_months].
  destruct (Z.of_nat k * ac_interval a =? 0)%Z eqn:K.
  - apply Z.eqb_eq in K. assert (k = 0)%nat by (destruct k; [auto|exfalso; nia]). subst k. intros H; inversion H; subst. eexists. split; [|split; [reflexivity|exists now; split; [reflexivity|]]]; reflexivity.
  - destruct k as [|k]; [cbn in K; discriminate|]. intros H; inversion H; subst.
    eexists. split; [|split; [reflexivity|exists now; split; [reflexivity|]]]; cbn; [rewrite <- app_assoc; reflexivity|].
    unfold due_posts, loan_tx, act_tx_name. cbn. f_equal. f_equal. field. apply twelve_nz.
Qed.

Definition loan_net (l : loan) (k : nat) (s : string) : Qc :=
  match k with
  | O => 0
  | S j => let out := outstanding (ln_amount l) (ln_rate l / twelve) (ln_payment l) j in
           let int := interest_sum (ln_amount l) (ln_rate l / twelve) (ln_payment l) j in
           at_account (ln_loan l) s out - at_account (ln_interest l) s int - at_account (ln_bank l) s (out - int)
  end.

Lemma is_acc_at (x s : string) (v : Qc) : (if is_acc (Some x) s then v else 0) = at_account x s v.
Proof. unfold is_acc, at_account. reflexivity. Qed.

Lemma due_net a l k now s : loan_net l (S k) s = loan_net l k s + net_credit (due_posts a l k now) s.
Proof.
  destruct k as [|k]; unfold due_posts; rewrite !net_credit_cons, net_credit_nil; unfold loan_tx; cbn [tx_cr tx_dt tx_amount].
  - unfold loan_net. cbn [outstanding interest_sum]. unfold at_account, is_acc.
    destruct (ln_loan l =? s)%string, (ln_interest l =? s)%string, (ln_bank l =? s)%string; ring.
  - unfold loan_net. cbn [outstanding interest_sum]. unfold at_account, is_acc.
    destruct (ln_loan l =? s)%string, (ln_interest l =? s)%string, (ln_bank l =? s)%string; ring.
Qed.

Theorem run_at_net cs : forall a l k gl gl' a' s, ac_kind a = KLoan l -> (1 <= ac_interval a)%Z ->
  run_at cs gl (due_state a l k) = Ok (gl', a') ->
  exists ps, l_txs gl' = (l_txs gl ++ ps)%list /\
    loan_net l (k + executions a cs) s = loan_net l k s + net_credit ps s.
Proof.
  induction cs as [|c cs IH]; intros a l k gl gl' a' s E I; unfold run_at in *; cbn [foldM].
  - intros H; inversion H; subst. exists []. rewrite app_nil_r, net_credit_nil. unfold executions; cbn. rewrite Nat.add_0_r. split; [auto|ring].
  - destruct (run_activity c _ _) as [[g1 a1]|] eqn:E1; cbn [bind]; [|discriminate]. cbn [fst snd] in E1.
    destruct (due_posts_step _ _ _ _ _ _ _ E I E1) as (ps & A & _ & B).
    apply due_step in E1; auto. subst a1. intros H. apply (IH _ _ _ _ _ _ s) in H; auto. destruct H as (qs & C & D).
    exists (ps ++ qs)%list. split; [rewrite C, A, app_assoc; reflexivity|]. rewrite net_credit_app.
    unfold executions. cbn [filter]. fold (executions a cs).
    destruct (criteria a (ck_ix c)).
    + destruct B as (now & _ & ->). cbn [length]. fold (executions a cs). replace (k + S (executions a cs))%nat with (S k + executions a cs)%nat by lia.
      rewrite D, (due_net a l k now s). ring.
    + subst ps. rewrite net_credit_nil. unfold executions in D. rewrite D. ring.
Qed.

Theorem loan_account_exact cs a l gl gl' a' l' : ac_kind a = KLoan l -> (1 <= ac_interval a)%Z ->
  ln_months l = 0%Z -> ln_left l = ln_amount l -> ln_loan l <> ln_bank l -> ln_loan l <> ln_interest l -> ln_bank l <> ln_interest l ->
  run_at cs gl a = Ok (gl', a') -> ac_kind a' = KLoan l' -> (1 <= executions a cs)%nat ->
  exists ps, l_txs gl' = (l_txs gl ++ ps)%list /\
    net_credit ps (ln_loan l) = ln_left l' /\
    net_credit ps (ln_bank l) + net_credit ps (ln_interest l) = - ln_left l' /\
    - net_credit ps (ln_interest l) = interest_sum (ln_amount l) (ln_rate l / twelve) (ln_payment l) (pred (executions a cs)).
Proof.
  intros E I M L N1 N2 N3 H E' X. pose proof H as H0. rewrite <- (due_0 a l E M L) in H.
  assert (R : forall s, exists ps, l_txs gl' = (l_txs gl ++ ps)%list /\ loan_net l (0 + executions a cs) s = loan_net l 0 s + net_credit ps s)
    by (intros s; eapply run_at_net; eauto).
  destruct (R (ln_loan l)) as (ps & A & B1). exists ps. split; auto.
  assert (U : forall s, loan_net l (0 + executions a cs) s = loan_net l 0 s + net_credit ps s).
  { intros s. destruct (R s) as (qs & C & D). rewrite A in C. apply app_inv_head in C. subst qs. exact D. }
  apply run_at_state in H; auto. subst a'. cbn in E'. inversion E' as [El]. clear E'. cbn [ln_left].
  pose proof (U (ln_bank l)) as B2. pose proof (U (ln_interest l)) as B3. cbn [Nat.add loan_net] in *.
  destruct (executions a cs) as [|j]; [lia|]. cbn [loan_net pred] in *. unfold at_account in *.
  rewrite String.eqb_refl in *. 
  rewrite (proj2 (String.eqb_neq _ _) (not_eq_sym N1)), (proj2 (String.eqb_neq _ _) (not_eq_sym N2)) in B1.
  rewrite (proj2 (String.eqb_neq _ _) N1), (proj2 (String.eqb_neq _ _) (not_eq_sym N3)) in B2.
  rewrite (proj2 (String.eqb_neq _ _) N2), (proj2 (String.eqb_neq _ _) N3) in B3.
  split; [|split].
  - transitivity (0 + net_credit ps (ln_loan l)); [ring|]. rewrite <- B1. ring.
  - transitivity ((0 + net_credit ps (ln_bank l)) + (0 + net_credit ps (ln_interest l))); [ring|]. rewrite <- B2, <- B3. ring.
  - transitivity (- (0 + net_credit ps (ln_interest l))); [ring|]. rewrite <- B3. ring.
Qed.

(** ** a complete monthly run *)
Local Open Scope Z_scope.
Definition lex_lt (m d u m' d' u' : Z) : Prop := m < m' \/ (m = m' /\ (d < d' \/ (d = d' /\ u < u'))).
Lemma ltb_lex a b : valid_dt a -> valid_dt b ->
  (dt_ltb a b = true <-> lex_lt (month_index a) (dt_day a) (dt_us a) (month_index b) (dt_day b) (dt_us b)).
Proof.
  intros (_ & Ma & _) (_ & Mb & _). unfold dt_ltb, dt_cmp, lex_lt, month_index.
  destruct (Z.compare_spec (dt_year a) (dt_year b)); [|split; auto; lia|split; [discriminate|lia]].
  destruct (Z.compare_spec (dt_month a) (dt_month b)); [|split; auto; lia|split; [discriminate|lia]].
  destruct (Z.compare_spec (dt_day a) (dt_day b)); [|split; auto; lia|split; [discriminate|lia]].
  destruct (Z.compare_spec (dt_us a) (dt_us b)); split; auto; try discriminate; lia.
Qed.

Lemma small_day d y m : d <= 28 -> Z.min d (days_in_month y m) = d.
Proof. intros H. pose proof (dim_bounds y m). lia. Qed.

Lemma count_range i n : forall N k, (k <= i)%nat -> (i + n <= k + N)%nat ->
  length (filter (fun j => (Z.of_nat i <=? Z.of_nat j) && (Z.of_nat j <? Z.of_nat (i + n))) (seq k N)) = n.
Proof.
  induction N as [|N IH]; intros k Hk Hn.
  - cbn. lia.
  - cbn [seq filter]. destruct (Nat.eq_dec k i) as [->|Hki].
    + clear IH. revert i Hk Hn. 
      assert (G : forall N i0 i n, (i0 <= i)%nat -> (i0 + n <= i + N)%nat -> (i <= i0 + n)%nat ->
        length (filter (fun j => (Z.of_nat i0 <=? Z.of_nat j) && (Z.of_nat j <? Z.of_nat (i0 + n))) (seq i N)) = (i0 + n - i)%nat).
      { clear. induction N as [|N IH]; intros i0 i n A B C; cbn [seq filter length]; [lia|].
        destruct (Nat.eq_dec i (i0 + n)) as [->|].
        - replace (_ && _) with false by lia.
          destruct N as [|N']; [cbn; lia|].
          assert (Z : forall M k, (i0 + n <= k)%nat -> filter (fun j => (Z.of_nat i0 <=? Z.of_nat j) && (Z.of_nat j <? Z.of_nat (i0 + n))) (seq k M) = []).
          { induction M as [|M IHM]; intros k Hk; cbn; auto. replace (_ && _) with false by lia. apply IHM. lia. }
          rewrite Z by lia. cbn. lia.
        - replace (_ && _) with true by lia. cbn [length]. rewrite IH; lia. }
      intros i Hk Hn. fold (seq i (S N)). change (length (filter (fun j => (Z.of_nat i <=? Z.of_nat j) && (Z.of_nat j <? Z.of_nat (i + n))) (seq i (S N))) = n).
      rewrite (G (S N) i i n); lia.
    + replace (_ && _) with false by lia. apply IH; lia.
Qed.

Theorem monthly_executions c N a b s n i :
  valid_dt (ck_start c) -> ck_period c = Pmonth -> dt_day (ck_start c) <= 28 ->
  (forall j, 0 <= j < N -> exists d, datetime_at c j = Ok d) ->
  fresh a -> ac_interval a = 1 -> active a = true ->
  valid_dt s -> dt_day s <= 28 -> ac_start a = s -> add_months s (n + 1) = Ok (ac_end a) -> 1 <= n ->
  dt_leb (ck_start c) s = true -> s <> dt_min ->
  first_period_after c s N i -> i + n + 1 <= N ->
  prepare_activity c N a = Ok b ->
  executions b (periods c N) = Z.to_nat (n + 1).
Proof.
  intros V P D28 Tot F I1 Act Vs S28 Es Ee Hn Hle Hmin Fi HN Hp.
  assert (DT : forall j d, datetime_at c j = Ok d -> valid_dt d /\ month_index d = month_index (ck_start c) + j /\ dt_day d = dt_day (ck_start c) /\ dt_us d = dt_us (ck_start c)).
  { intros j d E. destruct (calendar_exact c j 1 d V) as (A & B & C & U); [rewrite P; reflexivity|auto|].
    rewrite small_day in C by auto. repeat split; try apply A; auto; lia. }
  destruct (add_months_ok _ _ _ Vs Ee) as (Ve & Me & De & Ue). rewrite small_day in De by auto.
  set (e := ac_end a) in *.
  assert (Emax : e <> dt_max). { intros X. rewrite X in De. cbn in De. lia. }
  destruct Fi as (Fr & (di & Edi & Ldi) & Fb).
  destruct (DT _ _ Edi) as (Vdi & Mdi & Ddi & Udi).
  apply (proj1 (ltb_lex _ _ Vs Vdi)) in Ldi. rewrite Mdi, Ddi, Udi in Ldi.
  assert (i1 : 1 <= i).
  { assert (i <> 0); [|lia]. intros ->. rewrite Z.add_0_r in Ldi. apply (dt_leb_instant _ _ V Vs) in Hle.
    apply (proj2 (ltb_lex _ _ Vs V)) in Ldi. apply dt_ltb_instant in Ldi; auto. lia. }
  destruct (Fb (i - 1)) as (dp & Edp & Ldp); [lia|]. destruct (DT _ _ Edp) as (Vdp & Mdp & Ddp & Udp).
  assert (NL : ~ lex_lt (month_index s) (dt_day s) (dt_us s) (month_index (ck_start c) + (i - 1)) (dt_day (ck_start c)) (dt_us (ck_start c))).
  { intros X. rewrite <- Mdp, <- Ddp, <- Udp in X. apply (proj2 (ltb_lex _ _ Vs Vdp)) in X. congruence. }
  assert (AFT : forall j d, datetime_at c j = Ok d -> (dt_ltb e d = true <-> i + n + 1 <= j)).
  { intros j d E. destruct (DT _ _ E) as (Vd & Md & Dd & Ud). rewrite (ltb_lex _ _ Ve Vd), Me, De, Ue, Md, Dd, Ud.
    unfold lex_lt in *. lia. }
  assert (FP : first_period_after c s N i).
  { split; [lia|]. split; [|exact Fb]. exists di. split; auto. apply ltb_lex; auto. rewrite Mdi, Ddi, Udi. exact Ldi. }
  destruct (prepare_fresh _ _ _ _ F Hp) as (s0 & k & -> & HS & HE).
  assert (s0 = i).
  { rewrite Es in HS. destruct HS as [[X _]|[[_ X]|(_ & X & _)]]; [congruence| |].
    - eapply first_period_unique; eauto.
    - exfalso. apply X. exists i. auto. }
  subst s0.
  set (en := if k =? -1 then i + N else i + k).
  assert (EN : forall j, 0 <= j < N -> (j + 1 <= en <-> j < i + n + 1)).
  { intros j Hj. fold e in HE. destruct HE as [[X _]|[(_ & j1 & X & ->)|(_ & X & ->)]]; [congruence| |].
    - destruct X as (R & (d1 & E1 & L1) & B1). apply (AFT _ _ E1) in L1.
      assert (j1 <= i + n + 1).
      { destruct (Z_le_gt_dec j1 (i + n + 1)); auto. destruct (B1 (i + n + 1)) as (d2 & E2 & L2); [lia|].
        pose proof (proj2 (AFT _ _ E2) (Z.le_refl _)). congruence. }
      unfold en. replace (j1 - i =? -1) with false by lia. lia.
    - assert (N = i + n + 1).
      { destruct (Z.eq_dec N (i + n + 1)); auto. exfalso. apply X. exists (i + n + 1). split; [lia|]. split.
        - destruct (Tot (i + n + 1)) as (d & E); [lia|]. exists d. split; auto. apply (AFT _ _ E). lia.
        - intros j' Hj'. destruct (Tot j') as (d & E); [lia|]. exists d. split; auto. apply not_true_is_false. intros Y. apply (AFT _ _ E) in Y. lia. }
      unfold en. cbn. lia. }
  unfold executions, periods.
  assert (FM : forall (f : clock -> bool) (g : nat -> clock) l, length (filter f (map g l)) = length (filter (fun x => f (g x)) l)).
  { clear. intros f g l. induction l as [|x l IH]; cbn; auto. destruct (f (g x)); cbn; congruence. }
  rewrite FM.
  rewrite (filter_ext_in _ (fun j => (Z.of_nat (Z.to_nat i) <=? Z.of_nat j) && (Z.of_nat j <? Z.of_nat (Z.to_nat i + Z.to_nat (n + 1))))).
  - apply count_range; lia.
  - intros j Hj. apply in_seq in Hj. cbn [clock_at ck_ix]. rewrite criteria_split, active_prepare, Act, andb_true_r.
    unfold criteria_base, with_kind, with_ixs. cbn [ac_interval ac_start_ix ac_end_ix]. rewrite I1. cbn [Z.eqb negb andb].
    rewrite Z.mod_1_r. cbn [Z.eqb negb andb]. fold en. pose proof (EN (Z.of_nat j)). lia.
Qed.

(** the postings of an activity in a run are those of [run_at] *)
Lemma run_at_posts c b gl : forall n i, (forall j, Z.of_nat i <= j < Z.of_nat (i + n) -> exists d, datetime_at c j = Ok d) ->
  exists a' gl', run_at (map (fun i => clock_at c (Z.of_nat i)) (seq i n)) gl (act_state c b i) = Ok (gl', a') /\
    l_txs gl' = (l_txs gl ++ flat_map (act_posts_at c b) (seq i n))%list.
Proof.
  intros n. revert gl. induction n as [|n IH]; intros gl i Tot; unfold run_at; cbn [seq map foldM flat_map].
  - exists (act_state c b i), gl. rewrite app_nil_r. auto.
  - cbn [fst snd]. destruct (Tot (Z.of_nat i)) as (d & Ed); [lia|].
    destruct (run_activity_now (clock_at c (Z.of_nat i)) gl (act_state c b i) d Ed) as ([g1 a1] & E1). rewrite E1. cbn [bind].
    apply run_activity_ok in E1 as (A & B & ->).
    destruct (IH g1 (S i)) as (a' & gl' & C & D); [intros j Hj; apply Tot; lia|].
    exists a', gl'. split; [exact C|]. rewrite D, A, <- app_assoc. reflexivity.
Qed.

(** run_model visits every period *)
Lemma run_periods_dates n : forall m m', md_ents m <> [] -> (forall e, In e (md_ents m) -> ck_ix (md_clock m) + Z.of_nat n <= en_count e) ->
  run_periods n m = Ok m' -> forall j, ck_ix (md_clock m) <= j < ck_ix (md_clock m) + Z.of_nat n -> exists d, datetime_at (md_clock m) j = Ok d.
Proof.
  induction n as [|n IH]; intros m m' NE Hc; cbn [run_periods]; [intros; lia|].
  destruct (mapM (run_entity (md_clock m)) (md_ents m)) as [es|] eqn:E; cbn [bind]; [|discriminate]. intros H j Hj.
  apply mapM_forall2 in E.
  destruct (Z.eq_dec j (ck_ix (md_clock m))) as [->|].
  - destruct (md_ents m) as [|e l]; [congruence|]. inversion E as [|? e' ? ? He]; subst.
    assert (Z.of_nat (S n) + ck_ix (md_clock m) <= en_count e) by (rewrite Z.add_comm; apply Hc; left; auto).
    apply run_entity_detail in He; [|lia]. destruct He as (em & Hy & _). apply year_end_detail in Hy as (now & Hnow & _). exists now. exact Hnow.
  - apply IH with (j := j) in H; cbn [md_clock md_ents]; auto.
    + clear - E NE. destruct E; [congruence|discriminate].
    + intros e' He'. cbn in He'. 
      assert (Q : exists e, In e (md_ents m) /\ run_entity (md_clock m) e = Ok e').
      { clear - E He'. induction E as [|a b l l' X E IHE]; [destruct He'|]. destruct He' as [<-|He']; [exists a; split; [left|]; auto|].
        destruct (IHE He') as (e & A & B). exists e. split; [right|]; auto. }
      destruct Q as (e & He & Hr). specialize (Hc e He).
      apply run_entity_ok in Hr; [|lia]. destruct Hr as (_ & _ & _ & _ & C & _). cbn. lia.
    + cbn. lia.
Qed.

Lemma run_model_dates m m' : md_ents m <> [] -> 0 <= md_count m -> run_model m = Ok m' ->
  forall j, 0 <= j < md_count m -> exists d, datetime_at (md_clock m) j = Ok d.
Proof.
  intros NE Hn H j Hj. unfold run_model, prepare_model in H.
  destruct (mapM _ (md_ents m)) as [es|] eqn:E; cbn [bind] in H; [|discriminate].
  assert (Hes : es <> []). { apply mapM_forall2 in E. destruct E; [congruence|discriminate]. }
  assert (Hc : forall e, In e es -> en_count e = md_count m).
  { apply mapM_forall2 in E. clear - E. induction E as [|a b l l' X E IHE]; [intros e []|].
    intros e [<-|He]; auto. apply prepare_entity_ok in X. tauto. }
  apply run_periods_dates with (j := j) in H; cbn [md_clock md_ents] in *; auto.
  - intros e He. rewrite (Hc e He). cbn. lia.
  - cbn. lia.
Qed.

Theorem loan_run_settles m m' (e : entity) name bank lacc iacc amount rate s n desc path a i :
  valid_dt (ck_start (md_clock m)) -> ck_period (md_clock m) = Pmonth -> dt_day (ck_start (md_clock m)) <= 28 ->
  valid_dt s -> dt_day s <= 28 -> 1 <= n -> (0 < amount)%Qc ->
  new_loan name bank lacc iacc amount rate s n 1 desc = Ok a ->
  lacc <> bank -> lacc <> iacc -> bank <> iacc ->
  md_ents m = [e] -> entity_acts e = [act_set_parent path a] ->
  dt_leb (ck_start (md_clock m)) s = true -> s <> dt_min ->
  first_period_after (md_clock m) s (md_count m) i -> i + n + 1 <= md_count m ->
  run_model m = Ok m' ->
  exists e', md_ents m' = [e'] /\ net_credit (operating (l_txs (en_gl e'))) lacc = 0%Qc /\
    length (operating (l_txs (en_gl e'))) = Z.to_nat (2 * n + 1).
Proof.
  intros V P D28 Vs S28 Hn Ha HL N1 N2 N3 He Hacts Hle Hmin Fi HN H.
  assert (HC : 0 <= md_count m) by (destruct Fi; lia).
  pose proof (run_model_dates m m' ltac:(rewrite He; discriminate) HC H) as Tot.
  pose proof (run_postings _ _ HC H) as RP. cbn zeta in RP. rewrite He in RP. inversion RP as [|? e' ? l' (acts & Hp & Ho) RP' E1 E2]; subst.
  inversion RP'; subst. clear RP RP'. exists e'. split; auto. rewrite Ho.
  rewrite Hacts in Hp. cbn [mapM] in Hp.
  destruct (prepare_activity (reset (md_clock m)) (md_count m) (act_set_parent path a)) as [b|] eqn:Eb; cbn [bind] in Hp; [|discriminate].
  inversion Hp; subst acts. clear Hp.
  set (c := reset (md_clock m)) in *.
  assert (FMx : flat_map (fun i => flat_map (fun a => act_posts_at c a i) [b]) (seq 0 (Z.to_nat (md_count m))) = flat_map (act_posts_at c b) (seq 0 (Z.to_nat (md_count m)))).
  { apply flat_map_ext. intros x. cbn. apply app_nil_r. }
  rewrite FMx.
  unfold new_loan in HL. destruct (add_months s (n + 1)) as [fin|] eqn:Ef; cbn [bind] in HL; [|discriminate].
  destruct (monthly_payment _ _ _) as [pay|] eqn:Epay; cbn [bind] in HL; [|discriminate]. inversion HL; subst a; clear HL.
  set (l := mkloan bank lacc iacc amount rate (rate / twelve)%Qc pay n 0 amount) in *.
  assert (Act : active (act_set_parent path (new_activity name s fin 1 desc (KLoan l))) = true).
  { cbn. apply andb_true_iff. split; [apply qpos_spec; auto|lia]. }
  assert (EX : executions b (periods c (md_count m)) = Z.to_nat (n + 1)).
  { eapply (monthly_executions c (md_count m) (act_set_parent path (new_activity name s fin 1 desc (KLoan l))) b s n i); auto.
    repeat split. }
  pose proof (prepare_keeps _ _ _ _ Eb) as (_ & _ & _ & K4 & K5 & _). cbn in K4, K5.
  destruct (run_at_posts c b (mkledger default_gls []) (Z.to_nat (md_count m)) 0) as (a' & gl' & R & T); [intros j Hj; apply Tot; lia|].
  cbn [act_state] in R. fold (periods c (md_count m)) in R. cbn [l_txs app] in T.
  assert (I1 : 1 <= ac_interval b) by lia.
  rewrite <- (due_0 b l K5 eq_refl eq_refl) in R.
  pose proof (run_at_state _ b l 0 _ _ _ K5 I1 R) as Ea'. rewrite EX in Ea'.
  assert (Net : net_credit (l_txs gl') lacc = 0%Qc).
  { rewrite (due_0 b l K5 eq_refl eq_refl) in R.
    destruct (loan_account_exact (periods c (md_count m)) b l _ _ _ (mkloan bank lacc iacc amount rate (rate / twelve)%Qc pay n (Z.of_nat (Z.to_nat (n + 1)) * 1) 0%Qc) K5 I1 eq_refl eq_refl N1 N2 N3 R) as (ps & A & B & _).
    - rewrite Ea'. unfold due_state, with_loan. cbn [with_kind ac_kind]. rewrite K4. cbn [l ln_amount ln_rate ln_payment ln_bank ln_loan ln_interest ln_mrate ln_duration Nat.add].
      do 2 f_equal. replace (Init.Nat.pred (Z.to_nat (n + 1))) with (Z.to_nat n) by lia. apply outstanding_end; auto.
    - lia.
    - cbn [l_txs app] in A. rewrite A. exact B. }
  rewrite <- T. split; auto.
  assert (LEN : forall cs k gl gl' a', run_at cs gl (due_state b l k) = Ok (gl', a') ->
    length (l_txs gl') = (length (l_txs gl) + 2 * executions b cs - (if Nat.eqb k 0 then (if Nat.eqb (executions b cs) 0 then 0 else 1) else 0))%nat).
  { clear - K5 K4 I1. induction cs as [|c0 cs IH]; intros k gl gl' a'; unfold run_at; cbn [foldM].
    - intros H; inversion H; subst. unfold executions; cbn. destruct (Nat.eqb k 0); lia.
    - destruct (run_activity c0 _ _) as [[g1 a1]|] eqn:E1; cbn [bind]; [|discriminate]. cbn [fst snd] in E1.
      destruct (due_posts_step _ _ _ _ _ _ _ K5 I1 E1) as (ps & A & _ & B).
      apply due_step in E1; [|auto|lia]. subst a1. intros H. apply IH in H. rewrite H, A, app_length.
      unfold executions. cbn [filter]. destruct (criteria b (ck_ix c0)).
      + destruct B as (now & _ & ->). cbn [length Nat.eqb]. destruct k; cbn [due_posts length Nat.eqb]; lia.
      + subst ps. cbn [length]. lia. }
  apply LEN in R. cbn [Nat.eqb l_txs length] in R. rewrite EX in R. rewrite R. replace (Z.to_nat (n + 1) =? 0)%nat with false by lia. lia.
Qed.
