From Verif Require Import Prelude M_Dates M_Accounts M_Ledger M_Business Spec_Dates Spec_Accounts Spec_Ledger Spec_Business Spec_Loan Spec_Business2
  P_Dates P_Ledger P_Business P_Loan P_Run.
From Coq Require Import Field Permutation.
Open Scope string_scope.

(** * C18 *)
Lemma late_like_always c n a b b0 : fresh a -> ~ some_period_after c (ac_start a) n ->
  prepare_activity c n a = Ok b -> prepare_activity c n (act_set_start dt_min a) = Ok b0 -> forall ix, criteria b ix = criteria b0 ix.
Proof.
  intros F Hs Hp Hp0 ix. pose proof F as (F1 & F2 & F3).
  assert (F0 : fresh (act_set_start dt_min a)) by (repeat split; auto).
  destruct (prepare_fresh _ _ _ _ F Hp) as (s & k & -> & HS & HE). destruct (prepare_fresh _ _ _ _ F0 Hp0) as (s0 & k0 & -> & HS0 & HE0).
  assert (s = 0)%Z. { destruct HS as [[? ?]|[[_ X]|(_ & _ & ?)]]; auto. exfalso; apply Hs; exists s; auto. }
  assert (s0 = 0)%Z. { destruct HS0 as [[? ?]|[[X _]|(X & _)]]; auto; exfalso; apply X; reflexivity. }
  subst s s0. cbn [act_set_start ac_end] in HE0.
  assert (k = k0).
  { destruct HE as [[E ->]|[(N & i & Hi & ->)|(N & Hi & ->)]], HE0 as [[E0 ->]|[(N0 & i0 & Hi0 & ->)|(N0 & Hi0 & ->)]]; try congruence; try contradiction.
    - rewrite (first_period_unique _ _ _ _ _ Hi Hi0). reflexivity.
    - exfalso. apply Hi0. exists i. exact Hi.
    - exfalso. apply Hi. exists i0. exact Hi0. }
  subst k0. rewrite !criteria_split, !active_prepare. reflexivity.
Qed.

(** * C27 *)
Lemma bernoulli (m : Qc) k : (0 < m)%Qc -> (Q2Qc (inject_Z (Z.of_nat k)) * m <= Qcpower (1 + m) k - 1)%Qc.
Proof.
  intros M. induction k as [|k IH].
  - cbn [Qcpower]. replace (Q2Qc (inject_Z (Z.of_nat 0))) with 0%Qc by (apply Qc_is_canon; reflexivity). replace (1 - 1)%Qc with 0%Qc by ring. rewrite Qcmult_0_l. apply Qcle_refl.
  - rewrite pow_S. assert (E : Q2Qc (inject_Z (Z.of_nat (S k))) = (Q2Qc (inject_Z (Z.of_nat k)) + 1)%Qc).
    { apply Qc_is_canon. cbn [this Q2Qc Qcplus]. rewrite !Qred_correct. rewrite Nat2Z.inj_succ. unfold Z.succ. rewrite inject_Z_plus. reflexivity. }
    rewrite E. assert (P : (0 <= Qcpower (1 + m) k - 1)%Qc).
    { destruct k; [cbn; replace (1 - 1)%Qc with 0%Qc by ring; apply Qcle_refl|]. apply Qclt_le_weak. apply (proj1 (lt_sub _ _)). apply (pow_mono m 0 (S k)); auto. lia. }
    replace ((1 + m) * Qcpower (1 + m) k - 1)%Qc with ((Qcpower (1 + m) k - 1) + m * (1 + (Qcpower (1 + m) k - 1)))%Qc by ring.
    replace ((Q2Qc (inject_Z (Z.of_nat k)) + 1) * m)%Qc with (Q2Qc (inject_Z (Z.of_nat k)) * m + m * 1)%Qc by ring.
    apply Qcplus_le_compat; auto. rewrite (Qcmult_comm m 1), (Qcmult_comm m). apply Qcmult_le_compat_r; [|now apply Qclt_le_weak].
    rewrite <- (Qcplus_0_r 1) at 1. apply Qcplus_le_compat; [apply Qcle_refl|exact P].
Qed.
Lemma pydiv_nz a b : b <> 0%Qc -> pydiv a b = Ok (a / b)%Qc.
Proof. intros H. unfold pydiv. destruct (Qc_eq_bool b 0) eqn:E; auto. unfold Qc_eq_bool in E. destruct (Qc_eq_dec b 0); [contradiction|discriminate]. Qed.
Lemma positive_rate name bank lacc iacc amount rate s n interval desc fin :
  (1 <= n)%Z -> (0 < rate)%Qc -> add_months s (n + 1) = Ok fin ->
  exists pay, new_loan name bank lacc iacc amount rate s n interval desc =
      Ok (new_activity name s fin interval desc (KLoan (mkloan bank lacc iacc amount rate (rate / twelve)%Qc pay n 0 amount))) /\
    outstanding amount (rate / twelve) pay (Z.to_nat n) = 0%Qc /\
    ((0 < amount)%Qc -> (amount / Q2Qc (inject_Z n) < pay)%Qc).
Proof.
  intros Hn R E. set (m := (rate / twelve)%Qc).
  assert (T : (0 < / twelve)%Qc) by reflexivity.
  assert (M : (0 < m)%Qc) by (unfold m, Qcdiv; now apply mul_pos).
  set (P := Qcpower (1 + m) (Z.to_nat n)). assert (HP : (1 < P)%Qc) by (apply (pow_mono m 0 (Z.to_nat n)); auto; lia).
  assert (P0 : (0 < P)%Qc) by (eapply Qclt_trans; [|exact HP]; reflexivity).
  assert (Pn : P <> 0%Qc) by (intros X; rewrite X in P0; discriminate P0).
  assert (D : (0 < P - 1)%Qc) by now apply (proj1 (lt_sub _ _)).
  assert (D0 : (P - 1 <> 0)%Qc) by (intros X; rewrite X in D; discriminate D).
  assert (D1 : (1 - 1 / P <> 0)%Qc).
  { intros X. apply D0. replace (P - 1)%Qc with (P * (1 - 1 / P))%Qc by (field; auto). rewrite X. ring. }
  assert (Mp : monthly_payment amount m n = Ok (amount * m / (1 - 1 / P))%Qc).
  { unfold monthly_payment, pypow. replace (0 <=? n)%Z with true by lia. cbn [bind]. fold P. rewrite (pydiv_nz _ _ Pn). cbn [bind]. now rewrite pydiv_nz. }
  exists (amount * m / (1 - 1 / P))%Qc. split; [|split].
  - unfold new_loan. rewrite E. cbn [bind]. fold m. rewrite Mp. reflexivity.
  - apply (outstanding_end _ _ _ _ Hn Mp).
  - intros A. set (N := Q2Qc (inject_Z n)). assert (N0 : (0 < N)%Qc).
    { unfold N, Qclt. unfold Q2Qc at 2. cbn [this]. rewrite Qred_correct. unfold Qlt. cbn. lia. }
    assert (Nn : N <> 0%Qc) by (intros X; rewrite X in N0; discriminate N0).
    apply (proj2 (lt_sub _ _)). apply (pos_cancel _ (N * (P - 1))%Qc); [now apply mul_pos|].
    replace ((amount * m / (1 - 1 / P) - amount / N) * (N * (P - 1)))%Qc with (amount * (m * N * P - (P - 1)))%Qc.
    2:{ field. repeat split; auto. }
    apply mul_pos; auto.
    (* m N P > P - 1: Bernoulli for 1/(1+m): 1 - 1/P < N m *)
    assert (B : forall k, (k > 0)%nat -> (Qcpower (1 + m) k - 1 < Q2Qc (inject_Z (Z.of_nat k)) * m * Qcpower (1 + m) k)%Qc).
    { induction k as [|k IH]; intros K; [lia|]. rewrite pow_S.
      assert (Ek : Q2Qc (inject_Z (Z.of_nat (S k))) = (Q2Qc (inject_Z (Z.of_nat k)) + 1)%Qc).
      { apply Qc_is_canon. cbn [this Q2Qc Qcplus]. rewrite !Qred_correct. rewrite Nat2Z.inj_succ. unfold Z.succ. rewrite inject_Z_plus. reflexivity. }
      rewrite Ek. set (K' := Q2Qc (inject_Z (Z.of_nat k))) in *. set (X := Qcpower (1 + m) k) in *.
      assert (X0 : (0 < X)%Qc) by (apply pow_pos_; eapply Qclt_trans; [|apply (proj2 (lt_sub 1%Qc (1 + m)%Qc)); replace (1 + m - 1)%Qc with m by ring; exact M]; reflexivity).
      assert (K0 : (0 <= K')%Qc).
      { unfold K', Qcle. unfold Q2Qc at 2. cbn [this]. rewrite Qred_correct. unfold Qle. cbn. lia. }
      apply (proj2 (lt_sub _ _)).
      replace ((K' + 1) * m * ((1 + m) * X) - ((1 + m) * X - 1))%Qc with ((K' * m * X - (X - 1)) + (K' * (m * m * X) + m * m * X))%Qc by ring.
      assert (Q : (0 < m * m * X)%Qc) by (apply mul_pos; auto; apply mul_pos; auto).
      assert (Q2 : (0 <= K' * (m * m * X))%Qc) by (rewrite <- (Qcmult_0_l (m * m * X)); apply Qcmult_le_compat_r; auto; now apply Qclt_le_weak).
      assert (Q3 : (0 <= K' * m * X - (X - 1))%Qc).
      { destruct k as [|k]; [unfold X, K'; cbn [Qcpower]; replace (Q2Qc (inject_Z (Z.of_nat 0))) with 0%Qc by (apply Qc_is_canon; reflexivity); replace (0 * m * 1 - (1 - 1))%Qc with 0%Qc by ring; apply Qcle_refl|].
        apply Qclt_le_weak. apply (proj1 (lt_sub _ _)). apply IH. lia. }
      rewrite <- (Qcplus_0_l 0). apply Qcle_lt_trans with ((K' * m * X - (X - 1)) + 0)%Qc; [apply Qcplus_le_compat; [exact Q3|apply Qcle_refl]|].
      apply (proj2 (lt_sub _ _)). replace (K' * m * X - (X - 1) + (K' * (m * m * X) + m * m * X) - (K' * m * X - (X - 1) + 0))%Qc with (K' * (m * m * X) + m * m * X)%Qc by ring.
      apply Qcle_lt_trans with (K' * (m * m * X))%Qc; auto. apply (proj2 (lt_sub _ _)). replace (K' * (m * m * X) + m * m * X - K' * (m * m * X))%Qc with (m * m * X)%Qc by ring. exact Q. }
    specialize (B (Z.to_nat n) ltac:(lia)). fold P in B. rewrite Z2Nat.id in B by lia. fold N in B.
    apply (proj1 (lt_sub _ _)). replace (m * N * P)%Qc with (N * m * P)%Qc by ring. exact B.
Qed.

(** * C54 *)
Lemma rows_have_source start fin p : forall z acc r, foldM (tl_step start fin p) z acc = Ok r -> forall t, In t z -> tx_source t <> None.
Proof.
  induction z as [|a z IH]; intros acc r H t I; [contradiction|]. cbn [foldM] in H. destruct (tl_step start fin p acc a) as [acc'|] eqn:E; cbn [bind] in H; [|discriminate].
  destruct I as [->|I]; [|eapply IH; eauto]. intros N. unfold tl_step, source_starts in E. rewrite N in E. discriminate.
Qed.
Lemma selected_filter start fin p p' l (f : tx -> bool) : (forall t, f t = true <-> posted_below p t /\ dated start fin t) ->
  (forall t, In t l -> starts_with (str_of (tx_source t)) p' = true <-> posted_below p t) -> selected start fin p' l = filter f l.
Proof.
  intros Hf U. unfold selected. induction l as [|t l IH]; [reflexivity|]. cbn [filter]. rewrite IH by (intros; apply U; now right).
  pose proof (U t (or_introl eq_refl)) as Ut. pose proof (Hf t) as Ft. unfold dated in Ft.
  destruct (starts_with (str_of (tx_source t)) p') eqn:A, (py_leb start (tx_date t)) eqn:B, (py_leb (tx_date t) fin) eqn:C, (f t) eqn:D; cbn [andb]; try reflexivity; exfalso;
    (apply diff_true_false; symmetry; apply Ft; (split; [apply Ut; reflexivity|split; reflexivity])) || (destruct (proj1 Ft eq_refl) as (X & Y & Z); try discriminate; apply Ut in X; discriminate).
Qed.
Lemma report_filtered l start fin p p' rows tot f :
  (forall t, f t = true <-> posted_below p t /\ dated start fin t) ->
  (forall t, In t (l_txs l) -> tx_source t <> None -> starts_with (str_of (tx_source t)) p' = true <-> posted_below p t) ->
  transaction_list l start fin p' = Ok (rows, tot) ->
  exists ts, rows = map tl_row_of ts /\ Permutation ts (filter f (l_txs l)) /\ tot = Qcsum (map tx_amount (filter f (l_txs l))).
Proof.
  intros Hf U H. assert (N : forall t, In t (l_txs l) -> tx_source t <> None).
  { intros t It. unfold transaction_list, sorted_by_date in H. destruct (same_kind (l_txs l)); cbn [bind] in H; [|discriminate].
    eapply rows_have_source; [exact H|]. eapply Permutation_in; [apply sort_perm|exact It]. }
  destruct (transaction_list_correct _ _ _ _ _ _ H) as (ts & -> & P & _ & _ & ->). exists ts. split; auto.
  rewrite <- (selected_filter start fin p p' (l_txs l) f Hf); auto.
Qed.
Lemma report_of_component l start fin p rows tot f :
  (forall t, f t = true <-> posted_below p t /\ dated start fin t) ->
  (forall t x, In t (l_txs l) -> tx_source t = Some (p ++ x) -> posted_below p t) ->
  transaction_list l start fin p = Ok (rows, tot) ->
  exists ts, rows = map tl_row_of ts /\ Permutation ts (filter f (l_txs l)) /\ tot = Qcsum (map tx_amount (filter f (l_txs l))).
Proof.
  intros Hf U. apply (report_filtered _ _ _ p); auto. intros t It Nt. destruct (tx_source t) as [s|] eqn:Es; [|contradiction]. cbn [str_of]. split.
  - intros A. apply prefix_app_eq in A. destruct A as [x ->]. eauto.
  - intros [y Y]. rewrite Es in Y. injection Y as ->. apply starts_with_app.
Qed.
Lemma report_with_slash l start fin p rows tot f :
  (forall t, f t = true <-> posted_below p t /\ dated start fin t) ->
  transaction_list l start fin (p ++ "/") = Ok (rows, tot) ->
  exists ts, rows = map tl_row_of ts /\ Permutation ts (filter f (l_txs l)) /\ tot = Qcsum (map tx_amount (filter f (l_txs l))).
Proof.
  assert (A : forall x, (p ++ "/") ++ x = p ++ "/" ++ x). { intros x. induction p as [|c p IH]; [reflexivity|]. cbn. now rewrite IH. }
  intros Hf. apply (report_filtered _ _ _ p); auto. intros t It Nt. destruct (tx_source t) as [s|] eqn:Es; [|contradiction]. cbn [str_of]. split.
  - intros B. apply prefix_app_eq in B. destruct B as [x ->]. exists x. now rewrite Es, A.
  - intros [y Y]. assert (E : s = (p ++ "/") ++ y) by (rewrite A; congruence). rewrite E. apply starts_with_app.
Qed.

(** * C55 *)
Lemma second_window c n a b s f c' n' b' : fresh a -> prepare_activity c n a = Ok b ->
  prepare_activity c' n' (act_set_end f (act_set_start s b)) = Ok b' ->
  ac_start_ix b' = ac_start_ix b /\
  (ac_count b <> (-1)%Z -> ac_end_ix b' = ac_end_ix b) /\
  (ac_count b = (-1)%Z -> (f <> dt_max /\ exists i, first_period_after c' f n' i /\ ac_end_ix b' = (if (i - ac_start_ix b =? -1)%Z then ac_start_ix b + n' else i)%Z) \/
                          ((f = dt_max \/ ~ some_period_after c' f n') /\ ac_end_ix b' = (ac_start_ix b + n')%Z)).
Proof.
  intros F Hp Hp'. destruct (prepare_fresh _ _ _ _ F Hp) as (s0 & k & -> & HS & _).
  assert (S0 : (0 <= s0)%Z). { destruct HS as [[? ?]|[[_ [? _]]|(_ & _ & ?)]]; lia. } clear HS Hp.
  unfold prepare_activity, prepare_base, act_set_end, act_set_start in Hp'. cbn [with_kind with_ixs ac_start_ix ac_start ac_count ac_end ac_end_ix] in *.
  replace (s0 =? -1)%Z with false in Hp' by lia. cbn [andb bind] in Hp'.
  destruct (k =? -1)%Z eqn:K.
  - cbn [andb] in Hp'. assert (k = -1)%Z by lia. subst k. destruct (dt_eqb f dt_max) eqn:Em; cbn [negb] in Hp'.
    + cbn [bind] in Hp'. injection Hp' as <-. cbn. replace (s0 =? -1)%Z with false by lia. split; [reflexivity|]. split; [intros X; exfalso; now apply X|]. intros _. right. split; auto. left. now apply dt_eqb_eq.
    + assert (Nm : f <> dt_max) by (intros ->; rewrite (proj2 (dt_eqb_eq _ _) eq_refl) in Em; discriminate).
      destruct (first_after c' f 0 (Z.to_nat n')) as [[i|]|] eqn:Ef; cbn [bind] in Hp'; [| |discriminate]; injection Hp' as <-; cbn; replace (s0 =? -1)%Z with false by lia; (split; [reflexivity|]); (split; [intros X; exfalso; now apply X|]); intros _.
      * left. split; auto. exists i. split; [now apply first_after_spec|]. destruct (i - s0 =? -1)%Z; lia.
      * right. split; auto. right. now apply first_after_spec_none.
  - cbn [andb bind] in Hp'. injection Hp' as <-. cbn. replace (s0 =? -1)%Z with false by lia. rewrite K. split; [reflexivity|]. split; [reflexivity|]. intros X. lia.
Qed.
