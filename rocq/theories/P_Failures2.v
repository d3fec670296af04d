(** When and how the transaction list and the year-end closing fail. *)
From Verif Require Import Prelude M_Dates M_Accounts M_Ledger M_Business Spec_Accounts Spec_Ledger Spec_Business Spec_Failures P_Accounts P_Ledger P_Reports P_Close P_Failures.
From Coq Require Import Permutation Sorted.
Open Scope string_scope.

Lemma one_kind_spec l : same_kind l = true <-> one_kind l.
Proof.
  unfold same_kind, one_kind, comparable. rewrite orb_true_iff, !forallb_forall. split.
  - intros [H|H] t u It Iu; [rewrite (H _ It), (H _ Iu); auto|]. pose proof (H _ It); pose proof (H _ Iu). destruct (py_is_dt (tx_date t)), (py_is_dt (tx_date u)); auto; discriminate.
  - intros H. destruct l as [|x r]; [left; intros t []|]. destruct (py_is_dt (tx_date x)) eqn:E; [left|right]; intros t I; rewrite (H t x) by (cbn; auto); now rewrite E.
Qed.
Lemma mixed_list l start fin path : ~ one_kind (l_txs l) -> transaction_list l start fin path = Err TypeError.
Proof. intros N. unfold transaction_list, sorted_by_date. destruct (same_kind (l_txs l)) eqn:K; [apply one_kind_spec in K; contradiction|reflexivity]. Qed.
Lemma list_failure l start fin path : one_kind (l_txs l) -> exists ts, Permutation ts (l_txs l) /\ StronglySorted date_le ts /\
  (forall d, filter (fun t => dt_eqb (py_raw (tx_date t)) d) ts = filter (fun t => dt_eqb (py_raw (tx_date t)) d) (l_txs l)) /\
  (forall e, transaction_list l start fin path = Err e <-> first_fault (row_fault start fin path) ts e) /\
  (is_ok (transaction_list l start fin path) = true <-> no_fault (row_fault start fin path) (l_txs l)).
Proof.
  intros K. apply one_kind_spec in K. exists (sort_raw (l_txs l)). split; [apply Permutation_sym, sort_perm|]. split; [apply sort_sorted|]. split; [intros d; apply sort_stable|].
  unfold transaction_list, sorted_by_date. rewrite K. cbn [bind]. split; [intros e; apply loop_faults, rows_step|].
  rewrite (loop_ok _ _ (rows_step start fin path)). split; intros N t e I; apply N; [apply (Permutation_in _ (sort_perm _)) | apply (Permutation_in _ (Permutation_sym (sort_perm _)))]; auto.
Qed.

(** * Year end *)
Section YearEnd.
  Variable ops : list gls_op.
  Hypothesis Ho : forallb op_names_ok ops = true.
  Hypothesis Hd : names_distinct (built ops).
  Notation g := (built ops).
  Variables sa co : acct.
  Hypothesis Dsa : deref g id_sales = Some sa.
  Hypothesis Dco : deref g id_cos = Some co.

  Lemma trading_in o a : get_account_o g o = Ok (Some a) -> (in_accs (Some a) (account_descendants sa) || in_accs (Some a) (account_descendants co) = true <-> exists n, o = Some n /\ trading_account g n).
  Proof.
    intros G. destruct o as [n|]; [|discriminate]. cbn [get_account_o] in G. destruct (lookup_sound ops n a Ho G) as [I _].
    rewrite orb_true_iff, (in_accs_below ops sa id_sales a Dsa I), (in_accs_below ops co id_cos a Dco I). split.
    - intros [B|B]; exists n; (split; [auto|]); [exists a, sa | exists a, co]; auto.
    - intros (n' & Q & a' & top & G' & T & B). injection Q as <-. rewrite G in G'. injection G' as <-. destruct T as [T|T]; rewrite T in *; [injection Dsa as <-|injection Dco as <-]; auto.
  Qed.

  (** What [get_account] gives for the account of a posting. *)
  Lemma found_cases o :
    (exists n a, o = Some n /\ get_account_o g o = Ok (Some a) /\ known g n /\ good_account g o) \/
    (get_account_o g o = Ok None /\ account_fault g o AttributeError) \/
    (exists e, get_account_o g o = Err e /\ account_fault g o e /\ e <> AttributeError).
  Proof.
    destruct o as [n|]; cbn [get_account_o].
    - destruct (lookup_cases ops Ho Hd n) as [(a & G & I & P & K) | [(G & A & T) | (G & A & T)]].
      + left. exists n, a. repeat split; auto. exists n; auto.
      + right; left. split; auto. now constructor.
      + right; right. exists IndexError. repeat split; auto; [now constructor|discriminate].
    - right; right. exists TypeError. repeat split; auto; [constructor|discriminate].
  Qed.
  Lemma fault_unique o e1 e2 : account_fault g o e1 -> account_fault g o e2 -> e1 = e2.
  Proof. intros A B. apply (type_fault ops Ho Hd) in A, B. congruence. Qed.

  Notation step := (ye_step g (account_descendants sa) (account_descendants co)).

  Lemma closing_step_fails w t e : closing_fault g t e -> step w t = Err e.
  Proof.
    intros F. unfold ye_step. destruct (found_cases (tx_cr t)) as [(nc & ac & Ec & Gc & Kc & Oc) | [(Gc & Fc) | (ec & Gc & Fc & Nc)]]; rewrite Gc; cbn [bind].
    3:{ inversion F as [e' A N|e' A B N|A B|n A K N R B]; subst.
        - f_equal. eapply fault_unique; eauto.
        - exfalso. destruct A as [A|A]; [apply Nc; eapply fault_unique; eauto | eapply good_not_fault; eauto].
        - exfalso. apply Nc. eapply fault_unique; eauto.
        - exfalso. apply (good_not_fault ops (tx_cr t) ec); auto. exists n; auto. }
    all: destruct (found_cases (tx_dt t)) as [(nd & ad & Ed & Gd & Kd & Od) | [(Gd & Fd) | (ed & Gd & Fd & Nd)]]; rewrite Gd; cbn [bind].
    - (* both known: no fault *)
      exfalso. inversion F as [e' A N|e' A B N|A B|n A K N R B]; subst; [exact (good_not_fault ops _ _ Oc A) | exact (good_not_fault ops _ _ Od B) | exact (good_not_fault ops _ _ Oc A) | exact (good_not_fault ops _ _ Od B)].
    - (* debit unknown *)
      inversion F as [e' A N|e' A B N|A B|n A K N R B]; subst.
      + exfalso; eapply good_not_fault; eauto.
      + exfalso. apply N. eapply fault_unique; eauto.
      + exfalso; eapply good_not_fault; eauto.
      + pose proof (proj1 (trading_in _ _ Gc)) as T. cbn [in_accs] in *. destruct (existsb (same_obj ac) (account_descendants sa)) eqn:B1; [exfalso; destruct (T eq_refl) as (m & Q & Tm); exact (N m Q Tm)|].
        destruct (existsb (same_obj ac) (account_descendants co)) eqn:B2; [exfalso; destruct (T eq_refl) as (m & Q & Tm); exact (N m Q Tm)|].
        cbn [is_type type_of bind]. destruct (atype_eqb (a_type ac) Revenue) eqn:TR; [|reflexivity]. exfalso. apply R. exists ac. rewrite A in Gc. split; [exact Gc|]. now apply atype_eqb_eq.
    - (* debit missing *)
      inversion F as [e' A N|e' A B N|A B|n A K N R B]; subst.
      + exfalso; eapply good_not_fault; eauto.
      + f_equal. eapply fault_unique; eauto.
      + exfalso; eapply (good_not_fault ops (tx_cr t)); eauto.
      + exfalso. apply Nd. eapply fault_unique; eauto.
    - (* credit unknown, debit known *)
      inversion F as [e' A N|e' A B N|A B|n A K N R B]; subst.
      + exfalso. apply N. eapply fault_unique; eauto.
      + exfalso. eapply (good_not_fault ops (tx_dt t)); eauto.
      + destruct B as [B|[_ N]]; [exfalso; eapply good_not_fault; eauto|].
        pose proof (proj1 (trading_in _ _ Gd)) as T. cbn [in_accs] in *. destruct (existsb (same_obj ad) (account_descendants sa)) eqn:B1; [exfalso; destruct (T eq_refl) as (m & Q & Tm); exact (N m Q Tm)|].
        destruct (existsb (same_obj ad) (account_descendants co)) eqn:B2; [exfalso; destruct (T eq_refl) as (m & Q & Tm); exact (N m Q Tm)|]. reflexivity.
      + exfalso. eapply (good_not_fault ops (tx_dt t)); eauto.
    - (* both unknown *)
      inversion F as [e' A N|e' A B N|A B|n A K N R B]; subst; try reflexivity; exfalso; apply N; eapply fault_unique; eauto.
    - (* credit unknown, debit missing *)
      inversion F as [e' A N|e' A B N|A B|n A K N R B]; subst.
      + exfalso. apply N. eapply fault_unique; eauto.
      + f_equal. eapply fault_unique; eauto.
      + exfalso. destruct B as [B|[B _]]; [apply Nd; eapply fault_unique; eauto | eapply good_not_fault; eauto].
      + exfalso. apply Nd. eapply fault_unique; eauto.
  Qed.

  Lemma closing_step_only w t e : step w t = Err e -> closing_fault g t e \/ e = KeyError.
  Proof.
    unfold ye_step. destruct (found_cases (tx_cr t)) as [(nc & ac & Ec & Gc & Kc & Oc) | [(Gc & Fc) | (ec & Gc & Fc & Nc)]]; rewrite Gc; cbn [bind].
    3:{ intros Q. injection Q as <-. left. now apply credit_missing. }
    all: destruct (found_cases (tx_dt t)) as [(nd & ad & Ed & Gd & Kd & Od) | [(Gd & Fd) | (ed & Gd & Fd & Nd)]]; rewrite Gd; cbn [bind].
    - repeat (destruct (in_accs _ _); [discriminate|]). cbn [is_type type_of bind]. destruct (atype_eqb (a_type ac) Revenue); [discriminate|].
      destruct (atype_eqb (a_type ad) Revenue). { destruct (whas _ _); [discriminate|]. intros Q. injection Q as <-. auto. }
      destruct (atype_eqb (a_type ac) Expense); [discriminate|]. destruct (atype_eqb (a_type ad) Expense); discriminate.
    - cbn [in_accs]. destruct (existsb (same_obj ac) (account_descendants sa)) eqn:B1; [discriminate|].
      destruct (existsb (same_obj ac) (account_descendants co)) eqn:B2; [discriminate|]. cbn [is_type type_of bind]. destruct (atype_eqb (a_type ac) Revenue) eqn:R; [discriminate|].
      intros Q. injection Q as <-. left. apply (debit_unknown g t nc); auto.
      + intros m Q T. pose proof (proj2 (trading_in _ _ Gc) (ex_intro _ m (conj Q T))) as H. cbn [in_accs] in H. rewrite B1, B2 in H. discriminate.
      + intros (a & G & Ty). rewrite Ec in Gc. cbn in Gc. rewrite G in Gc. injection Gc as ->. apply atype_eqb_eq in Ty. congruence.
    - intros Q. injection Q as <-. left. apply debit_missing; auto.
    - cbn [in_accs]. destruct (existsb (same_obj ad) (account_descendants sa)) eqn:B1; [discriminate|].
      destruct (existsb (same_obj ad) (account_descendants co)) eqn:B2; [discriminate|]. cbn [is_type type_of bind]. intros Q. injection Q as <-. left. apply credit_unknown; auto.
      right. split; auto. intros m Q T. pose proof (proj2 (trading_in _ _ Gd) (ex_intro _ m (conj Q T))) as H. cbn [in_accs] in H. rewrite B1, B2 in H. discriminate.
    - cbn [in_accs is_type type_of bind]. intros Q. injection Q as <-. left. apply credit_unknown; auto.
    - intros Q. injection Q as <-. left. apply debit_missing; auto.
  Qed.
End YearEnd.

Lemma foldM_cat {A S} (f : S -> A -> res S) l1 l2 s : foldM f (l1 ++ l2) s = do s' <- foldM f l1 s; foldM f l2 s'.
Proof. revert s. induction l1 as [|x r IH]; intros s; cbn [app foldM bind]; [reflexivity|]. destruct (f s x); cbn [bind]; auto. Qed.

Definition take_year (ys ye : datetime) (acc : list tx) (t : tx) : res (list tx) :=
  do b <- py_between (PDateTime ys) (tx_date t) (PDateTime ye); Ok (if b : bool then acc ++ [t] else acc)%list.
Lemma take_year_all ys ye l acc : (forall t, In t l -> comparable (PDateTime ys) (tx_date t)) -> foldM (take_year ys ye) l acc = Ok (acc ++ of_year ys ye l)%list.
Proof.
  revert acc. induction l as [|t l IH]; intros acc C; cbn [foldM of_year filter]; [now rewrite app_nil_r|].
  unfold take_year at 1. destruct (between_cases (PDateTime ys) (tx_date t) (PDateTime ye)) as [(e & -> & _ & [N|[_ N]]) | [-> _]]; cbn [bind].
  - exfalso. apply N, C. left; auto.
  - exfalso. apply N. unfold comparable in *. rewrite <- (C t (or_introl eq_refl)). reflexivity.
  - rewrite IH by (intros; apply C; right; auto). unfold of_year. destruct (_ && _); [rewrite <- app_assoc|]; reflexivity.
Qed.
Lemma take_year_fail ys ye l acc e : foldM (take_year ys ye) l acc = Err e -> e = TypeError /\ exists t, In t l /\ ~ comparable (PDateTime ys) (tx_date t).
Proof.
  revert acc. induction l as [|t l IH]; intros acc; cbn [foldM]; [discriminate|]. unfold take_year at 1.
  destruct (between_cases (PDateTime ys) (tx_date t) (PDateTime ye)) as [(e1 & -> & -> & P) | [-> _]]; cbn [bind].
  - intros Q. injection Q as <-. split; auto. exists t. split; [left; auto|]. destruct P as [P|[_ P]]; auto. unfold comparable in *. cbn in *. congruence.
  - intros Q. destruct (IH _ Q) as (-> & u & I & N). split; auto. exists u. split; [right|]; auto.
Qed.

Lemma year_end_fails ops path before t after ys ye e : forallb op_names_ok ops = true -> names_distinct (built ops) ->
  (forall u, In u (before ++ t :: after)%list -> comparable (PDateTime ys) (tx_date u)) ->
  is_ok (close_year (built ops) path before ys ye) = true -> In t (of_year ys ye [t]) -> closing_fault (built ops) t e ->
  close_year (built ops) path (before ++ t :: after) ys ye = Err e.
Proof.
  intros Ho Hd C K Y F. unfold close_year in *. destruct (deref (built ops) id_sales) as [sa|] eqn:Dsa; [|discriminate]. destruct (deref (built ops) id_cos) as [co|] eqn:Dco; [|discriminate].
  destruct (deref (built ops) id_gross_profit) as [gp|]; [|discriminate]. destruct (deref (built ops) id_inc_sum) as [is_|]; [|discriminate]. destruct (deref (built ops) id_ret_earnings) as [re|]; [|discriminate].
  fold (take_year ys ye) in *. rewrite take_year_all in K by (intros; apply C, in_or_app; auto). rewrite take_year_all by auto. cbn [bind app] in *.
  unfold of_year. rewrite filter_app. cbn [filter]. fold (of_year ys ye before) (of_year ys ye after).
  unfold of_year in Y. cbn [filter] in Y. destruct (py_leb (PDateTime ys) (tx_date t) && py_leb (tx_date t) (PDateTime ye)); [|destruct Y].
  rewrite foldM_cat. destruct (foldM _ (of_year ys ye before) _) as [w|]; [|discriminate]. cbn [bind foldM]. rewrite (closing_step_fails ops Ho Hd sa co Dsa Dco w t e F). reflexivity.
Qed.

Lemma year_end_only ops path txs ys ye e : forallb op_names_ok ops = true -> names_distinct (built ops) -> closing_accounts (built ops) ->
  close_year (built ops) path txs ys ye = Err e ->
  (e = TypeError /\ exists t, In t txs /\ ~ comparable (PDateTime ys) (tx_date t)) \/ e = KeyError \/ exists t, In t (of_year ys ye txs) /\ closing_fault (built ops) t e.
Proof.
  intros Ho Hd CA. unfold close_year. destruct (CA id_sales) as [sa Dsa]; [cbn; auto|]. destruct (CA id_cos) as [co Dco]; [cbn; auto|].
  destruct (CA id_gross_profit) as [gp ->]; [cbn; auto|]. destruct (CA id_inc_sum) as [is_ ->]; [cbn; auto|]. destruct (CA id_ret_earnings) as [re ->]; [cbn; auto 6|]. rewrite Dsa, Dco.
  fold (take_year ys ye). destruct (foldM (take_year ys ye) txs []) as [year|e'] eqn:Y; cbn [bind].
  2:{ intros Q. injection Q as <-. left. now apply take_year_fail in Y. }
  assert (E : year = of_year ys ye txs).
  { clear -Y. assert (G : forall l acc r, foldM (take_year ys ye) l acc = Ok r -> r = (acc ++ of_year ys ye l)%list).
    { induction l as [|t l IH]; intros acc r; cbn [foldM of_year filter].
      - intros H; inversion H. rewrite app_nil_r. auto.
      - unfold take_year at 1. destruct (py_between _ _ _) as [b|] eqn:E; cbn [bind]; [|discriminate]. apply py_between_ok in E. rewrite <- E.
        intros H. apply IH in H. rewrite H. destruct b; [rewrite <- app_assoc|]; reflexivity. }
    apply G in Y. exact Y. }
  rewrite <- E. clear E Y. match goal with |- context [foldM ?f year ?i] => generalize i end.
  induction year as [|t l IH]; intros w; cbn [foldM bind]; [discriminate|]. destruct (ye_step _ _ _ w t) as [w'|e'] eqn:S; cbn [bind].
  - intros Q. destruct (IH _ Q) as [H|[H|(u & I & F)]]; auto. right; right. exists u. split; [right|]; auto.
  - intros Q. injection Q as <-. destruct (closing_step_only ops Ho Hd sa co Dsa Dco w t e' S) as [F|F]; auto. right; right. exists t. split; [left|]; auto.
Qed.
