(** Year-end closing in complete runs. *)
From Verif Require Import Prelude M_Dates M_Accounts M_Ledger M_Business Spec_Dates Spec_Accounts Spec_Ledger Spec_Business
  P_Dates P_Ledger P_Business P_Year P_Close.
Open Scope Z_scope.

Lemma net_split l s : (forall t, In t l -> tx_closing_dt t = false) ->
  net_credit l s = (net_credit (operating l) s + net_credit (closing l) s)%Qc.
Proof.
  unfold operating, closing. induction l as [|t l IH]; intros H; cbn [filter]; [rewrite net_credit_nil; ring|].
  rewrite (H t (or_introl eq_refl)), andb_true_r. specialize (IH (fun x Hx => H x (or_intror Hx))).
  rewrite net_credit_cons, IH. destruct (tx_closing_cr t); cbn [negb]; rewrite net_credit_cons; ring.
Qed.

Lemma filter_comm {A} (f g : A -> bool) l : filter f (filter g l) = filter g (filter f l).
Proof.
  induction l as [|x l IH]; cbn; auto. destruct (f x) eqn:F, (g x) eqn:G; cbn; rewrite ?F, ?G, ?IH; reflexivity.
Qed.
Lemma of_year_operating ys ye l : operating (of_year ys ye l) = of_year ys ye (operating l).
Proof. apply filter_comm. Qed.
Lemma of_year_closing ys ye l : closing (of_year ys ye l) = of_year ys ye (closing l).
Proof. apply filter_comm. Qed.

Lemma of_year_app ys ye l l' : of_year ys ye (l ++ l') = (of_year ys ye l ++ of_year ys ye l')%list.
Proof. apply filter_app. Qed.

Lemma of_year_in w ye cl : dated (fun d => d = ye) cl -> in_window w ye -> of_year (fst w) (snd w) cl = cl.
Proof.
  intros D [I1 I2]. apply filter_all. intros t Ht. destruct (D t Ht) as (d & E & ->). rewrite E. cbn. apply andb_true_iff. split; auto.
Qed.
Lemma of_year_out w ye cl : dated (fun d => d = ye) cl -> ~ in_window w ye -> of_year (fst w) (snd w) cl = [].
Proof.
  intros D N. apply filter_none. intros t Ht. destruct (D t Ht) as (d & E & ->). rewrite E. apply not_true_is_false. intros X.
  apply andb_true_iff in X. apply N. exact X.
Qed.

(** the window of a year contains its own end *)
Lemma window_end s k w : valid_dt s -> year_window s k w -> valid_dt (snd w) /\ in_window w (snd w).
Proof.
  intros V (A & y & B & C). destruct (add_us_ok _ _ _ C) as (Vw & I). split; auto.
  destruct (year_start_ok _ _ _ V A) as (Va & _). destruct (year_start_S _ _ _ B) as (z & Z1 & Z2). rewrite A in Z1. inversion Z1; subst z.
  pose proof (add_year_gap _ _ Va Z2). split; apply dt_leb_instant; auto; unfold us_per_day in *; lia.
Qed.

Lemma closing_of_year s : valid_dt s -> forall ks ws cls (g : gls) path txs,
  NoDup ks -> Forall2 (year_window s) ks ws ->
  Forall2 (fun w cl => close_year g path txs (fst w) (snd w) = Ok cl) ws cls ->
  forall k w, In k ks -> year_window s k w ->
  exists cl, close_year g path txs (fst w) (snd w) = Ok cl /\ of_year (fst w) (snd w) (concat cls) = cl /\ In cl cls.
Proof.
  intros V ks ws cls g path txs ND W C k w Hk Hw.
  assert (OUT : forall ks ws cls, ~ In k ks -> Forall2 (year_window s) ks ws ->
     Forall2 (fun w cl => close_year g path txs (fst w) (snd w) = Ok cl) ws cls -> of_year (fst w) (snd w) (concat cls) = []).
  { clear - V Hw. intros ks ws cls N W. revert cls. induction W as [|k0 w0 ks ws W0 W IH]; intros cls C; inversion C; subst; cbn [concat]; [reflexivity|].
    rewrite of_year_app, IH by (auto; intros X; apply N; right; auto). rewrite app_nil_r.
    destruct (window_end _ _ _ V W0) as [Ve Ie].
    eapply of_year_out; [eapply close_year_dated; eauto|]. intros X.
    apply N. left. eapply (windows_disjoint s k0 k w0 w (snd w0)); eauto. }
  revert cls C. induction W as [|k0 w0 ks ws W0 W IH]; intros cls C; [destruct Hk|]. inversion C as [|? cl0 ? cls' C0 C1]; subst. cbn [concat].
  inversion ND as [|? ? N0 ND']; subst. rewrite of_year_app.
  destruct (Nat.eq_dec k0 k) as [->|Hne].
  - assert (w0 = w).
    { destruct w0, w. destruct W0 as (A & y & B & D). destruct Hw as (A' & y' & B' & D'). cbn [fst snd] in *. f_equal; congruence. }
    subst w0. exists cl0. split; auto. destruct (window_end _ _ _ V Hw) as [Ve Ie]. split; [|left; auto].
    rewrite (OUT ks ws cls') by auto. rewrite app_nil_r. eapply of_year_in; [eapply close_year_dated; eauto|auto].
  - destruct Hk as [Hk|Hk]; [congruence|]. destruct (IH ND' Hk _ C1) as (cl & X1 & X2 & X3). exists cl. split; auto. split; [|right; auto].
    rewrite X2. destruct (window_end _ _ _ V W0) as [Ve Ie].
    rewrite (of_year_out w (snd w0)); [reflexivity|eapply close_year_dated; eauto|]. intros X.
    apply Hne. eapply (windows_disjoint s k0 k w0 w (snd w0)); eauto.
Qed.

Lemma Forall2_weaken {A B} (P Q : A -> B -> Prop) l l' : (forall a b, P a b -> Q a b) -> Forall2 P l l' -> Forall2 Q l l'.
Proof. intros H F. induction F; constructor; auto. Qed.

(** a closed year of a run: the transactions dated in its window are the
    operating ones and this year's closing entries *)
Theorem run_closed_years m m' : valid_dt (ck_start (md_clock m)) -> 0 < md_count m -> run_model m = Ok m' ->
  Forall2 (fun e e' => forall k w yk1 last,
      year_window (ck_start (md_clock m)) k w -> year_start (ck_start (md_clock m)) (S k) = Ok yk1 ->
      datetime_at (md_clock m) (md_count m - 1) = Ok last -> dt_leb yk1 last = true ->
      let txs := l_txs (en_gl e') in
      exists cl, close_year (l_structure (en_gl e)) (en_path e) (operating txs) (fst w) (snd w) = Ok cl /\
        filter tx_closing_cr (of_year (fst w) (snd w) txs) = cl /\
        (forall s, net_credit (of_year (fst w) (snd w) txs) s = net_credit (of_year (fst w) (snd w) (operating txs) ++ cl) s))
    (md_ents m) (md_ents m').
Proof.
  intros V Hn H. eapply Forall2_weaken; [|apply (run_years m m' V ltac:(lia) H)].
  intros e e' (k0 & ws & cls & W & _ & L & Ct & Cc & Cl) k w yk1 last Hw Hy1 Hlast Hle txs.
  destruct (L Hn) as (last' & yk & yk2 & L1 & L2 & L3 & L4 & L5). rewrite Hlast in L1. inversion L1; subst last'.
  assert (Hk : (k < k0)%nat).
  { pose proof (datetime_at_valid _ _ _ V Hlast) as Vl. destruct (year_start_ok _ _ _ V Hy1) as (V1 & _). destruct (year_start_ok _ _ _ V L3) as (V3 & _).
    apply dt_leb_instant in Hle; auto. apply dt_ltb_instant in L5; auto.
    destruct (Nat.lt_ge_cases k k0) as [X|X]; auto. exfalso.
    destruct (Nat.eq_dec (S k) (S k0)) as [E|E]; [rewrite E, L3 in Hy1; inversion Hy1; subst; lia|].
    pose proof (year_start_lt _ (S k0) (S k) _ _ V ltac:(lia) L3 Hy1). lia. }
  destruct (closing_of_year _ V (seq 0 k0) ws cls _ _ _ (seq_NoDup _ _) W Cl k w) as (cl & X1 & X2 & X3); [apply in_seq; lia|auto|].
  exists cl. split; auto. fold (closing (of_year (fst w) (snd w) txs)). rewrite of_year_closing.
  assert (E : of_year (fst w) (snd w) (closing txs) = cl) by (unfold txs, closing; rewrite Cc; exact X2).
  split; auto. intros s. rewrite net_split by (intros t Ht; apply Ct; eapply proj1, filter_In; exact Ht).
  rewrite of_year_operating, of_year_closing, E, net_credit_app. reflexivity.
Qed.

Lemma simple_sub g l l' : (forall t, In t l' -> In t l) -> simple_entries g l -> simple_entries g l'.
Proof. intros I S t Ht. apply S, I, Ht. Qed.

From Verif Require Import Spec_Loan.

Lemma closed_year_parts m k w : closed_year m k w -> year_window (ck_start (md_clock m)) k w /\
  exists next last, year_start (ck_start (md_clock m)) (S k) = Ok next /\
    datetime_at (md_clock m) (md_count m - 1) = Ok last /\ dt_leb next last = true.
Proof. exact (fun x => x). Qed.

Section Closed.
  Variables (m m' : tbm).
  Hypothesis V : valid_dt (ck_start (md_clock m)).
  Hypothesis Hn : 0 < md_count m.
  Hypothesis H : run_model m = Ok m'.

  Lemma closed_entity (Q : entity -> entity -> Prop) :
    (forall e e', (forall k w, closed_year m k w -> let txs := l_txs (en_gl e') in
      exists cl, close_year (l_structure (en_gl e)) (en_path e) (operating txs) (fst w) (snd w) = Ok cl /\
        filter tx_closing_cr (of_year (fst w) (snd w) txs) = cl /\
        (forall s, net_credit (of_year (fst w) (snd w) txs) s = net_credit (of_year (fst w) (snd w) (operating txs) ++ cl) s)) -> Q e e') ->
    Forall2 Q (md_ents m) (md_ents m').
  Proof.
    intros HQ. eapply Forall2_weaken; [|apply (run_closed_years m m' V Hn H)]. intros e e' X. apply HQ.
    intros k w (W & nx & la & A & B & C). eapply X; eauto.
  Qed.

  Theorem run_income_emptied : Forall2 (fun e e' => forall ops k w s, good_structure e ops -> closed_year m k w ->
      let year := of_year (fst w) (snd w) (l_txs (en_gl e')) in
      simple_entries (built ops) (operating year) -> income_account (built ops) (Some s) = true -> ~ trading_account (built ops) s ->
      (forall gp, deref (built ops) id_gross_profit = Some gp -> s <> a_path gp \/ gross_net_credit (built ops) (operating year) = 0%Qc) ->
      (forall is_, deref (built ops) id_inc_sum = Some is_ -> s <> a_path is_ \/ (0 <= income_net_credit (built ops) (operating year))%Qc) ->
      net_credit year s = 0%Qc) (md_ents m) (md_ents m').
  Proof.
    apply closed_entity. intros e e' X ops k w s (G & Ho & Nd) C year. unfold year. rewrite of_year_operating.
    destruct (X k w C) as (cl & A & _ & B). rewrite G in A. intros S I T Gp Is. rewrite B.
    eapply income_emptied; eauto.
  Qed.

  Theorem run_retained : Forall2 (fun e e' => forall ops k w re, good_structure e ops -> closed_year m k w ->
      let year := of_year (fst w) (snd w) (l_txs (en_gl e')) in
      simple_entries (built ops) (operating year) -> deref (built ops) id_ret_earnings = Some re ->
      net_credit year (a_path re) = (net_credit (operating year) (a_path re) + qabs (income_net_credit (built ops) (operating year)))%Qc)
    (md_ents m) (md_ents m').
  Proof.
    apply closed_entity. intros e e' X ops k w re (G & Ho & Nd) C year. unfold year. rewrite of_year_operating.
    destruct (X k w C) as (cl & A & _ & B). rewrite G in A. intros S D. rewrite B, net_credit_app. f_equal.
    eapply retained_exact; eauto.
  Qed.

  Theorem run_trading : Forall2 (fun e e' => forall ops k w s, good_structure e ops -> closed_year m k w ->
      let year := of_year (fst w) (snd w) (l_txs (en_gl e')) in
      simple_entries (built ops) (operating year) -> trading_account (built ops) s ->
      (forall i a, In i [id_gross_profit; id_inc_sum; id_ret_earnings] -> deref (built ops) i = Some a -> a_path a <> s) ->
      net_credit year s = (net_credit (operating year) s + net_credit (operating year) s)%Qc)
    (md_ents m) (md_ents m').
  Proof.
    apply closed_entity. intros e e' X ops k w s (G & Ho & Nd) C year. unfold year. rewrite of_year_operating.
    destruct (X k w C) as (cl & A & _ & B). rewrite G in A. intros S T Hne. rewrite B. eapply trading_doubled; eauto.
  Qed.

  Theorem run_closing_shape : Forall2 (fun e e' => forall ops k w t, good_structure e ops -> closed_year m k w ->
      In t (filter tx_closing_cr (of_year (fst w) (snd w) (l_txs (en_gl e')))) ->
      tx_closing_dt t = false /\ tx_date t = PDateTime (snd w) /\ tx_source t = Some (en_path e) /\
      exists d c, tx_dt t = Some d /\ tx_cr t = Some c /\
        (forall s, s = d \/ s = c -> has_type (built ops) s Revenue \/ has_type (built ops) s Expense \/
           exists re, deref (built ops) id_ret_earnings = Some re /\ s = a_path re /\ has_type (built ops) s Equity))
    (md_ents m) (md_ents m').
  Proof.
    apply closed_entity. intros e e' X ops k w t (G & Ho & Nd) C Ht.
    destruct (X k w C) as (cl & A & E & _). rewrite G in A. rewrite E in Ht.
    destruct (closing_shape _ _ _ _ _ _ _ Ho Nd A Ht) as (_ & R). exact R.
  Qed.

  Theorem run_closing_assets : Forall2 (fun e e' => forall ops k w s, good_structure e ops -> closed_year m k w ->
      has_type (built ops) s Asset \/ has_type (built ops) s Liability ->
      ~ touched (filter tx_closing_cr (of_year (fst w) (snd w) (l_txs (en_gl e')))) s)
    (md_ents m) (md_ents m').
  Proof.
    apply closed_entity. intros e e' X ops k w s (G & Ho & Nd) C T.
    destruct (X k w C) as (cl & A & E & _). rewrite G in A. rewrite E. eapply closing_keeps_assets; eauto.
  Qed.
End Closed.

From Verif Require Import P_Accounts P_Loan P_Reports.
Open Scope string_scope.

Lemma add_activity_ok g a k k' : add_activity g a k = Ok k' ->
  (forall n, In n (referenced_accounts a) -> exists x, get_account g n = Ok (Some x)) /\
  c_path k' = c_path k /\ c_name k' = c_name k /\ c_subs k' = c_subs k /\
  exists a', c_acts k' = (c_acts k ++ [a'])%list /\ ac_name a' = ac_name a /\ ac_path a' = c_path k ++ "/" ++ ac_name a /\
    ac_kind a' = ac_kind a /\ ac_start a' = ac_start a /\ ac_end a' = ac_end a /\ ac_interval a' = ac_interval a.
Proof.
  unfold add_activity. destruct (validate_account_names g (referenced_accounts a)) as [[]|] eqn:E; cbn [bind]; [|discriminate].
  destruct k as [nm pp p ss aa]. intros X; inversion X; subst k'. split; [apply validate_ok; auto|]. cbn. repeat split.
  eexists. split; [reflexivity|]. cbn. auto 10.
Qed.
Lemma add_activity_err g a k e : add_activity g a k = Err e ->
  (exists n, In n (referenced_accounts a) /\ ~ exists x, get_account g n = Ok (Some x)) /\
  comp_step g (CAdd a) k = k.
Proof.
  intros X. split; [|cbn; rewrite X; reflexivity].
  unfold add_activity in X. destruct (validate_account_names g (referenced_accounts a)) as [[]|e0] eqn:E; cbn [bind] in X; [destruct k; discriminate|].
  clear X. revert E. generalize (referenced_accounts a) as l. intros l E.
  assert (~ forall n, In n l -> exists x, get_account g n = Ok (Some x)).
  { intros Y. apply validate_ok in Y. congruence. }
  clear E. induction l as [|n l IH]; [exfalso; apply H; intros ? []|].
  destruct (get_account g n) as [[x|]|] eqn:G.
  - destruct IH as (n' & A & B); [|exists n'; split; [right|]; auto]. intros Y. apply H. intros n' [<-|Hn]; eauto.
  - exists n. split; [left; auto|]. intros (x & Y). congruence.
  - exists n. split; [left; auto|]. intros (x & Y). congruence.
Qed.

Lemma run_basic_postings m m' : (0 <= md_count m)%Z -> run_model m = Ok m' ->
  Forall2 (fun e e' => all_basic e -> exists acts,
      mapM (prepare_activity (reset (md_clock m)) (md_count m)) (entity_acts e) = Ok acts /\
      operating (l_txs (en_gl e')) =
        flat_map (fun i => flat_map (fun a =>
          match ac_kind a, datetime_at (md_clock m) (Z.of_nat i) with
          | KBasic dt cr v, Ok d => if criteria a (Z.of_nat i) then [basic_tx a d dt cr v] else []
          | _, _ => []
          end) acts) (seq 0 (Z.to_nat (md_count m))))
    (md_ents m) (md_ents m').
Proof.
  intros Hn H. eapply Forall2_weaken; [|apply (run_postings m m' Hn H)]. intros e e' (acts & A & B) AB. exists acts. split; auto.
  rewrite B. apply flat_map_ext. intros i.
  assert (K : forall a, In a acts -> exists dt cr v, ac_kind a = KBasic dt cr v).
  { clear B. apply mapM_forall2 in A. unfold all_basic in AB. revert AB A. generalize (entity_acts e). intros l AB A a Ha.
    induction A as [|x y l l' X A IH]; [destruct Ha|]. destruct Ha as [<-|Ha].
    - destruct (AB x (or_introl eq_refl)) as (dt & cr & v & E). apply prepare_keeps in X. destruct X as (_ & _ & _ & _ & X & _).
      rewrite E in X. eauto.
    - apply IH; [intros z Hz; apply (AB z); right; exact Hz|exact Ha]. }
  clear - K. induction acts as [|a acts IH]; cbn [flat_map]; auto. rewrite IH by (intros x Hx; apply K; right; auto). f_equal.
  destruct (K a (or_introl eq_refl)) as (dt & cr & v & E). rewrite (act_posts_basic _ _ _ _ _ _ E), E.
  change (datetime_at (reset (md_clock m)) (Z.of_nat i)) with (datetime_at (md_clock m) (Z.of_nat i)).
  destruct (criteria a _), (datetime_at _ _); reflexivity.
Qed.

Lemma nonpositive_never a dt cr v ix : ac_kind a = KBasic dt cr v -> (v <= 0)%Qc -> criteria a ix = false.
Proof.
  intros E L. unfold criteria. rewrite E. apply andb_false_iff. right. apply not_true_is_false. intros X. apply qpos_spec in X.
  eapply Qclt_not_le; eauto.
Qed.

Lemma new_loan_kind name bank lacc iacc amount rate s n interval desc a : new_loan name bank lacc iacc amount rate s n interval desc = Ok a ->
  exists pay, monthly_payment amount (rate / twelve)%Qc n = Ok pay /\ ac_interval a = interval /\
    ac_kind a = KLoan (mkloan bank lacc iacc amount rate (rate / twelve)%Qc pay n 0 amount).
Proof.
  unfold new_loan. destruct (add_months _ _); cbn [bind]; [|discriminate]. destruct (monthly_payment _ _ _) as [pay|]; cbn [bind]; [|discriminate].
  intros H; inversion H; subst. exists pay. auto.
Qed.
Lemma ready_loan name bank lacc iacc amount rate s n interval desc a p c N b :
  new_loan name bank lacc iacc amount rate s n interval desc = Ok a -> prepare_activity c N (act_set_parent p a) = Ok b ->
  exists pay, monthly_payment amount (rate / twelve)%Qc n = Ok pay /\ ac_interval b = interval /\
    ac_kind b = KLoan (mkloan bank lacc iacc amount rate (rate / twelve)%Qc pay n 0 amount).
Proof.
  intros H P. destruct (new_loan_kind _ _ _ _ _ _ _ _ _ _ _ H) as (pay & A & B & C). exists pay. split; auto.
  apply prepare_keeps in P. destruct P as (_ & _ & _ & X & Y & _). cbn in X, Y. rewrite C in Y. cbn in Y. split; congruence.
Qed.

Lemma rate12_pos r : (0 < r)%Qc -> (0 < r / twelve)%Qc.
Proof. intros H. unfold Qcdiv. apply mul_pos; auto. reflexivity. Qed.

Lemma loan_repaid name bank lacc iacc amount rate s n interval desc a p c N b cs gl gl' b' :
  (1 <= n)%Z -> (1 <= interval)%Z ->
  new_loan name bank lacc iacc amount rate s n interval desc = Ok a ->
  prepare_activity c N (act_set_parent p a) = Ok b ->
  run_at cs gl b = Ok (gl', b') ->
  exists l, ac_kind b' = KLoan l /\
    (forall k, executions b cs = S k -> (Z.of_nat k = n -> ln_left l = 0%Qc) /\
       ((0 < amount)%Qc -> (0 < rate)%Qc -> (Z.of_nat k < n)%Z -> (0 < ln_left l)%Qc)).
Proof.
  intros Hn Hi HL HP HR. destruct (ready_loan _ _ _ _ _ _ _ _ _ _ _ _ _ _ _ HL HP) as (pay & A & B & C).
  destruct (loan_left_after cs b _ gl gl' b' C ltac:(lia) eq_refl eq_refl HR) as (l & D & E). exists l. split; auto.
  intros k K. rewrite K in E. cbn [pred ln_amount ln_rate ln_payment] in E. rewrite E. split.
  - intros <-. pose proof (outstanding_end _ _ _ _ Hn A) as X. rewrite Nat2Z.id in X. exact X.
  - intros Ha Hr Hk. apply (outstanding_pos amount (rate / twelve)%Qc n pay k); auto. apply rate12_pos; auto.
Qed.

Lemma loan_decreases name bank lacc iacc amount rate s n interval desc a p c N b cs gl gl1 b1 cs' gl2 b2 l1 l2 :
  (1 <= n)%Z -> (1 <= interval)%Z -> (0 < amount)%Qc -> (0 < rate)%Qc ->
  new_loan name bank lacc iacc amount rate s n interval desc = Ok a ->
  prepare_activity c N (act_set_parent p a) = Ok b ->
  run_at cs gl b = Ok (gl1, b1) -> run_at cs' gl b = Ok (gl2, b2) -> (1 <= executions b cs < executions b cs')%nat ->
  ac_kind b1 = KLoan l1 -> ac_kind b2 = KLoan l2 -> (ln_left l2 < ln_left l1)%Qc.
Proof.
  intros Hn Hi Ha Hr HL HP H1 H2 Hx K1 K2. destruct (ready_loan _ _ _ _ _ _ _ _ _ _ _ _ _ _ _ HL HP) as (pay & A & B & C).
  destruct (loan_left_after cs b _ gl gl1 b1 C ltac:(lia) eq_refl eq_refl H1) as (m1 & D1 & E1).
  destruct (loan_left_after cs' b _ gl gl2 b2 C ltac:(lia) eq_refl eq_refl H2) as (m2 & D2 & E2).
  rewrite K1 in D1. inversion D1; subst m1. rewrite K2 in D2. inversion D2; subst m2. rewrite E1, E2. cbn [ln_amount ln_rate ln_payment].
  apply (outstanding_decr amount (rate / twelve)%Qc n pay); auto; [apply rate12_pos; auto|lia].
Qed.

Lemma zero_rate_raises name bank lacc iacc amount s n interval desc fin :
  (1 <= n)%Z -> add_months s (n + 1) = Ok fin ->
  new_loan name bank lacc iacc amount 0%Qc s n interval desc = Err ZeroDivisionError.
Proof.
  intros Hn E. unfold new_loan. rewrite E. cbn [bind]. unfold monthly_payment, pypow. replace (0 <=? n)%Z with true by lia. cbn [bind].
  replace (1 + 0 / twelve)%Qc with 1%Qc by (field; apply twelve_nz). rewrite pow_1.
  replace (pydiv 1 1) with (@Ok Qc 1%Qc). 2: { unfold pydiv. cbn. f_equal. }
  cbn [bind]. replace (1 - 1)%Qc with 0%Qc by ring. rewrite pydiv_0. reflexivity.
Qed.

Lemma sibling_selected l start fin p x y t rows tot :
  In t (l_txs l) -> tx_source t = Some (p ++ x ++ "/" ++ y) ->
  py_leb start (tx_date t) = true -> py_leb (tx_date t) fin = true ->
  transaction_list l start fin p = Ok (rows, tot) -> In (tl_row_of t) rows.
Proof.
  intros Ht Hs H1 H2 H. destruct (transaction_list_correct _ _ _ _ _ _ H) as (ts & -> & P & _). apply in_map.
  apply (Permutation.Permutation_in _ (Permutation.Permutation_sym P)). unfold selected. apply filter_In. split; auto.
  rewrite Hs, H1, H2. cbn [str_of]. rewrite starts_with_app. reflexivity.
Qed.

Lemma changed_start_ignored c n a b t : fresh a -> ac_start a <> dt_min -> some_period_after c (ac_start a) n ->
  prepare_activity c n a = Ok b ->
  forall b', prepare_activity c n (act_set_start t b) = Ok b' -> ac_start_ix b' = ac_start_ix b.
Proof.
  intros F Hm Hs Hp b' Hp'. destruct (prepare_fresh _ _ _ _ F Hp) as (s & k & -> & HS & _).
  assert (0 <= s)%Z. { destruct HS as [[? ?]|[[_ [? _]]|(_ & _ & ?)]]; lia. }
  unfold prepare_activity, prepare_base, act_set_start in Hp'. cbn [with_kind with_ixs ac_start_ix ac_start ac_count ac_end] in Hp'.
  replace (s =? -1)%Z with false in Hp' by lia. cbn [andb bind] in Hp'.
  match type of Hp' with context [if ?x then first_after ?a1 ?a2 ?a3 ?a4 else Ok None] => destruct (if x then first_after a1 a2 a3 a4 else Ok None) as [g|] end; cbn [bind] in Hp'; [|discriminate].
  inversion Hp'; subst b'. cbn. replace (s =? -1)%Z with false by lia. reflexivity.
Qed.
