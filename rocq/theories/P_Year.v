(** Proofs about the years that a run closes. *)
From Verif Require Import Prelude M_Dates M_Accounts M_Ledger M_Business Spec_Dates Spec_Accounts Spec_Ledger Spec_Business
  P_Dates P_Accounts P_Ledger P_Reports P_Business.
Open Scope Z_scope.

Lemma year_start_ok s k y : valid_dt s -> year_start s k = Ok y ->
  valid_dt y /\ month_index y = month_index s + 12 * Z.of_nat k /\ dt_us y = dt_us s /\ dt_day y <= dt_day s /\
  dt_year y = dt_year s + Z.of_nat k /\ dt_month y = dt_month s.
Proof.
  intros V. revert y. induction k as [|k IH]; intros y; cbn [year_start].
  - intros H; inversion H; subst. repeat split; try apply V; lia.
  - destruct (year_start s k) as [x|] eqn:E; cbn [bind]; [|discriminate]. intros H.
    destruct (IH x eq_refl) as (A & B & C & D & F & G). destruct (add_years_ok _ _ _ A H) as (A' & B' & C' & D' & E').
    repeat split; try apply A'; unfold month_index in *; try lia.
Qed.

Lemma year_start_S s k y1 : year_start s (S k) = Ok y1 -> exists y, year_start s k = Ok y /\ add_years y 1 = Ok y1.
Proof. cbn. destruct (year_start s k); cbn [bind]; [eauto|discriminate]. Qed.

Lemma year_start_lt s j k a b : valid_dt s -> (j < k)%nat -> year_start s j = Ok a -> year_start s k = Ok b -> instant a < instant b.
Proof.
  intros V L A B. apply year_start_ok in A; auto. apply year_start_ok in B; auto. apply month_index_lt; try tauto. lia.
Qed.

Lemma add_year_gap y y1 : valid_dt y -> add_years y 1 = Ok y1 -> instant y + 8 * us_per_day <= instant y1.
Proof.
  intros V H. destruct (add_years_ok _ _ _ V H) as (V1 & A & B & C & D). unfold instant, toordinal, ymd2ord.
  rewrite A, B, D, leap_days_spec. destruct V as (_ & Hm & Hd & _).
  pose proof (dim_bounds (dt_year y1) (dt_month y1)). pose proof (dim_bounds (dt_year y) (dt_month y)).
  assert (0 <= leap_days (dt_year y)) by (unfold leap_days; destruct (is_leap _); lia).
  assert (days_before_month (dt_year y) (dt_month y) <= days_before_month (dt_year y + 1) (dt_month y) + 1).
  { unfold days_before_month. destruct (_ && is_leap (dt_year y)), (_ && is_leap (dt_year y + 1)); lia. }
  unfold us_per_day. lia.
Qed.

(** one period never spans two year ends *)
Lemma year_gap c k i d d' y1 y2 : valid_dt (ck_start c) ->
  year_start (ck_start c) (S k) = Ok y1 -> year_start (ck_start c) (S (S k)) = Ok y2 ->
  datetime_at c i = Ok d -> datetime_at c (i + 1) = Ok d' -> instant d < instant y1 -> instant d' < instant y2.
Proof.
  intros V Y1 Y2 D D' L. destruct (year_start_S _ _ _ Y2) as (z & Z1 & Z2). rewrite Y1 in Z1. inversion Z1; subst z; clear Z1.
  destruct (year_start_ok _ _ _ V Y1) as (V1 & M1 & U1 & Dy1 & _). destruct (year_start_ok _ _ _ V Y2) as (V2 & M2 & _).
  destruct (period_kind (ck_period c)) as [(len & E & P)|(m & E & P)].
  - destruct (fixed_exact _ _ _ _ V E D) as (_ & I). destruct (fixed_exact _ _ _ _ V E D') as (_ & I').
    pose proof (add_year_gap _ _ V1 Z2).
    assert (len <= 7 * us_per_day) by (destruct (ck_period c); inversion E; subst; unfold us_per_day; lia).
    unfold us_per_day in *. lia.
  - destruct (calendar_exact _ _ _ _ V E D) as (W & I & Dd & Du). destruct (calendar_exact _ _ _ _ V E D') as (W' & I' & _).
    assert (i * m < 12 * Z.of_nat (S k)).
    { destruct (Z.lt_trichotomy (month_index d) (month_index y1)) as [H|[H|H]]; [lia| |].
      - exfalso. assert (Ey : dt_year d = dt_year y1 /\ dt_month d = dt_month y1).
        { destruct W as (_ & ? & _), V1 as (_ & ? & _). unfold month_index in H. lia. }
        destruct Ey as [Ey Em]. assert (dt_day y1 <= dt_day d).
        { rewrite Dd, Ey, Em. destruct V1 as (_ & _ & ? & _). lia. }
        unfold instant, toordinal, ymd2ord in L. rewrite Ey, Em, Du, U1 in L. unfold us_per_day in L. lia.
      - exfalso. pose proof (month_index_lt _ _ V1 W H). lia. }
    assert ((i + 1) * m <= 12 * Z.of_nat (S k)).
    { destruct (ck_period c); inversion E; subst; lia. }
    apply month_index_lt; auto. lia.
Qed.

Lemma year_end_detail c e e' : year_end c e = Ok e' -> exists now, get_datetime c = Ok now /\
  ((dt_leb (en_curr e) now || (ck_ix c =? en_count e) = true /\
    exists ye nx cl, add_us (en_curr e) (-1000000) = Ok ye /\ add_years (en_curr e) 1 = Ok nx /\
      close_year (l_structure (en_gl e)) (en_path e) (l_txs (en_gl e)) (en_prev e) ye = Ok cl /\
      l_txs (en_gl e') = (l_txs (en_gl e) ++ cl)%list /\ en_prev e' = en_curr e /\
      en_curr e' = (if dt_ltb (en_exec e) nx then en_exec e else nx)) \/
   (dt_leb (en_curr e) now || (ck_ix c =? en_count e) = false /\ e' = e)).
Proof.
  unfold year_end. destruct (get_datetime c) as [now|]; cbn [bind]; [|discriminate]. intros H. exists now. split; auto.
  destruct (_ || _).
  - left. split; auto. destruct (add_us _ _) as [ye|]; cbn [bind] in H; [|discriminate].
    destruct (add_years _ _) as [nx|]; cbn [bind] in H; [|discriminate].
    destruct (close_year _ _ _ _ _) as [cl|] eqn:E; cbn [bind] in H; [|discriminate].
    inversion H; subst; cbn. exists ye, nx, cl. auto 10.
  - right. inversion H; auto.
Qed.

(** transactions with datetimes *)
Definition dated (P : datetime -> Prop) (l : list tx) : Prop := forall t, In t l -> exists d, tx_date t = PDateTime d /\ P d.
Definition winb (ys ye : datetime) (t : tx) : bool :=
  py_leb (PDateTime ys) (tx_date t) && py_leb (tx_date t) (PDateTime ye).

Lemma window_fold ys ye P l : dated P l -> forall acc,
  foldM (fun acc t => do b <- py_between (PDateTime ys) (tx_date t) (PDateTime ye); Ok (if b : bool then acc ++ [t] else acc)%list) l acc
  = Ok (acc ++ filter (winb ys ye) l)%list.
Proof.
  induction l as [|t l IH]; intros H acc; cbn [foldM filter]; [rewrite app_nil_r; auto|].
  destruct (H t) as (d & Ed & _); [left; auto|].
  rewrite py_between_comparable by (rewrite Ed; reflexivity). cbn [bind]. fold (winb ys ye t).
  rewrite IH by (intros x Hx; apply H; right; auto). destruct (winb ys ye t); [rewrite <- app_assoc|]; reflexivity.
Qed.

Lemma close_year_ext g path ys ye P Q l l' : dated P l -> dated Q l' -> filter (winb ys ye) l = filter (winb ys ye) l' ->
  close_year g path l ys ye = close_year g path l' ys ye.
Proof.
  intros H H' E. unfold close_year. destruct (deref g id_sales), (deref g id_cos), (deref g id_gross_profit) as [gp|],
    (deref g id_inc_sum) as [is_|], (deref g id_ret_earnings) as [re|]; auto.
  rewrite (window_fold _ _ _ _ H), (window_fold _ _ _ _ H'), E. reflexivity.
Qed.

Lemma close_year_dated g path txs ys ye cl : close_year g path txs ys ye = Ok cl -> dated (fun d => d = ye) cl.
Proof.
  unfold close_year. destruct (deref g id_sales), (deref g id_cos), (deref g id_gross_profit) as [gp|],
    (deref g id_inc_sum) as [is_|], (deref g id_ret_earnings) as [re|]; try discriminate.
  destruct (foldM _ txs []) as [year|]; cbn [bind]; [|discriminate].
  destruct (foldM _ year _) as [w|]; cbn [bind]; [|discriminate].
  intros H; inversion H; subst cl. intros t Ht. exists ye. split; auto. rewrite !in_app_iff in Ht.
  destruct Ht as [Ht|[Ht|[Ht|Ht]]].
  - apply in_flat_map in Ht as ([x v] & _ & Ht). destruct (qpos v), (qneg v); cbn in Ht; intuition; subst; reflexivity.
  - apply in_flat_map in Ht as ([x v] & _ & Ht). destruct (qpos v), (qneg v); cbn in Ht; intuition; subst; reflexivity.
  - unfold ye_settle_gross in Ht. repeat match type of Ht with context [if ?b then _ else _] => destruct b end; cbn in Ht; intuition; subst; reflexivity.
  - unfold ye_retained in Ht. repeat match type of Ht with context [if ?b then _ else _] => destruct b end; cbn in Ht; intuition; subst; reflexivity.
Qed.

Lemma posts_dated c aa d : get_datetime c = Ok d -> dated (fun x => x = d) (flat_map (act_posts c) aa).
Proof.
  intros E t Ht. apply in_flat_map in Ht as (a & _ & Ht). exists d. split; auto. unfold act_posts in Ht. rewrite E in Ht.
  destruct (criteria _ _); [|destruct Ht]. destruct (ac_kind a); [|destruct (_ =? 0)]; cbn in Ht; intuition; subst; reflexivity.
Qed.

Lemma dated_app P l l' : dated P l -> dated P l' -> dated P (l ++ l').
Proof. intros H H' t Ht. apply in_app_or in Ht as [Ht|Ht]; auto. Qed.
Lemma dated_weaken (P Q : datetime -> Prop) l : (forall d, P d -> Q d) -> dated P l -> dated Q l.
Proof. intros H D t Ht. destruct (D t Ht) as (d & E & Hd). eauto. Qed.
Lemma dated_filter P f l : dated P l -> dated P (filter f l).
Proof. intros D t Ht. apply filter_In in Ht as [Ht _]. auto. Qed.

Lemma filter_none {A} (f : A -> bool) l : (forall x, In x l -> f x = false) -> filter f l = [].
Proof. induction l as [|x l IH]; cbn; auto. intros H. rewrite (H x) by auto. auto. Qed.
Lemma filter_all {A} (f : A -> bool) l : (forall x, In x l -> f x = true) -> filter f l = l.
Proof. induction l as [|x l IH]; cbn; auto. intros H. rewrite (H x) by auto. rewrite IH; auto. Qed.

Lemma winb_after ys ye P l : dated P l -> valid_dt ye -> (forall d, P d -> valid_dt d /\ instant ye < instant d) ->
  filter (winb ys ye) l = [].
Proof.
  intros D V H. apply filter_none. intros t Ht. destruct (D t Ht) as (d & E & Hd). unfold winb. rewrite E. cbn.
  apply andb_false_iff. right. destruct (H d Hd) as [Vd L]. unfold py_leb. cbn. apply not_true_is_false. intros X. apply dt_leb_instant in X; auto. lia.
Qed.
Lemma winb_before ys ye P l : dated P l -> valid_dt ys -> (forall d, P d -> valid_dt d /\ instant d < instant ys) ->
  filter (winb ys ye) l = [].
Proof.
  intros D V H. apply filter_none. intros t Ht. destruct (D t Ht) as (d & E & Hd). unfold winb. rewrite E. cbn.
  apply andb_false_iff. left. destruct (H d Hd) as [Vd L]. unfold py_leb. cbn. apply not_true_is_false. intros X. apply dt_leb_instant in X; auto. lia.
Qed.

Definition closing (l : list tx) : list tx := filter tx_closing_cr l.

(** what holds after i periods of a run *)
Definition years_inv (c : clock) (e0 : entity) (i : nat) (e : entity) : Prop :=
  exists k ws cls y1,
    Forall2 (year_window (ck_start c)) (seq 0 k) ws /\
    year_start (ck_start c) k = Ok (en_prev e) /\ year_start (ck_start c) (S k) = Ok y1 /\
    (en_curr e = y1 \/ en_curr e = en_exec e /\ instant (en_exec e) < instant y1) /\
    (forall j, i = S j -> exists d, datetime_at c (Z.of_nat j) = Ok d /\ instant (en_prev e) <= instant d < instant y1) /\
    (i = O -> k = O) /\
    dated (fun d => valid_dt d /\ (exists j, (j < i)%nat /\ datetime_at c (Z.of_nat j) = Ok d)) (operating (l_txs (en_gl e))) /\
    dated (fun d => valid_dt d /\ instant d < instant (en_prev e)) (closing (l_txs (en_gl e))) /\
    (forall t, In t (l_txs (en_gl e)) -> tx_closing_dt t = false) /\
    closing (l_txs (en_gl e)) = concat cls /\
    Forall2 (fun w cl => close_year (l_structure (en_gl e0)) (en_path e0) (operating (l_txs (en_gl e))) (fst w) (snd w) = Ok cl)
      ws cls.

Lemma closing_posts c aa : closing (flat_map (act_posts c) aa) = [].
Proof.
  apply filter_none. intros t Ht. apply in_flat_map in Ht as (a & _ & Ht). unfold act_posts in Ht.
  destruct (criteria _ _); [|destruct Ht]. destruct (get_datetime c); [|destruct Ht].
  destruct (ac_kind a); [|destruct (_ =? 0)]; cbn in Ht; intuition; subst; reflexivity.
Qed.
Lemma closing_dt_posts c aa t : In t (flat_map (act_posts c) aa) -> tx_closing_dt t = false.
Proof.
  intros Ht. apply in_flat_map in Ht as (a & _ & Ht). unfold act_posts in Ht.
  destruct (criteria _ _); [|destruct Ht]. destruct (get_datetime c); [|destruct Ht].
  destruct (ac_kind a); [|destruct (_ =? 0)]; cbn in Ht; intuition; subst; reflexivity.
Qed.
Lemma close_year_dt g path txs ys ye cl : close_year g path txs ys ye = Ok cl -> forall t, In t cl -> tx_closing_dt t = false.
Proof.
  unfold close_year. destruct (deref g id_sales), (deref g id_cos), (deref g id_gross_profit) as [gp|],
    (deref g id_inc_sum) as [is_|], (deref g id_ret_earnings) as [re|]; try discriminate.
  destruct (foldM _ txs []) as [year|]; cbn [bind]; [|discriminate].
  destruct (foldM _ year _) as [w|]; cbn [bind]; [|discriminate].
  intros H; inversion H; subst cl. intros t Ht. rewrite !in_app_iff in Ht.
  destruct Ht as [Ht|[Ht|[Ht|Ht]]].
  - apply in_flat_map in Ht as ([x v] & _ & Ht). destruct (qpos v), (qneg v); cbn in Ht; intuition; subst; reflexivity.
  - apply in_flat_map in Ht as ([x v] & _ & Ht). destruct (qpos v), (qneg v); cbn in Ht; intuition; subst; reflexivity.
  - unfold ye_settle_gross in Ht. repeat match type of Ht with context [if ?b then _ else _] => destruct b end; cbn in Ht; intuition; subst; reflexivity.
  - unfold ye_retained in Ht. repeat match type of Ht with context [if ?b then _ else _] => destruct b end; cbn in Ht; intuition; subst; reflexivity.
Qed.

Lemma closing_app l l' : closing (l ++ l') = (closing l ++ closing l')%list.
Proof. apply filter_app. Qed.
Lemma closing_all cl : all_closing cl -> closing cl = cl.
Proof. intros H. apply filter_all. exact H. Qed.

(** filtering a window only sees operating and closing transactions *)
Lemma win_operating ys ye l : (forall t, In t l -> tx_closing_dt t = false) -> filter (winb ys ye) (closing l) = [] ->
  filter (winb ys ye) l = filter (winb ys ye) (operating l).
Proof.
  unfold closing, operating. induction l as [|t l IH]; cbn; auto. intros H C. rewrite (H t) by auto. rewrite andb_true_r.
  destruct (tx_closing_cr t); cbn [filter negb] in *.
  - destruct (winb ys ye t); [discriminate|]. apply IH; auto.
  - destruct (winb ys ye t); [f_equal|]; apply IH; auto.
Qed.

Lemma run_entity_detail c e e' : ck_ix c < en_count e -> run_entity c e = Ok e' ->
  exists em, year_end c em = Ok e' /\ l_txs (en_gl em) = (l_txs (en_gl e) ++ flat_map (act_posts c) (entity_acts e))%list /\
    l_structure (en_gl em) = l_structure (en_gl e) /\ en_path em = en_path e /\ en_count em = en_count e /\
    en_prev em = en_prev e /\ en_curr em = en_curr e /\ en_exec em = en_exec e.
Proof.
  intros Hi. unfold run_entity. replace (en_count e <=? ck_ix c) with false by lia.
  destruct (traverse (run_comp c) (en_comps e) (en_gl e)) as [[l ks]|] eqn:E; cbn [bind]; [|discriminate]. cbn [fst snd].
  intros H. eexists. split; [exact H|]. cbn. apply run_comps_ok in E as (B1 & B2 & B3). auto 10.
Qed.

Lemma instant_le_leb a b : valid_dt a -> valid_dt b -> (dt_leb a b = false <-> instant b < instant a).
Proof.
  intros A B. pose proof (dt_leb_instant a b A B) as H. rewrite <- not_true_iff_false, H. lia.
Qed.

Lemma years_step c e0 i e e' :
  valid_dt (ck_start c) -> Z.of_nat i < en_count e0 -> datetime_at c (en_count e0) = Ok (en_exec e0) ->
  entity_inv c e0 i e -> years_inv c e0 i e -> run_entity (clock_at c (Z.of_nat i)) e = Ok e' -> years_inv c e0 (S i) e'.
Proof.
  intros V Hi Hex EI (k & ws & cls & y1 & W & Yk & Y1 & Cu & La & Z0 & Od & Cd & Ct & Cc & Cl) Hr.
  destruct EI as (_ & _ & EP & EC & EX & ES & _).
  apply run_entity_detail in Hr; [|cbn; lia].
  destruct Hr as (em & Hy & M1 & M2 & M3 & M4 & M5 & M6 & M7).
  destruct (year_end_ok _ _ _ Hy) as (_ & _ & Pp & _ & _ & Xe & Sg & _).
  apply year_end_detail in Hy as (now & Hn & Hy).
  assert (Hn' : datetime_at c (Z.of_nat i) = Ok now) by exact Hn.
  pose proof (datetime_at_valid _ _ _ V Hn') as Vn.
  pose proof (datetime_at_valid _ _ _ V Hex) as Vx.
  destruct (year_start_ok _ _ _ V Yk) as (Vk & _). destruct (year_start_ok _ _ _ V Y1) as (V1 & _).
  assert (Hlt : instant now < instant (en_exec e0)).
  { apply dt_ltb_instant; auto. eapply datetime_at_strict; eauto. }
  assert (Hk : instant (en_prev e) <= instant now).
  { destruct i as [|i].
    - rewrite (Z0 eq_refl) in Yk. cbn in Yk. assert (E1 : en_prev e = ck_start c) by congruence. change (Z.of_nat 0) with 0 in Hn'. rewrite datetime_at_0 in Hn' by auto. assert (E2 : now = ck_start c) by congruence. rewrite E1, E2. lia.
    - destruct (La i eq_refl) as (d & Ed & Ld).
      assert (dt_ltb d now = true) by (eapply (datetime_at_strict c (Z.of_nat i) (Z.of_nat (S i))); eauto; lia).
      apply dt_ltb_instant in H; auto; [lia|]. eapply datetime_at_valid; eauto. }
  pose proof (posts_dated (clock_at c (Z.of_nat i)) (entity_acts e) now Hn) as Pd.
  assert (Od' : dated (fun d => valid_dt d /\ (exists j, (j < S i)%nat /\ datetime_at c (Z.of_nat j) = Ok d))
                  (operating (l_txs (en_gl em)))).
  { rewrite M1, operating_app, operating_all_posts. apply dated_app.
    - eapply dated_weaken; [|exact Od]. cbn. intros d (A & j & B & C). split; auto. exists j. split; auto; lia.
    - eapply dated_weaken; [|exact Pd]. cbn. intros d ->. split; auto. exists i. split; auto. }
  assert (Cm : closing (l_txs (en_gl em)) = closing (l_txs (en_gl e))).
  { rewrite M1, closing_app, closing_posts, app_nil_r. reflexivity. }
  assert (Ctm : forall t, In t (l_txs (en_gl em)) -> tx_closing_dt t = false).
  { intros t Ht. rewrite M1 in Ht. apply in_app_or in Ht as [Ht|Ht]; auto. eapply closing_dt_posts; eauto. }
  (* the earlier windows still close the same way *)
  assert (Clm : Forall2 (fun w cl => close_year (l_structure (en_gl e0)) (en_path e0) (operating (l_txs (en_gl em))) (fst w) (snd w) = Ok cl)
            ws cls).
  { assert (G : Forall (fun w => valid_dt (snd w) /\ instant (snd w) < instant (en_prev e)) ws).
    { clear - W Yk V. assert (H : forall n i wins, Forall2 (year_window (ck_start c)) (seq i n) wins -> (i + n <= k)%nat ->
         Forall (fun w => valid_dt (snd w) /\ instant (snd w) < instant (en_prev e)) wins).
      { induction n as [|n IH]; intros i wins F L; inversion F as [|x1 w l1 ws2 HW F']; subst; constructor.
        - destruct HW as (A & y & B & D). apply add_us_ok in D as (D1 & D2). split; auto.
          assert (instant y <= instant (en_prev e)).
          { destruct (Nat.eq_dec (S i) k) as [Ek|]; [rewrite Ek, Yk in B; inversion B; lia|]. pose proof (year_start_lt _ (S i) k _ _ V ltac:(lia) B Yk). lia. }
          lia.
        - apply (IH (S i)); auto; lia. }
      apply (H k 0%nat); auto. }
    clear - Cl G Od Od' Pd M1 Hk Vn. revert cls Cl. induction G as [|w ws' [Hv Hw] G IH]; intros cls Cl; inversion Cl; subst; constructor; auto.
    rewrite <- H1. eapply close_year_ext; [exact Od'|exact Od|].
    rewrite M1, operating_app, operating_all_posts, filter_app.
    rewrite (winb_after _ _ _ _ Pd Hv); [apply app_nil_r|]. intros d ->. split; auto; lia. }
  destruct Hy as [(B & ye & nx & cl & Eye & Enx & Ecl & L1 & L2 & L3)|(B & ->)].
  - (* the year is closed *)
    rewrite M6, M4, M7, M5, M3 in *. rewrite M2 in Ecl.
    assert (Hne : (ck_ix (clock_at c (Z.of_nat i)) =? en_count e) = false) by (cbn; lia).
    rewrite Hne, orb_false_r in B.
    assert (Ecu : en_curr e = y1).
    { destruct Cu as [Cu|[Cu Cl1]]; auto. rewrite Cu, EX in B. apply dt_leb_instant in B; auto. lia. }
    rewrite Ecu in *. apply dt_leb_instant in B; auto.
    assert (Y2 : year_start (ck_start c) (S (S k)) = Ok nx).
    { change (year_start (ck_start c) (S (S k))) with (do y <- year_start (ck_start c) (S k); add_years y 1). rewrite Y1. exact Enx. }
    destruct (year_start_ok _ _ _ V Y2) as (V2 & _).
    destruct (add_us_ok _ _ _ Eye) as (Vye & Iye).
    exists (S k), (ws ++ [(en_prev e, ye)])%list, (cls ++ [cl])%list, nx.
    assert (Hnow2 : instant now < instant nx).
    { destruct i as [|i].
      - change (Z.of_nat 0) with 0 in Hn'. rewrite datetime_at_0 in Hn' by auto. assert (E2 : now = ck_start c) by congruence. rewrite E2.
        assert (E0 : k = 0%nat) by auto. rewrite E0 in Y2.
        pose proof (year_start_lt _ 0 2 _ _ V ltac:(lia) eq_refl Y2). auto.
      - destruct (La i eq_refl) as (d & Ed & Ld).
        eapply (year_gap c k (Z.of_nat i) d now y1 nx); eauto; [|lia].
        replace (Z.of_nat i + 1) with (Z.of_nat (S i)) by lia. auto. }
    assert (Ocl : operating cl = []) by (apply operating_closing; eapply close_year_closing; eauto).
    assert (Eop : operating (l_txs (en_gl e')) = operating (l_txs (en_gl em))).
    { rewrite L1, operating_app, Ocl, app_nil_r. reflexivity. }
    assert (Ecc : closing (l_txs (en_gl e')) = (closing (l_txs (en_gl e)) ++ cl)%list).
    { rewrite L1, closing_app, Cm, (closing_all cl); auto. eapply close_year_closing; eauto. }
    assert (Lk : instant (en_prev e) < instant y1) by (eapply (year_start_lt _ k (S k)); [exact V|lia|exact Yk|exact Y1]).
    rewrite L2, L3.
    split; [|split; [|split; [|split; [|split; [|split; [|split; [|split; [|split; [|split]]]]]]]]].
    + rewrite seq_snoc. apply Forall2_app; auto. constructor; [|constructor]. split; auto. exists y1. split; auto.
    + auto.
    + auto.
    + rewrite Xe, EX. destruct (dt_ltb (en_exec e0) nx) eqn:Ex; auto. right. apply dt_ltb_instant in Ex; auto.
    + intros j Hj. inversion Hj; subst j. exists now. split; auto.
    + discriminate.
    + rewrite Eop. exact Od'.
    + rewrite Ecc. apply dated_app.
      * eapply dated_weaken; [|exact Cd]. cbn. intros d [? ?]. split; auto. lia.
      * eapply dated_weaken; [|eapply close_year_dated; eauto]. cbn. intros d ->. split; auto. lia.
    + intros t Ht. rewrite L1 in Ht. apply in_app_or in Ht as [Ht|Ht]; auto. eapply close_year_dt; eauto.
    + rewrite Ecc, Cc, concat_app. cbn. rewrite app_nil_r. reflexivity.
    + rewrite Eop. apply Forall2_app; auto. constructor; [|constructor]. cbn [fst snd].
      rewrite <- ES, <- EP, <- Ecl.
      eapply (close_year_ext _ _ _ _ _ (fun _ => True)); [exact Od'| |].
      * intros t Ht. destruct (tx_closing_cr t) eqn:Et.
        -- destruct (Cd t) as (d & Ed & _); [|eauto]. rewrite <- Cm. apply filter_In. auto.
        -- destruct (Od' t) as (d & Ed & _); [|eauto]. apply filter_In. rewrite Et, (Ctm t Ht). auto.
      * symmetry. apply win_operating; auto. rewrite Cm. eapply winb_before; [exact Cd|auto|]. cbn. auto.
  - (* no closing in this period *)
    rewrite M6, M4 in B. apply orb_false_iff in B as [B _].
    assert (Hnow : instant now < instant y1).
    { destruct Cu as [Cu|[Cu Cl1]]; [|rewrite EX in Cl1; lia]. rewrite Cu in B. apply instant_le_leb in B; auto. }
    exists k, ws, cls, y1. rewrite M5, M6, ?M7.
    split; [|split; [|split; [|split; [|split; [|split; [|split; [|split; [|split; [|split]]]]]]]]]; auto.
    + intros j Hj. inversion Hj; subst j. exists now. auto.
    + discriminate.
    + rewrite Cm. auto.
    + rewrite Cm. auto.
Qed.

Lemma years_after c e0 i e : valid_dt (ck_start c) -> datetime_at c (en_count e0) = Ok (en_exec e0) ->
  en_prev e0 = ck_start c -> add_years (ck_start c) 1 = Ok (en_curr e0) -> l_txs (en_gl e0) = [] ->
  entity_after c e0 i e -> Z.of_nat i <= en_count e0 -> years_inv c e0 i e.
Proof.
  intros V Hex Hp Hc Ht H. induction H as [|i e e' H IH Hr]; intros Hi.
  - exists 0%nat, [], [], (en_curr e0). rewrite Hp, Ht. cbn. rewrite Hc. cbn.
    repeat split; auto; try constructor; try discriminate; intros ? [].
  - eapply years_step; eauto; try lia; [eapply entity_after_inv; eauto; lia|apply IH; lia].
Qed.

Theorem run_years m m' : valid_dt (ck_start (md_clock m)) -> 0 <= md_count m -> run_model m = Ok m' ->
  Forall2 (fun e e' => exists k ws cls,
      Forall2 (year_window (ck_start (md_clock m))) (seq 0 k) ws /\
      (md_count m = 0 -> k = 0%nat) /\
      (0 < md_count m -> exists last yk yk1,
         datetime_at (md_clock m) (md_count m - 1) = Ok last /\
         year_start (ck_start (md_clock m)) k = Ok yk /\ year_start (ck_start (md_clock m)) (S k) = Ok yk1 /\
         dt_leb yk last = true /\ dt_ltb last yk1 = true) /\
      (forall t, In t (l_txs (en_gl e')) -> tx_closing_dt t = false) /\
      filter tx_closing_cr (l_txs (en_gl e')) = concat cls /\
      Forall2 (fun w cl => close_year (l_structure (en_gl e)) (en_path e) (operating (l_txs (en_gl e'))) (fst w) (snd w) = Ok cl) ws cls)
    (md_ents m) (md_ents m').
Proof.
  intros V Hn H. destruct (run_model_ok _ _ H) as (_ & _ & _ & es & F1 & F2). set (c := reset (md_clock m)) in *.
  revert F2. generalize (md_ents m'). induction F1 as [|e p l l' Hp F1 IH]; intros es' F2; inversion F2; subst; constructor; auto.
  apply prepare_entity_ok in Hp. destruct Hp as (_ & _ & P3 & P4 & P5 & P6 & _ & P8 & P9 & P10).
  pose proof (years_after c p _ _ V ltac:(rewrite P4; exact P10) P8 P9 P5 H2 ltac:(rewrite P4; lia)) as
    (k & ws & cls & y1 & W & Yk & Y1 & _ & La & Z0 & _ & _ & Ct & Cc & Cl).
  exists k, ws, cls. rewrite <- P6, <- P3. split; [exact W|]. split; [intros E; apply Z0; lia|]. split; [|split; [exact Ct|split; [exact Cc|exact Cl]]].
  intros Hpos. destruct (La (Z.to_nat (md_count m - 1))) as (d & Ed & L1 & L2); [lia|]. rewrite Z2Nat.id in Ed by lia.
  exists d, (en_prev y), y1. pose proof (datetime_at_valid _ _ _ V Ed).
  destruct (year_start_ok _ _ _ V Yk) as (Vk & _). destruct (year_start_ok _ _ _ V Y1) as (V1 & _).
  split; [exact Ed|]. split; [exact Yk|]. split; [exact Y1|]. split; [apply dt_leb_instant|apply dt_ltb_instant]; auto.
Qed.

(** windows of different years have nothing in common *)
Theorem windows_disjoint s i j wi wj d : valid_dt s -> valid_dt d -> year_window s i wi -> year_window s j wj ->
  in_window wi d -> in_window wj d -> i = j.
Proof.
  intros V Vd Wi Wj Ii Ij.
  assert (G : forall i j wi wj, (i < j)%nat -> year_window s i wi -> year_window s j wj -> in_window wi d -> in_window wj d -> False).
  { clear - V Vd. intros i j wi wj L (A1 & y & A2 & A3) (B1 & _) (_ & I1) (J1 & _).
    apply add_us_ok in A3 as (A3 & A4). destruct (year_start_ok _ _ _ V B1) as (Vb & _).
    apply dt_leb_instant in I1; auto. apply dt_leb_instant in J1; auto.
    assert (instant y <= instant (fst wj)).
    { destruct (Nat.eq_dec (S i) j) as [E|]; [rewrite E, B1 in A2; inversion A2; lia|].
      pose proof (year_start_lt _ (S i) j _ _ V ltac:(lia) A2 B1). lia. }
    lia. }
  destruct (Nat.lt_trichotomy i j) as [L|[L|L]]; auto; exfalso; eauto.
Qed.

(** except for millisecond periods, every period of a completed year is in the
    window of that year *)
Theorem windows_cover c k yk ix d : valid_dt (ck_start c) -> ck_period c <> Pms ->
  year_start (ck_start c) k = Ok yk -> 0 <= ix -> datetime_at c ix = Ok d -> dt_ltb d yk = true ->
  exists j w, (j < k)%nat /\ year_window (ck_start c) j w /\ in_window w d.
Proof.
  intros V Hp Yk Hix Ed L. pose proof (datetime_at_valid _ _ _ V Ed) as Vd.
  revert yk Yk L. induction k as [|k IH]; intros yk Yk L.
  - cbn in Yk. inversion Yk; subst yk. apply dt_ltb_instant in L; auto.
    destruct (Z.eq_dec ix 0) as [->|]; [rewrite datetime_at_0 in Ed by auto; inversion Ed; subst; lia|].
    pose proof (datetime_at_strict c 0 ix _ _ V ltac:(lia) (datetime_at_0 _ V) Ed) as X. apply dt_ltb_instant in X; auto. lia.
  - destruct (year_start_S _ _ _ Yk) as (y & Y & A). destruct (dt_ltb d y) eqn:E.
    + destruct (IH y Y E) as (j & w & J & W). exists j, w. split; auto.
    + destruct (year_start_ok _ _ _ V Y) as (Vy & _). destruct (year_start_ok _ _ _ V Yk) as (Vk & Mk & Uk & Dk & _).
      apply dt_ltb_instant in L; auto.
      assert (instant y <= instant d). { destruct (Z.le_gt_cases (instant y) (instant d)); auto. exfalso. apply dt_ltb_instant in H; auto. congruence. }
      assert (L' : instant d <= instant yk - 1000000).
      { destruct (period_kind (ck_period c)) as [(len & Ep & P)|(m & Ep & P)].
        - destruct (fixed_exact _ _ _ _ V Ep Ed) as (_ & I).
          assert (exists q, len = q * 1000000) as [q ->].
          { destruct (ck_period c); inversion Ep; subst; try congruence; eexists; unfold us_per_day;
             match goal with |- ?a = _ * _ => instantiate (1 := a / 1000000) end; reflexivity. }
          unfold instant at 2 in L. rewrite Uk in L. unfold instant at 1 in I.
          unfold instant at 2. rewrite Uk. unfold instant, us_per_day in *. nia.
        - destruct (calendar_exact _ _ _ _ V Ep Ed) as (_ & I & Dd & Du).
          unfold instant in *. rewrite Uk, Du in *. unfold us_per_day in *. nia. }
      destruct (add_us_total yk (-1000000)) as (ye & Eye).
      { pose proof (valid_instant _ Vd). pose proof (valid_instant _ Vk). unfold instant_in_range in *. lia. }
      destruct (add_us_ok _ _ _ Eye) as (Vye & Iye).
      exists k, (y, ye). split; [lia|]. split; [split; cbn [fst snd]; eauto|]. split; cbn [fst snd]; apply dt_leb_instant; auto. lia.
Qed.
