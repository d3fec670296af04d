From Verif Require Import Prelude M_Dates M_Accounts M_Ledger M_Business Spec_Dates Spec_Accounts Spec_Ledger Spec_Business
  P_Dates P_Accounts P_Ledger.
Open Scope string_scope.
Open Scope Z_scope.

(** ** Windows of activities *)
Lemma first_after_some c t n : forall i k, first_after c t i n = Ok (Some k) ->
  i <= k < i + Z.of_nat n /\ (exists d, datetime_at c k = Ok d /\ dt_ltb t d = true) /\
  (forall j, i <= j < k -> exists d, datetime_at c j = Ok d /\ dt_ltb t d = false).
Proof.
  induction n as [|n IH]; intros i k; cbn [first_after]; [discriminate|].
  destruct (datetime_at c i) as [d|] eqn:Ed; cbn [bind]; [|discriminate].
  destruct (dt_ltb t d) eqn:El.
  - intros H; inversion H; subst k. split; [lia|]. split; [eauto|]. intros; lia.
  - intros H. apply IH in H as (H1 & H2 & H3). split; [lia|]. split; auto.
    intros j Hj. destruct (Z.eq_dec j i) as [->|]; [eauto|]. apply H3; lia.
Qed.

Lemma first_after_none c t n : forall i, first_after c t i n = Ok None ->
  forall j, i <= j < i + Z.of_nat n -> exists d, datetime_at c j = Ok d /\ dt_ltb t d = false.
Proof.
  induction n as [|n IH]; intros i; cbn [first_after]; [intros; lia|].
  destruct (datetime_at c i) as [d|] eqn:Ed; cbn [bind]; [|discriminate].
  destruct (dt_ltb t d) eqn:El; [discriminate|].
  intros H j Hj. destruct (Z.eq_dec j i) as [->|]; [eauto|]. apply (IH _ H). lia.
Qed.

Lemma first_after_spec c t n i : first_after c t 0 (Z.to_nat n) = Ok (Some i) -> first_period_after c t n i.
Proof. intros H. apply first_after_some in H as (H1 & H2 & H3). split; [lia|]. split; auto. Qed.

Lemma first_after_spec_none c t n : first_after c t 0 (Z.to_nat n) = Ok None -> ~ some_period_after c t n.
Proof.
  intros H (i & H1 & (d & Ed & El) & _). destruct (first_after_none _ _ _ _ H i) as (d' & Ed' & El'); [lia|]. congruence.
Qed.

Lemma first_period_unique c t n i j : first_period_after c t n i -> first_period_after c t n j -> i = j.
Proof.
  intros (A1 & (a & A2 & A3) & A4) (B1 & (b & B2 & B3) & B4).
  destruct (Z.lt_trichotomy i j) as [H|[H|H]]; auto.
  - destruct (B4 i) as (x & X1 & X2); [lia|]. congruence.
  - destruct (A4 j) as (x & X1 & X2); [lia|]. congruence.
Qed.

(** what prepare_to_run computes for a fresh activity *)
Lemma prepare_fresh c n a b : fresh a -> prepare_activity c n a = Ok b ->
  exists s k,
    b = with_kind (with_ixs a s (if k =? -1 then s + n else s + k) k) (prepare_kind (ac_kind a)) /\
    ((ac_start a = dt_min /\ s = 0) \/
     (ac_start a <> dt_min /\ first_period_after c (ac_start a) n s) \/
     (ac_start a <> dt_min /\ ~ some_period_after c (ac_start a) n /\ s = 0)) /\
    ((ac_end a = dt_max /\ k = -1) \/
     (ac_end a <> dt_max /\ exists i, first_period_after c (ac_end a) n i /\ k = i - s) \/
     (ac_end a <> dt_max /\ ~ some_period_after c (ac_end a) n /\ k = -1)).
Proof.
  intros (F1 & F2 & F3). unfold prepare_activity, prepare_base. rewrite F1, F3. cbn [Z.eqb andb Pos.eqb].
  assert (HS : forall f, (if negb (dt_eqb (ac_start a) dt_min) then first_after c (ac_start a) 0 (Z.to_nat n) else Ok None) = Ok f ->
    let s := match f with Some i => i | None => -1 end in
    let s := if s =? -1 then 0 else s in
    (ac_start a = dt_min /\ s = 0) \/ (ac_start a <> dt_min /\ first_period_after c (ac_start a) n s) \/
    (ac_start a <> dt_min /\ ~ some_period_after c (ac_start a) n /\ s = 0)).
  { intros f. destruct (dt_eqb (ac_start a) dt_min) eqn:E; cbn [negb].
    - apply dt_eqb_eq in E. intros H; inversion H. cbn. auto.
    - assert (ac_start a <> dt_min) by (intros X; apply dt_eqb_eq in X; congruence).
      destruct f as [i|]; intros H'; [right; left|right; right].
      + apply first_after_spec in H'. pose proof H' as [Hi _]. replace (i =? -1) with false by lia. auto.
      + apply first_after_spec_none in H'. auto. }
  destruct (if negb (dt_eqb (ac_start a) dt_min) then _ else _) as [f|]; cbn [bind]; [|discriminate].
  specialize (HS f eq_refl). cbn zeta in HS.
  set (s := if match f with Some i => i | None => -1 end =? -1 then 0 else match f with Some i => i | None => -1 end) in *.
  assert (HE : forall f', (if negb (dt_eqb (ac_end a) dt_max) then first_after c (ac_end a) 0 (Z.to_nat n) else Ok None) = Ok f' ->
    let k := match f' with Some i => i - s | None => -1 end in
    (ac_end a = dt_max /\ k = -1) \/ (ac_end a <> dt_max /\ exists i, first_period_after c (ac_end a) n i /\ k = i - s) \/
    (ac_end a <> dt_max /\ ~ some_period_after c (ac_end a) n /\ k = -1)).
  { intros f'. destruct (dt_eqb (ac_end a) dt_max) eqn:E; cbn [negb].
    - apply dt_eqb_eq in E. intros H; inversion H. cbn. auto.
    - assert (ac_end a <> dt_max) by (intros X; apply dt_eqb_eq in X; congruence).
      destruct f' as [i|]; intros H'; [right; left|right; right].
      + apply first_after_spec in H'. split; auto. exists i. auto.
      + apply first_after_spec_none in H'. auto. }
  destruct (if negb (dt_eqb (ac_end a) dt_max) then _ else _) as [f'|]; cbn [bind]; [|discriminate].
  specialize (HE f' eq_refl). cbn zeta in HE.
  intros H; inversion H; subst b; clear H. exists s, (match f' with Some i => i - s | None => -1 end).
  split; [reflexivity|]. split; auto.
Qed.

Lemma after_start_iff c t n s ix d : valid_dt (ck_start c) -> valid_dt t ->
  first_period_after c t n s -> 0 <= ix -> datetime_at c ix = Ok d ->
  (s <= ix <-> dt_ltb t d = true).
Proof.
  intros V Vt (H1 & (ds & Eds & Els) & H3) Hix Ed. split.
  - intros H. destruct (Z.eq_dec s ix) as [->|]; [congruence|].
    pose proof (datetime_at_valid _ _ _ V Ed) as Vd. pose proof (datetime_at_valid _ _ _ V Eds) as Vs.
    pose proof (datetime_at_strict _ s ix _ _ V ltac:(lia) Eds Ed) as L.
    apply dt_ltb_instant in L; auto. apply dt_ltb_instant in Els; auto. apply dt_ltb_instant; auto. lia.
  - intros H. destruct (Z.le_gt_cases s ix); auto. destruct (H3 ix) as (x & X1 & X2); [lia|]. congruence.
Qed.

Lemma criteria_split a ix : criteria a ix = criteria_base a ix && active a.
Proof. unfold criteria, active. destruct (ac_kind a); reflexivity. Qed.

Lemma active_prepare a s e k : active (with_kind (with_ixs a s e k) (prepare_kind (ac_kind a))) = active a.
Proof. unfold active, with_kind, with_ixs. cbn. destruct (ac_kind a); reflexivity. Qed.

Lemma start_before_end c t t' n s e : valid_dt (ck_start c) -> valid_dt t -> valid_dt t' -> dt_leb t t' = true ->
  first_period_after c t n s -> first_period_after c t' n e -> s <= e.
Proof.
  intros V Vt Vt' L Hs (E1 & (d & Ed & El) & _).
  apply (after_start_iff c t n s e d); auto; try lia.
  pose proof (datetime_at_valid _ _ _ V Ed) as Vd.
  apply dt_ltb_instant in El; auto. apply dt_leb_instant in L; auto. apply dt_ltb_instant; auto. lia.
Qed.

Theorem activity_window c n a b ix d :
  valid_dt (ck_start c) -> valid_dt (ac_start a) -> valid_dt (ac_end a) ->
  fresh a -> 1 <= ac_interval a -> dt_leb (ac_start a) (ac_end a) = true ->
  (ac_start a = dt_min \/ some_period_after c (ac_start a) n) ->
  prepare_activity c n a = Ok b -> 0 <= ix < n -> datetime_at c ix = Ok d ->
  (criteria b ix = true <->
   active a = true /\ (ix + 1) mod ac_interval a = 0 /\
   (ac_start a = dt_min \/ dt_ltb (ac_start a) d = true) /\
   (exists s e, start_period c a n s /\ end_period c a n s e /\ ix + ac_interval a <= e)) /\
  (criteria b ix = true -> ac_end a = dt_max \/ dt_leb d (ac_end a) = true).
Proof.
  intros V Vs Ve F HI Hle Hsome Hp Hix Ed.
  destruct (prepare_fresh _ _ _ _ F Hp) as (s & k & -> & HS & HE).
  rewrite criteria_split, active_prepare.
  assert (HSP : start_period c a n s).
  { unfold start_period. destruct HS as [HS|[HS|(H1 & H2 & _)]]; auto. tauto. }
  assert (Hs0 : 0 <= s). { destruct HSP as [[_ ->]|[_ [? _]]]; lia. }
  assert (HEP : end_period c a n s (if k =? -1 then s + n else s + k)).
  { unfold end_period. destruct HE as [(H1 & ->)|[(H1 & i & H2 & ->)|(H1 & H2 & ->)]].
    - right. split; auto.
    - left. split; auto. assert (s <= i).
      { destruct HSP as [[_ ->]|[_ X]]; [destruct H2; lia|]. eapply start_before_end; [exact V|exact Vs|exact Ve|exact Hle|exact X|exact H2]. }
      replace (i - s =? -1) with false by lia. replace (s + (i - s)) with i by lia. auto.
    - right. split; auto. }
  set (e := if k =? -1 then s + n else s + k) in *.
  assert (Hst : s <= ix <-> ac_start a = dt_min \/ dt_ltb (ac_start a) d = true).
  { destruct HSP as [[E0 ->]|[E0 X]]; [split; [auto|lia]|].
    rewrite (after_start_iff c _ n s ix d V Vs X) by (auto; lia). tauto. }
  assert (Hsu : forall s', start_period c a n s' -> s' = s).
  { intros s' [[A ->]|[A X]]; destruct HSP as [[B ->]|[B Y]]; try congruence. eapply first_period_unique; eauto. }
  assert (Heu : forall e', end_period c a n s e' -> e' = e).
  { intros e' [[A X]|[A ->]]; destruct HEP as [[B Y]|[B Y]]; auto.
    - eapply first_period_unique; eauto.
    - destruct B; [congruence|]. exfalso. apply H. exists e'. auto.
    - destruct A; [congruence|]. exfalso. apply H. exists e. auto. }
  assert (Hcb : criteria_base (with_kind (with_ixs a s e k) (prepare_kind (ac_kind a))) ix = true <->
                (ix + 1) mod ac_interval a = 0 /\ s <= ix /\ ix + ac_interval a <= e).
  { unfold criteria_base. cbn [with_kind with_ixs ac_interval ac_start_ix ac_end_ix].
    replace (ac_interval a =? 0) with false by lia. cbn [negb andb].
    destruct ((ix + 1) mod ac_interval a =? 0) eqn:E; cbn [negb].
    - rewrite andb_true_iff. lia.
    - split; [discriminate|lia]. }
  rewrite andb_true_iff, Hcb, Hst. split.
  - split.
    + intros ((A & B & D) & G). repeat split; auto. exists s, e. auto.
    + intros (G & A & B & (s' & e' & S1 & E1 & D)). apply Hsu in S1. subst s'. apply Heu in E1. subst e'. auto.
  - intros ((_ & _ & D) & _).
    destruct HE as [(H1 & _)|[(H1 & i & H2 & E2)|(H1 & H2 & _)]]; auto.
    + right. assert (e = i).
      { symmetry. apply Heu. left. auto. }
      subst i. destruct H2 as (_ & _ & H2). destruct (H2 ix) as (x & X1 & X2); [lia|]. rewrite Ed in X1. inversion X1; subst x.
      unfold dt_ltb, dt_leb in *. rewrite (dt_cmp_flip d). destruct (dt_cmp (ac_end a) d); cbn; congruence.
    + right. apply not_true_is_false in H2 || idtac. destruct (dt_leb d (ac_end a)) eqn:E; auto. exfalso. apply H2.
      clear - V Ve Hix Ed E Hp F H1. 
      destruct (first_after c (ac_end a) 0 (Z.to_nat n)) as [[i|]|] eqn:Ef.
      * exists i. apply first_after_spec; auto.
      * destruct (first_after_none _ _ _ _ Ef ix) as (x & X1 & X2); [lia|]. rewrite Ed in X1. inversion X1; subst x.
        unfold dt_ltb, dt_leb in *. rewrite (dt_cmp_flip d) in E. destruct (dt_cmp (ac_end a) d); cbn in *; congruence.
      * exfalso. unfold prepare_activity, prepare_base in Hp. destruct F as (F1 & F2 & F3). rewrite F1, F3 in Hp.
        destruct (if _ && negb (dt_eqb (ac_start a) dt_min) then _ else _) as [f|]; cbn [bind] in Hp; [|discriminate].
        replace (dt_eqb (ac_end a) dt_max) with false in Hp.
        2: { symmetry. apply not_true_is_false. intros X. apply dt_eqb_eq in X. auto. }
        cbn [negb andb Z.eqb Pos.eqb] in Hp. rewrite Ef in Hp. discriminate.
Qed.

(** an activity whose start lies beyond the horizon runs from period 0 on *)
Theorem late_activity_runs c n a b ix :
  fresh a -> ac_start a <> dt_min -> ~ some_period_after c (ac_start a) n -> ~ some_period_after c (ac_end a) n ->
  ac_interval a = 1 -> active a = true -> prepare_activity c n a = Ok b -> 0 <= ix < n -> criteria b ix = true.
Proof.
  intros F Hm Hs He HI Ha Hp Hix. destruct (prepare_fresh _ _ _ _ F Hp) as (s & k & -> & HS & HE).
  rewrite criteria_split, active_prepare, Ha, andb_true_r.
  assert (s = 0). { destruct HS as [[? ?]|[[_ X]|(_ & _ & ?)]]; auto. exfalso; apply Hs; exists s; auto. }
  assert (k = -1). { destruct HE as [[? ?]|[(_ & i & X & _)|(_ & _ & ?)]]; auto. exfalso; apply He; exists i; auto. }
  subst s k. unfold criteria_base. cbn [with_kind with_ixs ac_interval ac_start_ix ac_end_ix]. rewrite HI.
  cbn [Z.eqb negb Pos.eqb andb]. rewrite Z.mod_1_r. cbn. lia.
Qed.

(** ** Effects of running *)
Definition act_posts (c : clock) (a : activity) : list tx :=
  if criteria a (ck_ix c) then
    match get_datetime c with
    | Err _ => []
    | Ok now =>
        match ac_kind a with
        | KBasic dt cr v => [basic_tx a now dt cr v]
        | KLoan l =>
            if ln_months l =? 0 then [loan_tx a now "Make a loan" (ln_bank l) (ln_loan l) (ln_amount l)]
            else [loan_tx a now "Consider interest" (ln_interest l) (ln_loan l) (ln_left l * ln_rate l / twelve)%Qc;
                  loan_tx a now "Pay principle" (ln_loan l) (ln_bank l) (ln_payment l)]
        end
    end
  else [].
Definition act_next (c : clock) (a : activity) : activity :=
  if criteria a (ck_ix c) then
    match ac_kind a with
    | KBasic _ _ _ => a
    | KLoan n =>
        with_kind a (KLoan (mkloan (ln_bank n) (ln_loan n) (ln_interest n) (ln_amount n) (ln_rate n) (ln_mrate n)
          (ln_payment n) (ln_duration n) (ln_months n + ac_interval a)
          (if ln_months n =? 0 then ln_left n else ln_left n + (ln_left n * ln_rate n / twelve - ln_payment n))%Qc))
    end
  else a.

Lemma run_activity_ok c l a l' a' : run_activity c l a = Ok (l', a') ->
  l_txs l' = (l_txs l ++ act_posts c a)%list /\ l_structure l' = l_structure l /\ a' = act_next c a.
Proof.
  unfold run_activity, act_posts, act_next. destruct (criteria a (ck_ix c)); cbn [negb].
  - destruct (get_datetime c) as [now|]; cbn [bind]; [|discriminate].
    destruct (ac_kind a) as [dt cr v|n].
    + intros H; inversion H; subst. auto.
    + destruct (ln_months n =? 0); intros H; inversion H; subst; cbn; auto.
      rewrite <- app_assoc. auto.
  - intros H; inversion H; subst. rewrite app_nil_r. auto.
Qed.

Lemma run_activity_now c l a d : get_datetime c = Ok d -> exists r, run_activity c l a = Ok r.
Proof.
  intros E. unfold run_activity. destruct (negb _); [eauto|]. rewrite E. cbn [bind].
  destruct (ac_kind a); [eauto|]. destruct (_ =? 0); eauto.
Qed.

Lemma comp_ind' (P : comp -> Prop) :
  (forall n pp p ss aa, Forall P ss -> P (Comp n pp p ss aa)) -> forall k, P k.
Proof.
  intros H. fix IH 1. intros [n pp p ss aa]. apply H. induction ss as [|x ss IHs]; constructor; auto.
Qed.

Fixpoint comp_next (c : clock) (k : comp) : comp :=
  let 'Comp n pp p ss aa := k in Comp n pp p (map (comp_next c) ss) (map (act_next c) aa).

Lemma traverse_acts c aa : forall l l' aa', traverse (run_activity c) aa l = Ok (l', aa') ->
  l_txs l' = (l_txs l ++ flat_map (act_posts c) aa)%list /\ l_structure l' = l_structure l /\ aa' = map (act_next c) aa.
Proof.
  induction aa as [|a aa IH]; intros l l' aa'; cbn [traverse].
  - intros H; inversion H; subst. cbn. rewrite app_nil_r. auto.
  - destruct (run_activity c l a) as [[l1 a1]|] eqn:E1; cbn [bind]; [|discriminate].
    cbn [fst snd]. destruct (traverse (run_activity c) aa l1) as [[l2 aa2]|] eqn:E2; cbn [bind]; [|discriminate].
    intros H; inversion H; subst. apply run_activity_ok in E1 as (A & B & ->). apply IH in E2 as (C & D & ->).
    cbn. rewrite C, A, D, B, <- app_assoc. auto.
Qed.

Lemma run_comp_ok c k : forall l l' k', run_comp c l k = Ok (l', k') ->
  l_txs l' = (l_txs l ++ flat_map (act_posts c) (acts_of k))%list /\ l_structure l' = l_structure l /\ k' = comp_next c k.
Proof.
  induction k as [n pp p ss aa IH] using comp_ind'. intros l l' k'. cbn [run_comp].
  assert (G : forall l l' ss', traverse (fun l s => run_comp c l s) ss l = Ok (l', ss') ->
    l_txs l' = (l_txs l ++ flat_map (act_posts c) (flat_map acts_of ss))%list /\ l_structure l' = l_structure l /\ ss' = map (comp_next c) ss).
  { clear l l' k' aa. induction ss as [|s ss IHs]; intros l l' ss'; cbn [traverse].
    - intros H; inversion H; subst. cbn. rewrite app_nil_r. auto.
    - inversion IH as [|? ? IH1 IH2]; subst.
      destruct (run_comp c l s) as [[l1 s1]|] eqn:E1; cbn [bind]; [|discriminate]. cbn [fst snd].
      destruct (traverse _ ss l1) as [[l2 ss2]|] eqn:E2; cbn [bind]; [|discriminate].
      intros H; inversion H; subst. apply IH1 in E1 as (A & B & ->). apply IHs in E2 as (C & D & ->); auto.
      cbn. rewrite flat_map_app, C, A, D, B, <- app_assoc. auto. }
  destruct (traverse (fun l s => run_comp c l s) ss l) as [[l1 ss1]|] eqn:E1; cbn [bind]; [|discriminate]. cbn [fst snd].
  destruct (traverse (run_activity c) aa l1) as [[l2 aa2]|] eqn:E2; cbn [bind]; [|discriminate].
  intros H; inversion H; subst. apply G in E1 as (A & B & ->). apply traverse_acts in E2 as (C & D & ->).
  cbn [acts_of comp_next]. rewrite flat_map_app, C, A, D, B, <- app_assoc. auto.
Qed.

Lemma acts_comp_next c k : acts_of (comp_next c k) = map (act_next c) (acts_of k).
Proof.
  induction k as [n pp p ss aa IH] using comp_ind'. cbn [comp_next acts_of]. rewrite map_app. f_equal.
  induction ss as [|s ss IHs]; cbn; auto. inversion IH; subst. rewrite map_app, H1, IHs; auto.
Qed.

Lemma run_comps_ok c ks : forall l l' ks', traverse (run_comp c) ks l = Ok (l', ks') ->
  l_txs l' = (l_txs l ++ flat_map (act_posts c) (flat_map acts_of ks))%list /\ l_structure l' = l_structure l /\
  ks' = map (comp_next c) ks.
Proof.
  induction ks as [|k ks IH]; intros l l' ks'; cbn [traverse].
  - intros H; inversion H; subst. cbn. rewrite app_nil_r. auto.
  - destruct (run_comp c l k) as [[l1 k1]|] eqn:E1; cbn [bind]; [|discriminate]. cbn [fst snd].
    destruct (traverse _ ks l1) as [[l2 ks2]|] eqn:E2; cbn [bind]; [|discriminate].
    intros H; inversion H; subst. apply run_comp_ok in E1 as (A & B & ->). apply IH in E2 as (C & D & ->).
    cbn. rewrite flat_map_app, C, A, D, B, <- app_assoc. auto.
Qed.

Lemma acts_comps_next c ks : flat_map acts_of (map (comp_next c) ks) = map (act_next c) (flat_map acts_of ks).
Proof. induction ks as [|k ks IH]; cbn; auto. rewrite map_app, acts_comp_next, IH. reflexivity. Qed.

(** closing entries are flagged, activity entries are not *)
Lemma operating_app a b : operating (a ++ b) = (operating a ++ operating b)%list.
Proof. unfold operating. apply filter_app. Qed.

Definition all_closing (l : list tx) : Prop := forall t, In t l -> tx_closing_cr t = true.
Lemma operating_closing l : all_closing l -> operating l = [].
Proof.
  unfold operating, all_closing. induction l as [|t l IH]; cbn; auto. intros H. rewrite (H t) by auto. cbn. apply IH. auto.
Qed.
Lemma operating_posts c a : operating (act_posts c a) = act_posts c a.
Proof.
  unfold act_posts. destruct (criteria _ _); auto. destruct (get_datetime c); auto. destruct (ac_kind a); auto.
  destruct (_ =? 0); reflexivity.
Qed.
Lemma operating_all_posts c aa : operating (flat_map (act_posts c) aa) = flat_map (act_posts c) aa.
Proof. induction aa as [|a aa IH]; cbn; auto. rewrite operating_app, operating_posts, IH. reflexivity. Qed.

Lemma in_flat_closing {A} (f : A -> list tx) l : (forall x, all_closing (f x)) -> all_closing (flat_map f l).
Proof. intros H t Ht. apply in_flat_map in Ht as (x & _ & Hx). eapply H; eauto. Qed.

Lemma close_year_closing g path txs ys ye cl : close_year g path txs ys ye = Ok cl -> all_closing cl.
Proof.
  unfold close_year. destruct (deref g id_sales), (deref g id_cos), (deref g id_gross_profit) as [gp|],
    (deref g id_inc_sum) as [is_|], (deref g id_ret_earnings) as [re|]; try discriminate.
  destruct (foldM _ txs []) as [year|]; cbn [bind]; [|discriminate].
  destruct (foldM _ year _) as [w|]; cbn [bind]; [|discriminate].
  intros H; inversion H; subst cl. intros t Ht. rewrite !in_app_iff in Ht.
  destruct Ht as [Ht|[Ht|[Ht|Ht]]].
  - eapply in_flat_closing; [|exact Ht]. intros [x v] t' Ht'. destruct (qpos v), (qneg v); cbn in Ht'; intuition; subst; reflexivity.
  - eapply in_flat_closing; [|exact Ht]. intros [x v] t' Ht'. destruct (qpos v), (qneg v); cbn in Ht'; intuition; subst; reflexivity.
  - unfold ye_settle_gross in Ht. repeat match type of Ht with context [if ?b then _ else _] => destruct b end; cbn in Ht; intuition; subst; reflexivity.
  - unfold ye_retained in Ht. repeat match type of Ht with context [if ?b then _ else _] => destruct b end; cbn in Ht; intuition; subst; reflexivity.
Qed.

Lemma year_end_ok c e e' : year_end c e = Ok e' ->
  en_name e' = en_name e /\ en_ppath e' = en_ppath e /\ en_path e' = en_path e /\ en_comps e' = en_comps e /\
  en_count e' = en_count e /\ en_exec e' = en_exec e /\ l_structure (en_gl e') = l_structure (en_gl e) /\
  exists cl, all_closing cl /\ l_txs (en_gl e') = (l_txs (en_gl e) ++ cl)%list.
Proof.
  unfold year_end. destruct (get_datetime c) as [now|]; cbn [bind]; [|discriminate].
  destruct (_ || _).
  - destruct (add_us _ _) as [ye|]; cbn [bind]; [|discriminate].
    destruct (add_years _ _) as [nx|]; cbn [bind]; [|discriminate].
    destruct (close_year _ _ _ _ _) as [cl|] eqn:E; cbn [bind]; [|discriminate].
    intros H; inversion H; subst; cbn. repeat split; auto. exists cl. split; auto. eapply close_year_closing; eauto.
  - intros H; inversion H; subst. repeat split; auto. exists []. rewrite app_nil_r. split; auto. intros t [].
Qed.

Lemma run_entity_ok c e e' : ck_ix c < en_count e -> run_entity c e = Ok e' ->
  en_name e' = en_name e /\ en_ppath e' = en_ppath e /\ en_path e' = en_path e /\
  en_comps e' = map (comp_next c) (en_comps e) /\ en_count e' = en_count e /\ en_exec e' = en_exec e /\
  l_structure (en_gl e') = l_structure (en_gl e) /\
  (exists cl, all_closing cl /\ l_txs (en_gl e') = (l_txs (en_gl e) ++ flat_map (act_posts c) (entity_acts e) ++ cl)%list).
Proof.
  intros Hi. unfold run_entity. replace (en_count e <=? ck_ix c) with false by lia.
  destruct (traverse (run_comp c) (en_comps e) (en_gl e)) as [[l ks]|] eqn:E; cbn [bind]; [|discriminate]. cbn [fst snd].
  intros H. apply year_end_ok in H. cbn in H. destruct H as (A1 & A2 & A3 & A4 & A5 & A6 & A7 & cl & A8 & A9).
  apply run_comps_ok in E as (B1 & B2 & B3). repeat split; auto; try congruence.
  exists cl. split; auto. rewrite A9, B1, <- app_assoc. reflexivity.
Qed.

Lemma entity_acts_next c e e' : en_comps e' = map (comp_next c) (en_comps e) -> entity_acts e' = map (act_next c) (entity_acts e).
Proof. intros E. unfold entity_acts. rewrite E. apply acts_comps_next. Qed.

(** the state of an activity before period i when it is run from period 0 *)
Fixpoint act_state (c : clock) (a : activity) (i : nat) : activity :=
  match i with O => a | S j => act_next (clock_at c (Z.of_nat j)) (act_state c a j) end.
Definition act_posts_at (c : clock) (a : activity) (i : nat) : list tx :=
  act_posts (clock_at c (Z.of_nat i)) (act_state c a i).

Lemma seq_snoc i n : seq i (S n) = (seq i n ++ [(i + n)%nat])%list.
Proof. revert i. induction n as [|n IH]; intros i; [cbn; rewrite Nat.add_0_r; reflexivity|]. cbn [seq] in *. rewrite IH. cbn. rewrite Nat.add_succ_r. reflexivity. Qed.

(** one entity followed through the periods; [i] periods have been run *)
Inductive entity_after (c : clock) (e0 : entity) : nat -> entity -> Prop :=
| after_0 : entity_after c e0 0 e0
| after_S i e e' : entity_after c e0 i e -> run_entity (clock_at c (Z.of_nat i)) e = Ok e' -> entity_after c e0 (S i) e'.

Definition entity_inv (c : clock) (e0 : entity) (i : nat) (e : entity) : Prop :=
  en_name e = en_name e0 /\ en_ppath e = en_ppath e0 /\ en_path e = en_path e0 /\ en_count e = en_count e0 /\
  en_exec e = en_exec e0 /\ l_structure (en_gl e) = l_structure (en_gl e0) /\
  entity_acts e = map (fun a => act_state c a i) (entity_acts e0) /\
  operating (l_txs (en_gl e)) =
    (operating (l_txs (en_gl e0)) ++ flat_map (fun j => flat_map (fun a => act_posts_at c a j) (entity_acts e0)) (seq 0 i))%list.

Lemma flat_map_map {A B C} (f : B -> list C) (h : A -> B) l : flat_map f (map h l) = flat_map (fun x => f (h x)) l.
Proof. induction l as [|x l IH]; cbn; auto. rewrite IH. reflexivity. Qed.

Lemma entity_after_inv c e0 i e : entity_after c e0 i e -> Z.of_nat i <= en_count e0 -> entity_inv c e0 i e.
Proof.
  induction 1 as [|i e e' H IH Hr]; intros Hi.
  - unfold entity_inv. cbn. rewrite app_nil_r, map_id. auto 10.
  - assert (Hi' : Z.of_nat i <= en_count e0) by lia. specialize (IH Hi').
    destruct IH as (A1 & A2 & A3 & A4 & A5 & A6 & A7 & A8).
    apply run_entity_ok in Hr; [|cbn; lia].
    destruct Hr as (B1 & B2 & B3 & B4 & B5 & B6 & B7 & cl & B8 & B9).
    unfold entity_inv. repeat split; try congruence.
    + rewrite (entity_acts_next _ _ _ B4), A7, map_map. reflexivity.
    + rewrite B9, !operating_app, operating_all_posts, (operating_closing _ B8), app_nil_r, A8, <- app_assoc.
      rewrite seq_snoc, flat_map_app. cbn [flat_map]. rewrite app_nil_r. cbn [Nat.add]. do 2 f_equal.
      rewrite A7, flat_map_map. reflexivity.
Qed.

Lemma mapM_forall2 {A B} (f : A -> res B) l l' : mapM f l = Ok l' <-> Forall2 (fun a b => f a = Ok b) l l'.
Proof.
  revert l'. induction l as [|a l IH]; intros l'; cbn.
  - split; [intros H; inversion H; constructor|intros H; inversion H; reflexivity].
  - destruct (f a) as [b|] eqn:E; cbn [bind].
    + destruct (mapM f l) as [bs|] eqn:E2; cbn [bind].
      * split.
        -- intros H; inversion H; subst. constructor; auto. apply IH; auto.
        -- intros H; inversion H; subst. apply IH in H4. congruence.
      * split; [discriminate|]. intros H; inversion H; subst. apply IH in H4. discriminate.
    + split; [discriminate|]. intros H; inversion H; subst. congruence.
Qed.

Lemma clock_tick_at c i : tick (clock_at c i) = clock_at c (i + 1).
Proof. reflexivity. Qed.

Lemma run_periods_after c n count name : forall i es0 es m',
  Forall2 (fun e0 e => entity_after c e0 i e) es0 es ->
  run_periods n (mktbm name (clock_at c (Z.of_nat i)) count es) = Ok m' ->
  md_name m' = name /\ md_count m' = count /\ md_clock m' = clock_at c (Z.of_nat (i + n)) /\
  Forall2 (fun e0 e => entity_after c e0 (i + n) e) es0 (md_ents m').
Proof.
  induction n as [|n IH]; intros i es0 es m' F; cbn [run_periods].
  - intros H; inversion H; subst. rewrite Nat.add_0_r. auto.
  - cbn [md_clock md_ents md_name md_count]. destruct (mapM _ es) as [es'|] eqn:E; cbn [bind]; [|discriminate].
    apply mapM_forall2 in E. rewrite clock_tick_at. replace (Z.of_nat i + 1) with (Z.of_nat (S i)) by lia.
    intros H. apply (IH (S i) es0) in H.
    + replace (i + S n)%nat with (S i + n)%nat by lia. exact H.
    + clear - F E. revert es' E. induction F as [|x y es0 es Hxy F IHF]; intros es' E; inversion E; subst; constructor.
      * econstructor; eauto.
      * apply IHF; auto.
Qed.

Theorem run_model_ok m m' : run_model m = Ok m' ->
  let c := reset (md_clock m) in
  md_name m' = md_name m /\ md_count m' = md_count m /\ md_clock m' = clock_at c (Z.of_nat (Z.to_nat (md_count m))) /\
  exists es, Forall2 (fun e p => prepare_entity c (md_count m) e = Ok p) (md_ents m) es /\
             Forall2 (fun p e' => entity_after c p (Z.to_nat (md_count m)) e') es (md_ents m').
Proof.
  intros H c. unfold run_model, prepare_model in H. fold c in H.
  destruct (mapM (prepare_entity c (md_count m)) (md_ents m)) as [es|] eqn:E; cbn [bind] in H; [|discriminate].
  replace c with (clock_at c (Z.of_nat 0)) in H at 1 by reflexivity.
  apply (run_periods_after c _ _ _ 0 es) in H; [|clear; induction es; constructor; auto; constructor].
  destruct H as (A1 & A2 & A3 & A4). repeat split; auto.
  exists es. split; [apply mapM_forall2; auto|exact A4].
Qed.

Lemma prepare_entity_ok c n e p : prepare_entity c n e = Ok p ->
  en_name p = en_name e /\ en_ppath p = en_ppath e /\ en_path p = en_path e /\ en_count p = n /\
  l_txs (en_gl p) = [] /\ l_structure (en_gl p) = l_structure (en_gl e) /\
  mapM (prepare_comp c n) (en_comps e) = Ok (en_comps p) /\ en_prev p = ck_start c /\
  add_years (ck_start c) 1 = Ok (en_curr p) /\ datetime_at c n = Ok (en_exec p).
Proof.
  unfold prepare_entity. destruct (datetime_at c n); cbn [bind]; [|discriminate].
  destruct (add_years _ _); cbn [bind]; [|discriminate]. destruct (mapM _ _); cbn [bind]; [|discriminate].
  intros H; inversion H; subst; cbn. auto 20.
Qed.

Lemma prepare_comp_acts c n k k' : prepare_comp c n k = Ok k' -> mapM (prepare_activity c n) (acts_of k) = Ok (acts_of k').
Proof.
  revert k'. induction k as [nm pp p ss aa IH] using comp_ind'. intros k'. cbn [prepare_comp].
  destruct (mapM (prepare_comp c n) ss) as [ss'|] eqn:E1; cbn [bind]; [|discriminate].
  destruct (mapM (prepare_activity c n) aa) as [aa'|] eqn:E2; cbn [bind]; [|discriminate].
  intros H; inversion H; subst k'; cbn [acts_of]. apply mapM_forall2. apply Forall2_app; [|apply mapM_forall2; auto].
  apply mapM_forall2 in E1. clear - IH E1. induction E1 as [|x y l l' Hx H1 IH1]; cbn; [constructor|].
  inversion IH; subst. apply Forall2_app; auto. apply mapM_forall2; auto.
Qed.

Lemma prepare_comps_acts c n ks ks' : mapM (prepare_comp c n) ks = Ok ks' ->
  mapM (prepare_activity c n) (flat_map acts_of ks) = Ok (flat_map acts_of ks').
Proof.
  intros E. apply mapM_forall2 in E. apply mapM_forall2. induction E as [|x y l l' Hx H1 IH1]; cbn; [constructor|].
  apply Forall2_app; auto. apply mapM_forall2, prepare_comp_acts; auto.
Qed.

(** C19, general form: the operating transactions of a complete run *)
Theorem run_postings m m' : 0 <= md_count m -> run_model m = Ok m' ->
  let c := reset (md_clock m) in
  Forall2 (fun e e' => exists acts,
      mapM (prepare_activity c (md_count m)) (entity_acts e) = Ok acts /\
      operating (l_txs (en_gl e')) =
        flat_map (fun i => flat_map (fun a => act_posts_at c a i) acts) (seq 0 (Z.to_nat (md_count m))))
    (md_ents m) (md_ents m').
Proof.
  intros Hn H c. destruct (run_model_ok _ _ H) as (_ & _ & _ & es & F1 & F2). fold c in F1, F2.
  revert F2. generalize (md_ents m'). induction F1 as [|e p l l' Hp F1 IH]; intros es' F2; inversion F2; subst; constructor; auto.
  apply prepare_entity_ok in Hp. destruct Hp as (_ & _ & _ & P4 & P5 & _ & P7 & _).
  exists (entity_acts p). split; [apply prepare_comps_acts; auto|].
  apply entity_after_inv in H2; [|rewrite P4; lia]. destruct H2 as (_ & _ & _ & _ & _ & _ & _ & A8).
  rewrite A8, P5. reflexivity.
Qed.

Lemma act_state_basic c a dt cr v i : ac_kind a = KBasic dt cr v -> act_state c a i = a.
Proof. intros E. induction i as [|i IH]; cbn; auto. rewrite IH. unfold act_next. rewrite E. destruct (criteria _ _); auto. Qed.

Lemma act_posts_basic c a dt cr v i : ac_kind a = KBasic dt cr v ->
  act_posts_at c a i =
  if criteria a (Z.of_nat i) then match datetime_at c (Z.of_nat i) with Ok d => [basic_tx a d dt cr v] | Err _ => [] end else [].
Proof.
  intros E. unfold act_posts_at. rewrite (act_state_basic _ _ _ _ _ _ E). unfold act_posts. cbn [clock_at ck_ix].
  destruct (criteria _ _); auto. rewrite E. unfold get_datetime. cbn [ck_ix clock_at].
  replace (datetime_at (mkclock (ck_start c) (ck_period c) (Z.of_nat i)) (Z.of_nat i)) with (datetime_at c (Z.of_nat i)) by reflexivity.
  reflexivity.
Qed.

Lemma prepare_keeps c n a b : prepare_activity c n a = Ok b ->
  ac_name b = ac_name a /\ ac_desc b = ac_desc a /\ ac_path b = ac_path a /\ ac_interval b = ac_interval a /\
  ac_kind b = prepare_kind (ac_kind a) /\ active b = active a.
Proof.
  unfold prepare_activity, prepare_base.
  match goal with |- context [if ?b then first_after c (ac_start a) ?i ?n else Ok None] => destruct (if b then first_after c (ac_start a) i n else Ok None) as [f|] end; cbn [bind]; [|discriminate].
  match goal with |- context [if ?b then first_after c (ac_end a) ?i ?n else Ok None] => destruct (if b then first_after c (ac_end a) i n else Ok None) as [f'|] end; cbn [bind]; [|discriminate].
  intros H; inversion H; subst b; cbn. repeat split. unfold active; cbn. destruct (ac_kind a); reflexivity.
Qed.

(** ** Running again *)
Definition act_erase (a : activity) : activity := with_kind a (prepare_kind (ac_kind a)).
Fixpoint comp_erase (k : comp) : comp :=
  let 'Comp n pp p ss aa := k in Comp n pp p (map comp_erase ss) (map act_erase aa).

Lemma act_erase_next c a : act_erase (act_next c a) = act_erase a.
Proof. unfold act_erase, act_next. destruct (criteria _ _); auto. destruct (ac_kind a) eqn:E; [rewrite E|]; reflexivity. Qed.
Lemma comp_erase_next c k : comp_erase (comp_next c k) = comp_erase k.
Proof.
  induction k as [n pp p ss aa IH] using comp_ind'. cbn. rewrite !map_map. f_equal.
  - induction IH; cbn; congruence.
  - apply map_ext. intros; apply act_erase_next.
Qed.
Lemma prepare_act_erase c n a : prepare_activity c n (act_erase a) = prepare_activity c n a.
Proof.
  unfold prepare_activity, prepare_base, act_erase, with_kind, with_ixs. cbn.
  match goal with |- context [if ?b then first_after c (ac_start a) ?i ?n else Ok None] => destruct (if b then first_after c (ac_start a) i n else Ok None) as [f|] end; cbn [bind]; auto.
  match goal with |- context [if ?b then first_after c (ac_end a) ?i ?n else Ok None] => destruct (if b then first_after c (ac_end a) i n else Ok None) as [f'|] end; cbn [bind]; auto.
  destruct (ac_kind a); reflexivity.
Qed.
Lemma prepare_comp_erase c n k : prepare_comp c n (comp_erase k) = prepare_comp c n k.
Proof.
  induction k as [nm pp p ss aa IH] using comp_ind'. cbn.
  assert (E1 : mapM (prepare_comp c n) (map comp_erase ss) = mapM (prepare_comp c n) ss).
  { induction IH as [|x l Hx Hl IHl]; cbn; auto. rewrite Hx, IHl. reflexivity. }
  assert (E2 : mapM (prepare_activity c n) (map act_erase aa) = mapM (prepare_activity c n) aa).
  { clear. induction aa as [|a aa IH]; cbn; auto. rewrite prepare_act_erase, IH. reflexivity. }
  rewrite E1, E2. reflexivity.
Qed.

Lemma first_after_minus1 c t n : first_after c t 0 n <> Ok (Some (-1)).
Proof. intros H. apply first_after_some in H. lia. Qed.

Lemma prepare_act_idem c n a b : prepare_activity c n a = Ok b -> prepare_activity c n b = Ok b.
Proof.
  unfold prepare_activity at 1, prepare_base.
  destruct (if (ac_start_ix a =? -1) && negb (dt_eqb (ac_start a) dt_min) then first_after c (ac_start a) 0 (Z.to_nat n) else Ok None) as [f|] eqn:Ef; cbn [bind]; [|discriminate].
  destruct (if (ac_count a =? -1) && negb (dt_eqb (ac_end a) dt_max) then first_after c (ac_end a) 0 (Z.to_nat n) else Ok None) as [g|] eqn:Eg; cbn [bind]; [|discriminate].
  set (s0 := match f with Some i => i | None => ac_start_ix a end).
  set (s := if s0 =? -1 then 0 else s0).
  set (k := match g with Some i => i - s | None => ac_count a end).
  intros H; inversion H; subst b; clear H.
  unfold prepare_activity, prepare_base. cbn [ac_start_ix ac_start ac_end ac_count with_kind with_ixs ac_kind ac_name ac_desc ac_ppath ac_path ac_interval ac_end_ix].
  assert (Hs : s =? -1 = false).
  { unfold s. destruct (s0 =? -1) eqn:E; lia. }
  rewrite Hs. cbn [andb bind]. rewrite Hs.
  assert (HG : (if (k =? -1) && negb (dt_eqb (ac_end a) dt_max) then first_after c (ac_end a) 0 (Z.to_nat n) else Ok None) =
          if k =? -1 then Ok g else Ok None).
  { destruct (k =? -1) eqn:Ek; auto. destruct (ac_count a =? -1) eqn:Ec; cbn [andb] in Eg |- *; auto.
    destruct g as [i|]; [discriminate|]. unfold k in Ek. lia. }
  rewrite HG. assert (E' : exists g', (if k =? -1 then Ok g else Ok None) = Ok g' /\ match g' with Some i => i - s | None => k end = k).
  { destruct (k =? -1) eqn:Ek; eexists; split; try reflexivity. destruct g as [i|]; auto. }
  destruct E' as (g' & -> & Hg'). cbn [bind]. rewrite Hg'.
  destruct (ac_kind a); reflexivity.
Qed.

Lemma prepare_comp_idem c n k k' : prepare_comp c n k = Ok k' -> prepare_comp c n k' = Ok k'.
Proof.
  revert k'. induction k as [nm pp p ss aa IH] using comp_ind'. intros k'. cbn [prepare_comp].
  destruct (mapM (prepare_comp c n) ss) as [ss'|] eqn:E1; cbn [bind]; [|discriminate].
  destruct (mapM (prepare_activity c n) aa) as [aa'|] eqn:E2; cbn [bind]; [|discriminate].
  intros H; inversion H; subst k'. cbn [prepare_comp].
  assert (mapM (prepare_comp c n) ss' = Ok ss').
  { apply mapM_forall2 in E1. apply mapM_forall2. clear - IH E1. induction E1; constructor; inversion IH; subst; auto. }
  assert (mapM (prepare_activity c n) aa' = Ok aa').
  { apply mapM_forall2 in E2. apply mapM_forall2. clear - E2. induction E2; constructor; auto. eapply prepare_act_idem; eauto. }
  rewrite H0, H1. reflexivity.
Qed.

Definition ent_config (e : entity) := (en_name e, en_ppath e, en_path e, l_structure (en_gl e), map comp_erase (en_comps e)).

Lemma prepare_entity_config c n e e' : ent_config e = ent_config e' -> prepare_entity c n e = prepare_entity c n e'.
Proof.
  unfold ent_config. intros H; inversion H as [[H1 H2 H3 H4 H5]]. unfold prepare_entity. rewrite H1, H2, H3, H4.
  assert (E : mapM (prepare_comp c n) (en_comps e) = mapM (prepare_comp c n) (en_comps e')).
  { assert (G : forall l, mapM (prepare_comp c n) (map comp_erase l) = mapM (prepare_comp c n) l).
    { induction l as [|x l IH]; cbn; auto. rewrite prepare_comp_erase, IH. reflexivity. }
    rewrite <- (G (en_comps e)), <- (G (en_comps e')), H5. reflexivity. }
  rewrite E. reflexivity.
Qed.

Lemma run_entity_config c e e' : run_entity c e = Ok e' -> ent_config e' = ent_config e.
Proof.
  intros H. destruct (Z.lt_ge_cases (ck_ix c) (en_count e)) as [Hi|Hi].
  - apply run_entity_ok in H; auto. destruct H as (B1 & B2 & B3 & B4 & B5 & B6 & B7 & _).
    unfold ent_config. rewrite B1, B2, B3, B4, B7, map_map. f_equal. apply map_ext. intros; apply comp_erase_next.
  - unfold run_entity in H. replace (en_count e <=? ck_ix c) with true in H by lia. congruence.
Qed.

Lemma entity_after_config c e0 i e : entity_after c e0 i e -> ent_config e = ent_config e0.
Proof. induction 1 as [|i e e' H IH Hr]; auto. rewrite (run_entity_config _ _ _ Hr). auto. Qed.

Lemma prepare_entity_idem c n e p : prepare_entity c n e = Ok p -> prepare_entity c n p = Ok p.
Proof.
  unfold prepare_entity at 1. destruct (datetime_at c n) as [ex|] eqn:E1; cbn [bind]; [|discriminate].
  destruct (add_years (ck_start c) 1) as [cu|] eqn:E2; cbn [bind]; [|discriminate].
  destruct (mapM (prepare_comp c n) (en_comps e)) as [cs|] eqn:E3; cbn [bind]; [|discriminate].
  intros H; inversion H; subst p. unfold prepare_entity. cbn [en_comps en_name en_ppath en_path en_gl l_structure].
  rewrite E1, E2. cbn [bind].
  assert (mapM (prepare_comp c n) cs = Ok cs).
  { apply mapM_forall2 in E3. apply mapM_forall2. clear - E3. induction E3; constructor; auto. eapply prepare_comp_idem; eauto. }
  rewrite H0. reflexivity.
Qed.

Theorem rerun m m' : run_model m = Ok m' -> run_model m' = Ok m'.
Proof.
  intros H. pose proof (run_model_ok _ _ H) as (A1 & A2 & A3 & es & F1 & F2).
  set (c := reset (md_clock m)) in *.
  assert (Hc : reset (md_clock m') = c) by (rewrite A3; reflexivity).
  assert (Hp : prepare_model m' = prepare_model m).
  { unfold prepare_model. rewrite Hc, A1, A2. fold c.
    assert (E : mapM (prepare_entity c (md_count m)) (md_ents m') = Ok es).
    { apply mapM_forall2. clear - F1 F2. revert F2. generalize (md_ents m').
      induction F1 as [|e p l l' Hp F1 IH]; intros es' F2; inversion F2; subst; constructor; auto.
      rewrite (prepare_entity_config _ _ _ _ (entity_after_config _ _ _ _ H1)). eapply prepare_entity_idem; eauto. }
    rewrite E. apply mapM_forall2 in F1. rewrite F1. reflexivity. }
  unfold run_model. rewrite Hp, A2. exact H.
Qed.

(** ** Component paths *)
Inductive comp_coh : string -> comp -> Prop :=
| CCoh pp n ss aa : 
    Forall (comp_coh (pp ++ "/" ++ n)) ss ->
    Forall (fun a => ac_ppath a = (pp ++ "/" ++ n) /\ ac_path a = ((pp ++ "/" ++ n) ++ "/" ++ ac_name a)) aa ->
    comp_coh pp (Comp n pp (pp ++ "/" ++ n) ss aa).

Lemma comp_coh_ind' (P : string -> comp -> Prop) :
  (forall pp n ss aa, Forall (comp_coh (pp ++ "/" ++ n)) ss -> Forall (P (pp ++ "/" ++ n)) ss ->
     Forall (fun a => ac_ppath a = (pp ++ "/" ++ n) /\ ac_path a = ((pp ++ "/" ++ n) ++ "/" ++ ac_name a)) aa ->
     P pp (Comp n pp (pp ++ "/" ++ n) ss aa)) ->
  forall pp k, comp_coh pp k -> P pp k.
Proof.
  intros H. fix IH 3. intros pp k Hk. destruct Hk as [pp n ss aa Hs Ha]. apply H; auto.
  induction Hs as [|x l Hx Hl IHl]; constructor; auto.
Qed.

Lemma comp_set_parent_coh v k : comp_coh v (comp_set_parent v k).
Proof.
  revert v. induction k as [n pp p ss aa IH] using comp_ind'. intros v. cbn. constructor.
  - induction IH; cbn; constructor; auto.
  - clear. induction aa; cbn; constructor; auto.
Qed.

Lemma comp_coh_pp v k : comp_coh v k -> c_path k = (v ++ "/" ++ c_name k)%string.
Proof. intros H; inversion H; subst; reflexivity. Qed.

Lemma comp_set_name_coh v n k : comp_coh v k -> comp_coh v (comp_set_name n k).
Proof.
  intros H; inversion H; subst. cbn. constructor.
  - apply Forall_forall. intros x Hx. apply in_map_iff in Hx as (y & <- & _). apply comp_set_parent_coh.
  - apply Forall_forall. intros x Hx. apply in_map_iff in Hx as (y & <- & _). cbn. auto.
Qed.

Lemma forall_remove_last {A} (P : A -> Prop) f l : Forall P l -> Forall P (remove_last f l).
Proof. induction 1 as [|x l Hx Hl IH]; cbn; [constructor|]. destruct (_ && _); [auto|constructor; auto]. Qed.
Lemma forall_upd_nth {A} (P : A -> Prop) f l i : (forall x, P x -> P (f x)) -> Forall P l -> Forall P (upd_nth i f l).
Proof. intros Hf H. revert i. induction H as [|x l Hx Hl IH]; intros [|i]; cbn; constructor; auto. Qed.

Lemma comp_step_coh g o v k : comp_coh v k -> comp_coh v (comp_step g o k).
Proof.
  intros H. destruct o; cbn [comp_step].
  - apply comp_set_name_coh; auto.
  - inversion H; subst. cbn. constructor; auto. apply Forall_app. split; auto. constructor; [|constructor].
    match goal with |- comp_coh ?v _ => apply (comp_set_parent_coh v (new_component n)) end.
  - inversion H; subst. cbn. constructor; auto. apply forall_remove_last; auto.
  - unfold add_activity. destruct (validate_account_names _ _); cbn [bind]; auto.
    inversion H; subst. cbn. constructor; auto. apply Forall_app. split; [assumption|]. constructor; [|constructor]. cbn. auto.
  - inversion H; subst. constructor; auto. apply forall_upd_nth; auto. intros x [A B]. cbn. rewrite A. auto.
Qed.

Lemma comp_at_coh g o addr : forall v k, comp_coh v k -> comp_coh v (comp_at addr (comp_step g o) k).
Proof.
  induction addr as [|i addr IH]; intros v k H; cbn [comp_at]; [apply comp_step_coh; auto|].
  inversion H; subst. constructor; auto. apply forall_upd_nth; auto.
Qed.

Definition ent_coh (e : entity) : Prop :=
  en_path e = (en_ppath e ++ "/" ++ en_name e)%string /\ Forall (comp_coh (en_path e)) (en_comps e).

Lemma ent_step_coh e o : ent_coh e -> ent_coh (ent_step e o).
Proof.
  intros [H1 H2]. destruct o; cbn [ent_step]; unfold ent_coh; cbn.
  - split; auto. apply Forall_forall. intros x Hx. apply in_map_iff in Hx as (y & <- & _). apply comp_set_parent_coh.
  - split; auto. apply Forall_forall. intros x Hx. apply in_map_iff in Hx as (y & <- & _). apply comp_set_parent_coh.
  - split; auto. apply Forall_app. split; auto. constructor; [|constructor]. apply (comp_set_parent_coh _ (new_component n)).
  - split; auto. apply forall_remove_last; auto.
  - split; auto. apply forall_upd_nth; auto. intros x Hx. apply comp_at_coh; auto.
Qed.

Lemma ent_built_coh name g ops : ent_coh (ent_built name g ops).
Proof.
  unfold ent_built. assert (H : ent_coh (new_entity name g)) by (split; [reflexivity|constructor]).
  revert H. generalize (new_entity name g). induction ops as [|o ops IH]; intros e He; cbn; auto.
  apply IH, ent_step_coh, He.
Qed.

Lemma comp_in_coh v l k : comp_in l k -> Forall (comp_coh v) l -> exists v', comp_coh v' k.
Proof.
  intros H. revert v. induction H as [l k H|l k d H _ IH]; intros v F; rewrite Forall_forall in F.
  - exists v. auto.
  - specialize (F k H). inversion F; subst. cbn in IH. eauto.
Qed.

Lemma append_assoc (a b c : string) : ((a ++ b) ++ c = a ++ (b ++ c))%string.
Proof. induction a; cbn; congruence. Qed.

Lemma starts_with_app a b : starts_with (a ++ b) a = true.
Proof. unfold starts_with. induction a as [|x a IH]; cbn; [destruct b; reflexivity|]. destruct (ascii_dec x x); congruence. Qed.

Lemma prefix_app_eq p s : starts_with s p = true -> exists r, s = (p ++ r)%string.
Proof.
  unfold starts_with. revert s. induction p as [|x p IH]; intros s H; [exists s; reflexivity|].
  destruct s as [|y s]; [discriminate|]. cbn in H. destruct (ascii_dec x y); [|discriminate]. subst.
  destruct (IH _ H) as [r ->]. exists r. reflexivity.
Qed.

Lemma act_in_coh v k : comp_coh v k -> forall a, In a (acts_of k) -> exists r, ac_path a = (c_path k ++ "/" ++ r)%string.
Proof.
  revert v k. apply (comp_coh_ind' (fun v k => forall a, In a (acts_of k) -> exists r, ac_path a = (c_path k ++ "/" ++ r)%string)).
  intros pp n ss aa Hc IH Ha a Hin. cbn [acts_of] in Hin. apply in_app_or in Hin as [Hin|Hin]; cbn [c_path].
  - apply in_flat_map in Hin as (s & Hs & Hin). rewrite Forall_forall in IH, Hc.
    destruct (IH s Hs a Hin) as [r Er]. rewrite (comp_coh_pp _ _ (Hc s Hs)) in Er.
    exists (c_name s ++ "/" ++ r)%string. rewrite Er, !append_assoc. reflexivity.
  - rewrite Forall_forall in Ha. destruct (Ha a Hin) as [_ E]. rewrite E. eauto.
Qed.

Lemma act_posts_source c a t : In t (act_posts c a) -> tx_source t = Some (ac_path a).
Proof.
  unfold act_posts. destruct (criteria _ _); [|intros []]. destruct (get_datetime c); [|intros []].
  destruct (ac_kind a); [intros [<-|[]]; reflexivity|]. destruct (_ =? 0); [intros [<-|[]]|intros [<-|[<-|[]]]]; reflexivity.
Qed.

(** running any component of a built entity posts only below its path *)
Theorem component_sources name g ops k c l l' k' :
  comp_in (en_comps (ent_built name g ops)) k -> run_comp c l k = Ok (l', k') ->
  exists ps, l_txs l' = (l_txs l ++ ps)%list /\
    forall t, In t ps -> exists s, tx_source t = Some s /\ starts_with s (c_path k ++ "/") = true.
Proof.
  intros Hin Hr. apply run_comp_ok in Hr as (A & _ & _). exists (flat_map (act_posts c) (acts_of k)). split; auto.
  intros t Ht. apply in_flat_map in Ht as (a & Ha & Ht). exists (ac_path a). split; [eapply act_posts_source; eauto|].
  destruct (ent_built_coh name g ops) as [_ F]. destruct (comp_in_coh _ _ _ Hin F) as [v Hv].
  destruct (act_in_coh _ _ Hv a Ha) as [r ->].
  replace (c_path k ++ "/" ++ r)%string with ((c_path k ++ "/") ++ r)%string by (rewrite append_assoc; reflexivity).
  apply starts_with_app.
Qed.
