(** Proofs for C91: where a run can fail. *)
From Verif Require Import Prelude M_Dates M_Accounts M_Ledger M_Business M_Model M_Interrupt Spec_Dates Spec_Accounts Spec_Ledger Spec_Business Spec_Model Spec_Interrupt
  P_Dates P_Accounts P_Ledger P_Reports P_Business P_Year P_Interrupt.
Local Open Scope Z_scope.
Local Open Scope list_scope.

Lemma is_ok_ex {A} (r : res A) : is_ok r = true <-> exists x, r = Ok x.
Proof. destruct r; cbn; split; try discriminate; eauto. intros [x H]; discriminate. Qed.

Lemma datetime_below c n i : valid_dt (ck_start c) -> is_ok (datetime_at c n) = true -> 0 <= i <= n -> exists d, datetime_at c i = Ok d.
Proof.
  intros V H Hi. apply is_ok_ex. destruct (period_kind (ck_period c)) as [(len & P & L)|(k & P & L)].
  - apply (proj2 (fixed_raises c n len V P)) in H. apply (proj2 (fixed_raises c i len V P)).
    pose proof (valid_instant _ V) as R. apply in_range_minmax in R. nia.
  - apply (proj2 (calendar_raises c n k V P)) in H. apply (proj2 (calendar_raises c i k V P)).
    destruct V as (Hy & Hm & _). unfold month_index in *. nia.
Qed.

Lemma first_after_total c t n : forall i, (forall j, i <= j < i + Z.of_nat n -> exists d, datetime_at c j = Ok d) -> exists r, first_after c t i n = Ok r.
Proof.
  induction n as [|n IH]; intros i H; cbn [first_after]; [eauto|]. destruct (H i) as [d ->]; [lia|]. cbn [bind].
  destruct (dt_ltb t d); [eauto|]. apply IH. intros j Hj. apply H. lia.
Qed.

Lemma prepare_activity_total c n a : valid_dt (ck_start c) -> is_ok (datetime_at c n) = true -> exists b, prepare_activity c n a = Ok b.
Proof.
  intros V H. assert (T : forall t, exists r, first_after c t 0 (Z.to_nat n) = Ok r).
  { intros t. apply first_after_total. intros j Hj. eapply datetime_below; eauto. lia. }
  unfold prepare_activity, prepare_base. destruct (T (ac_start a)) as [r1 R1], (T (ac_end a)) as [r2 R2]. rewrite R1, R2.
  destruct (_ && _); cbn [bind]; destruct (_ && _); cbn [bind]; eauto.
Qed.

Lemma mapM_total {A B} (f : A -> res B) l : Forall (fun x => exists y, f x = Ok y) l -> exists l', mapM f l = Ok l'.
Proof. induction 1 as [|x l [y E] F [l' IH]]; cbn; [eauto|]. rewrite E, IH. cbn. eauto. Qed.

Lemma prepare_comp_total c n k : valid_dt (ck_start c) -> is_ok (datetime_at c n) = true -> exists k', prepare_comp c n k = Ok k'.
Proof.
  intros V H. induction k as [nm pp p ss aa IH] using comp_ind'. cbn [prepare_comp]. destruct (mapM_total _ _ IH) as [ss' ->]. cbn [bind].
  destruct (mapM_total (prepare_activity c n) aa) as [aa' ->]; [|cbn; eauto]. apply Forall_all. intros a. apply prepare_activity_total; auto.
Qed.

Lemma prepare_entity_total c n e : valid_dt (ck_start c) -> is_ok (datetime_at c n) = true -> is_ok (add_years (ck_start c) 1) = true -> exists p, prepare_entity c n e = Ok p.
Proof.
  intros V H Y. unfold prepare_entity. pose proof H as H'. apply is_ok_ex in H' as [d ->]. apply is_ok_ex in Y as [y ->]. cbn [bind].
  destruct (mapM_total (prepare_comp c n) (en_comps e)) as [ks ->]; [|cbn; eauto]. apply Forall_all. intros k. apply prepare_comp_total; auto.
Qed.

(** ** The preparation *)
Lemma prepare_entity_out_horizon c n x e : datetime_at c n = Err e \/ (is_ok (datetime_at c n) = true /\ add_years (ck_start c) 1 = Err e) ->
  exists x', prepare_entity_out c n x = (x', Some e) /\ en_gl x' = en_gl x /\ en_comps x' = en_comps x.
Proof.
  unfold prepare_entity_out. intros [N|[N1 N2]].
  - rewrite N. eexists. split; [reflexivity|]. auto.
  - apply is_ok_ex in N1 as [d ->]. rewrite N2. eexists. split; [reflexivity|]. auto.
Qed.

Lemma preparation_fails m e : valid_dt (ck_start (md_clock m)) -> snd (prepare_model_out m) = Some e -> no_horizon m e.
Proof.
  intros V H. unfold prepare_model_out in H. cbn [snd] in H. set (c := reset (md_clock m)) in *. unfold no_horizon.
  change (datetime_at (md_clock m) (md_count m)) with (datetime_at c (md_count m)).
  change (ck_start (md_clock m)) with (ck_start c) in *.
  destruct (md_ents m) as [|x r] eqn:E; [discriminate H|].
  destruct (datetime_at c (md_count m)) as [d|er] eqn:D.
  - right. split; [reflexivity|]. destruct (add_years (ck_start c) 1) as [y|er] eqn:Y.
    + exfalso. pose proof (each_agree (prepare_entity c (md_count m)) _ (x :: r) (Forall_all _ _ (prepare_entity_agree c (md_count m)))) as G.
      destruct (mapM_total (prepare_entity c (md_count m)) (x :: r)) as [es Hes]; [apply Forall_all; intros z; apply prepare_entity_total; auto; [rewrite D|rewrite Y]; reflexivity|].
      rewrite Hes in G. cbn [agree] in G. rewrite G in H. discriminate.
    + destruct (prepare_entity_out_horizon c (md_count m) x er) as (x' & X & _); [right; rewrite D; auto|]. cbn [each] in H. rewrite X in H. cbn [snd] in H. congruence.
  - left. destruct (prepare_entity_out_horizon c (md_count m) x er) as (x' & X & _); [left; auto|]. cbn [each] in H. rewrite X in H. cbn [snd] in H. congruence.
Qed.

Lemma horizon_fails m e : no_horizon m e -> md_ents m <> [] ->
  snd (run_out m) = Some e /\ books (fst (run_out m)) = books m /\
  map en_comps (md_ents (fst (run_out m))) = map en_comps (md_ents m) /\ ck_ix (md_clock (fst (run_out m))) = 0.
Proof.
  intros N Ne. unfold no_horizon in N. unfold run_out, prepare_model_out, books. set (c := reset (md_clock m)).
  change (datetime_at (md_clock m) (md_count m)) with (datetime_at c (md_count m)) in N.
  change (ck_start (md_clock m)) with (ck_start c) in N.
  destruct (md_ents m) as [|x r]; [contradiction|]. cbn [each].
  destruct (prepare_entity_out_horizon c (md_count m) x e N) as (x' & -> & X1 & X2). cbn. rewrite X1, X2. auto.
Qed.

(** ** The periods *)
Lemma each_split {A} (f : A -> res A) (g : A -> out A) l e : (forall x, agree (f x) (g x) (fun y => y)) -> snd (each g l) = Some e ->
  exists before x after before', l = before ++ x :: after /\ fst (each g l) = before' ++ fst (g x) :: after /\ Forall2 (fun a b => f a = Ok b) before before' /\ snd (g x) = Some e.
Proof.
  intros G. induction l as [|x l IH]; cbn [each]; [discriminate|]. specialize (G x). unfold agree in G. destruct (g x) as [y [er|]] eqn:E; cbn [snd fst].
  - intros H. injection H as ->. exists [], x, l, []. rewrite E. cbn. auto.
  - intros H. destruct (IH H) as (b & z & a & b' & -> & E2 & F & S). exists (x :: b), z, a, (y :: b').
    cbn. rewrite E2. repeat split; auto. constructor; auto. destruct (f x); [congruence|discriminate G].
Qed.

Lemma run_periods_split n : forall m m' e, run_periods_out n m = (m', Some e) ->
  exists k mk es, (k < n)%nat /\ run_periods k m = Ok mk /\ each (run_entity_out (md_clock mk)) (md_ents mk) = (es, Some e) /\
    m' = mktbm (md_name mk) (md_clock mk) (md_count mk) es.
Proof.
  induction n as [|n IH]; intros m m' e; cbn [run_periods_out]; [discriminate|].
  pose proof (run_entities_agree (md_clock m) (md_ents m)) as G. destruct (each (run_entity_out (md_clock m)) (md_ents m)) as [es [er|]] eqn:E; cbn [fst snd].
  - intros H. injection H as <- ->. exists 0%nat, m, es. split; [lia|]. split; [reflexivity|]. auto.
  - intros H. apply IH in H as (k & mk & es' & Hk & R & R2 & R3). exists (S k), mk, es'. split; [lia|]. split; [|auto].
    cbn [run_periods]. destruct (mapM (run_entity (md_clock m)) (md_ents m)) as [es1|]; cbn [agree] in G; [|discriminate G]. injection G as ->. exact R.
Qed.

Definition later_year (c : clock) (n : Z) (e : entity) : Prop :=
  valid_dt (en_curr e) /\ instant (ck_start c) + 8 * us_per_day <= instant (en_curr e) /\ en_count e = n /\ datetime_at c n = Ok (en_exec e).

Lemma later_years c n e0 p i e : valid_dt (ck_start c) -> prepare_entity c n e0 = Ok p -> entity_after c p i e -> Z.of_nat i <= n -> later_year c n e.
Proof.
  intros V P H. induction H as [|i e e' H IH Hr]; intros Hi.
  - apply prepare_entity_ok in P as (_ & _ & _ & P4 & _ & _ & _ & P8 & P9 & P10). unfold later_year.
    pose proof (add_years_ok _ _ _ V P9) as (Vy & _). pose proof (add_year_gap _ _ V P9). auto.
  - destruct IH as (V1 & V2 & V3 & V4); [lia|]. pose proof Hr as Hr'.
    apply run_entity_ok in Hr' as (_ & _ & _ & _ & C5 & C6 & _); [|cbn; lia].
    apply run_entity_detail in Hr as (em & Y & _ & _ & _ & D5 & _ & D7 & D8); [|cbn; lia].
    apply year_end_detail in Y as (now & Nw & [(Cond & ye & nx & cl & _ & A2 & _ & _ & _ & A6)|(_ & ->)]).
    + change (get_datetime (clock_at c (Z.of_nat i))) with (datetime_at c (Z.of_nat i)) in Nw.
      pose proof (datetime_at_valid _ _ _ V Nw) as Vn. pose proof (datetime_at_valid _ _ _ V V4) as Ve.
      pose proof (datetime_at_strict c (Z.of_nat i) n _ _ V ltac:(lia) Nw V4) as Lt.
      rewrite D7 in *. rewrite D8 in *. rewrite D5 in Cond. cbn [clock_at ck_ix] in Cond. rewrite V3 in Cond.
      replace (Z.of_nat i =? n) with false in Cond by lia. rewrite orb_false_r in Cond. apply (dt_leb_instant _ _ V1 Vn) in Cond.
      pose proof (add_years_ok _ _ _ V1 A2) as (Vx & _). pose proof (add_year_gap _ _ V1 A2).
      assert (0 < us_per_day) by reflexivity. unfold later_year. rewrite A6, C5, C6. apply (dt_ltb_instant _ _ Vn Ve) in Lt. destruct (dt_ltb (en_exec e) nx); (split; [assumption|split; [lia|auto]]).
    + unfold later_year. rewrite D7, C5, C6. auto.
Qed.

Lemma run_comps_total c d ks : get_datetime c = Ok d -> forall l, exists r, traverse (run_comp c) ks l = Ok r.
Proof.
  intros D.
  assert (TA : forall aa l, exists r, traverse (run_activity c) aa l = Ok r).
  { induction aa as [|a aa IH]; intros l; cbn [traverse]; [eauto|]. destruct (run_activity_now c l a d D) as [r ->]. cbn [bind].
    destruct (IH (fst r)) as [r2 ->]. cbn. eauto. }
  assert (TK : forall k l, exists r, run_comp c l k = Ok r).
  { intros k. induction k as [nm pp p ss aa IH] using comp_ind'. intros l. cbn [run_comp].
    assert (TS : forall l, exists r, traverse (fun l s => run_comp c l s) ss l = Ok r).
    { clear l. induction IH as [|s ss H F IHs]; intros l; cbn [traverse]; [eauto|]. destruct (H l) as [r ->]. cbn [bind].
      destruct (IHs (fst r)) as [r2 ->]. cbn. eauto. }
    destruct (TS l) as [r ->]. cbn [bind]. destruct (TA aa (fst r)) as [r2 ->]. cbn. eauto. }
  induction ks as [|k ks IH]; intros l; cbn [traverse]; [eauto|]. destruct (TK k l) as [r ->]. cbn [bind].
  destruct (IH (fst r)) as [r2 ->]. cbn. eauto.
Qed.

Lemma forall2_middle {A B} (R : A -> B -> Prop) l b x a : Forall2 R l (b ++ x :: a) -> exists y, R y x.
Proof. intros F. apply Forall2_app_inv_r in F as (l1 & l2 & _ & F & _). inversion F; subst. eauto. Qed.

Lemma forall2_trans {A B C} (R : A -> B -> Prop) (Q : B -> C -> Prop) l l' l'' : Forall2 R l l' -> Forall2 Q l' l'' -> Forall2 (fun x z => exists y, R x y /\ Q y z) l l''.
Proof. intros F. revert l''. induction F; intros l2 G; inversion G; subst; constructor; eauto. Qed.

Lemma closing_fails m m' e : valid_dt (ck_start (md_clock m)) -> run_out m = (m', Some e) -> snd (prepare_model_out m) = None -> failed_closing m m' e.
Proof.
  intros V R Pn. unfold run_out in R. pose proof (prepare_model_agree m) as G. destruct (prepare_model_out m) as [p o]. cbn [snd] in Pn. subst o.
  destruct (prepare_model m) as [p'|er] eqn:Pm; cbn [agree] in G; [|discriminate G]. injection G as <-.
  apply run_periods_split in R as (k & mk & es & Hk & Rk & Ee & ->).
  pose proof Pm as Pm'. unfold prepare_model in Pm'. set (c := reset (md_clock m)) in *.
  destruct (mapM (prepare_entity c (md_count m)) (md_ents m)) as [es0|] eqn:E0; cbn [bind] in Pm'; [|discriminate].
  injection Pm' as <-. apply mapM_forall2 in E0.
  pose proof Rk as Rk'. replace c with (clock_at c (Z.of_nat 0)) in Rk' at 1 by reflexivity.
  apply (run_periods_after c _ _ _ 0 es0) in Rk'; [|clear; induction es0; constructor; auto; constructor].
  destruct Rk' as (A1 & A2 & A3 & A4). cbn [Nat.add] in A3, A4.
  destruct (each_split (run_entity (md_clock mk)) (run_entity_out (md_clock mk)) (md_ents mk) e (run_entity_agree (md_clock mk))) as (before & x & aft & before' & B1 & B2 & B3 & B4).
  { rewrite Ee. reflexivity. }
  rewrite Ee in B2. cbn [fst] in B2.
  assert (L : later_year c (md_count m) x).
  { pose proof (forall2_trans _ _ _ _ _ E0 A4) as F. rewrite B1 in F. destruct (forall2_middle _ _ _ _ _ F) as (e0 & p0 & P1 & P2).
    eapply later_years; eauto. lia. }
  destruct L as (L1 & L2 & L3 & L4).
  destruct (datetime_below c (md_count m) (Z.of_nat k)) as [now Nw]; [auto|rewrite L4; reflexivity|lia|].
  assert (Nc : get_datetime (md_clock mk) = Ok now) by (rewrite A3; exact Nw).
  assert (Hix : ck_ix (md_clock mk) = Z.of_nat k) by (rewrite A3; reflexivity).
  unfold run_entity_out in B4, B2. rewrite L3, Hix in B4, B2. replace (md_count m <=? Z.of_nat k) with false in B4, B2 by lia.
  destruct (run_comps_total _ _ (en_comps x) Nc (en_gl x)) as [[gl ks] T].
  pose proof (run_comps_agree (md_clock mk) (en_comps x) (en_gl x)) as Ga. rewrite T in Ga. cbn [agree] in Ga. rewrite Ga in B4, B2. cbn [fst snd] in B4, B2.
  unfold year_end_out in B4, B2. rewrite Nc in B4, B2. cbn [en_curr en_count en_gl en_path en_prev en_name en_ppath en_comps en_exec] in B4, B2.
  rewrite ?Hix, ?L3 in B4, B2.  replace (Z.of_nat k =? md_count m) with false in B4, B2 by lia. rewrite orb_false_r in B4, B2.
  destruct (dt_leb (en_curr x) now) eqn:Lb; [|discriminate B4].
  destruct (add_us_total (en_curr x) (-1000000)) as [ye Ye].
  { apply in_range_minmax. pose proof (valid_instant _ L1) as I1. pose proof (valid_instant _ V) as I2. apply in_range_minmax in I1, I2.
    change (ck_start c) with (ck_start (md_clock m)) in L2. unfold us_per_day in L2. lia. }
  rewrite Ye in B4, B2.
  set (c' := md_clock mk) in *.
  destruct (add_years (en_curr x) 1) as [nx|er] eqn:Ay.
  - destruct (close_year (l_structure gl) (en_path x) (l_txs gl) (en_prev x) ye) as [cl|er] eqn:Cl; [discriminate B4|].
    cbn [snd fst] in B4, B2. injection B4 as ->.
    exists k, (mktbm (md_name m) c (md_count m) es0), mk, before, x, aft, before', (mkent (en_name x) (en_ppath x) (en_path x) gl ks (md_count m) (en_curr x) (if dt_ltb (en_exec x) nx then en_exec x else nx) (en_exec x)), now, ye.
    split; [lia|]. split; [exact Pm|]. split; [exact Rk|]. split; [exact B1|]. split; [exact B2|]. split; [exact Hix|]. split; [reflexivity|].
    split; [exact B3|]. split; [exact T|]. split; [exact Nw|]. split; [exact Lb|]. split; [exact Ye|]. right. split; [rewrite Ay; reflexivity|exact Cl].
  - cbn [snd fst] in B4, B2. injection B4 as ->.
    exists k, (mktbm (md_name m) c (md_count m) es0), mk, before, x, aft, before', (mkent (en_name x) (en_ppath x) (en_path x) gl ks (md_count m) (en_curr x) (en_curr x) (en_exec x)), now, ye.
    split; [lia|]. split; [exact Pm|]. split; [exact Rk|]. split; [exact B1|]. split; [exact B2|]. split; [exact Hix|]. split; [reflexivity|].
    split; [exact B3|]. split; [exact T|]. split; [exact Nw|]. split; [exact Lb|]. split; [exact Ye|]. left. exact Ay.
Qed.

(** ** What the books hold *)
Lemma after_dated c n e0 p i e : prepare_entity c n e0 = Ok p -> entity_after c p i e -> Z.of_nat i <= n -> P_Year.dated (fun _ => True) (l_txs (en_gl e)).
Proof.
  intros P H. assert (Hn : en_count p = n) by (apply prepare_entity_ok in P as (_ & _ & _ & P4 & _); exact P4).
  assert (G : forall j x, entity_after c p j x -> Z.of_nat j <= n -> en_count x = n).
  { intros j x Hx Hj. apply entity_after_inv in Hx; [|lia]. destruct Hx as (_ & _ & _ & Hx & _). congruence. }
  induction H as [|i e e' H IH Hr]; intros Hi.
  - apply prepare_entity_ok in P as (_ & _ & _ & _ & P5 & _). rewrite P5. intros t [].
  - specialize (IH ltac:(lia)). pose proof (G _ _ H ltac:(lia)) as Gc.
    apply run_entity_detail in Hr as (em & Y & D2 & _ & _ & _ & _ & _ & _); [|cbn [clock_at ck_ix]; lia].
    apply year_end_detail in Y as (now & Nw & Y).
    assert (Dm : P_Year.dated (fun _ => True) (l_txs (en_gl em))).
    { rewrite D2. apply dated_app; [exact IH|]. eapply dated_weaken; [|eapply posts_dated; exact Nw]. auto. }
    destruct Y as [(_ & ye & nx & cl & _ & _ & A3 & A4 & _)|(_ & ->)]; [|exact Dm].
    rewrite A4. apply dated_app; [exact Dm|]. eapply dated_weaken; [|eapply close_year_dated; exact A3]. auto.
Qed.

Lemma failed_dated m m' e : failed_closing m m' e -> exists k p mk before x after before' x' now ye,
  prepare_model m = Ok p /\ run_periods k p = Ok mk /\ md_ents mk = before ++ x :: after /\ md_ents m' = before' ++ x' :: after /\
  P_Year.dated (fun _ => True) (l_txs (en_gl x')) /\
  filter tx_closing_cr (l_txs (en_gl x')) = filter tx_closing_cr (l_txs (en_gl x)) /\
  (exists more, l_txs (en_gl x') = l_txs (en_gl x) ++ more /\ forall t, In t more -> tx_date t = PDateTime now) /\
  l_structure (en_gl x') = l_structure (en_gl x) /\
  add_us (en_curr x) (-1000000) = Ok ye /\
  (add_years (en_curr x) 1 = Err e \/ close_year (l_structure (en_gl x')) (en_path x') (l_txs (en_gl x')) (en_prev x) ye = Err e).
Proof.
  intros (k & p & mk & before & x & aft & before' & x' & now & ye & Hk & Pm & Rk & B1 & B2 & Hix & Hc & B3 & T & Nw & Lb & Ye & Cause).
  exists k, p, mk, before, x, aft, before', x', now, ye. do 4 (split; [assumption|]).
  pose proof Pm as Pm'. unfold prepare_model in Pm'. set (c := reset (md_clock m)) in *.
  destruct (mapM (prepare_entity c (md_count m)) (md_ents m)) as [es0|] eqn:E0; cbn [bind] in Pm'; [|discriminate].
  injection Pm' as <-. apply mapM_forall2 in E0.
  pose proof Rk as Rk'. replace c with (clock_at c (Z.of_nat 0)) in Rk' at 1 by reflexivity.
  apply (run_periods_after c _ _ _ 0 es0) in Rk'; [|clear; induction es0; constructor; auto; constructor].
  destruct Rk' as (A1 & A2 & A3 & A4). cbn [Nat.add] in A3, A4.
  pose proof (forall2_trans _ _ _ _ _ E0 A4) as F. rewrite B1 in F. destruct (forall2_middle _ _ _ _ _ F) as (e0 & p0 & P1 & P2).
  pose proof (after_dated _ _ _ _ _ _ P1 P2 ltac:(lia)) as Dx.
  apply run_comps_ok in T as (T1 & T2 & T3).
  assert (Nc : get_datetime (md_clock mk) = Ok now) by (rewrite A3; exact Nw).
  pose proof (posts_dated (md_clock mk) (flat_map acts_of (en_comps x)) now Nc) as Dp.
  split; [rewrite T1; apply dated_app; [exact Dx|eapply dated_weaken; [|exact Dp]; auto]|].
  split. { rewrite T1, filter_app. replace (filter tx_closing_cr (flat_map (act_posts (md_clock mk)) _)) with (@nil tx); [apply app_nil_r|].
    symmetry. apply (closing_posts (md_clock mk) (flat_map acts_of (en_comps x))). }
  split. { exists (flat_map (act_posts (md_clock mk)) (flat_map acts_of (en_comps x))). split; [exact T1|]. intros t Ht. destruct (Dp t Ht) as (d & Hd & ->). exact Hd. }
  split; [exact T2|]. split; [exact Ye|]. destruct Cause as [C|[_ C]]; auto.
Qed.
