(** Proofs about the closing entries of one year. *)
From Verif Require Import Prelude M_Dates M_Accounts M_Ledger M_Business Spec_Dates Spec_Accounts Spec_Ledger Spec_Business
  P_Dates P_Accounts P_Ledger P_Reports P_Business P_Year.
Open Scope Z_scope.

(** ** types of the accounts created by the constructor *)
Definition pairs (a : acct) : list (nat * atype) := map (fun x => (a_id x, a_type x)) (acct_and_descendants a).
Definition pairsf (l : list acct) : list (nat * atype) := map (fun x => (a_id x, a_type x)) (flat_map acct_and_descendants l).
Lemma pairs_unfold i n num ty pp p ks : pairs (Acct i n num ty pp p ks) = (i, ty) :: pairsf ks.
Proof. reflexivity. Qed.
Lemma pairsf_cons a l : pairsf (a :: l) = (pairs a ++ pairsf l)%list.
Proof. unfold pairsf, pairs. cbn. rewrite map_app. reflexivity. Qed.
Lemma pairsf_app l l' : pairsf (l ++ l') = (pairsf l ++ pairsf l')%list.
Proof. unfold pairsf. rewrite flat_map_app, map_app. reflexivity. Qed.

Lemma pairs_set_parent v a : pairs (set_parent_path v a) = pairs a.
Proof.
  revert v. induction a as [i n num ty pp p ks IH] using acct_ind'. intros v. cbn [set_parent_path].
  rewrite !pairs_unfold. f_equal. induction ks as [|k ks IHk]; [reflexivity|]. cbn [map].
  inversion IH; subst. rewrite !pairsf_cons. f_equal; auto.
Qed.
Lemma pairsf_set_parent v l : pairsf (map (set_parent_path v) l) = pairsf l.
Proof. induction l as [|a l IH]; [reflexivity|]. cbn [map]. rewrite !pairsf_cons, pairs_set_parent, IH. reflexivity. Qed.
Lemma pairs_rename v a : pairs (rename v a) = pairs a.
Proof. destruct a as [i n num ty pp p ks]. cbn [rename]. rewrite !pairs_unfold, pairsf_set_parent. reflexivity. Qed.
Lemma pairs_remove n a q : In q (pairs (remove_account n a)) -> In q (pairs a).
Proof.
  destruct a as [i0 n0 num0 ty pp p ks]. cbn [remove_account]. rewrite !pairs_unfold. intros [H|H]; [left; auto|right].
  induction ks as [|k ks IH]; cbn [M_Accounts.remove_last] in H; auto.
  destruct (_ && _); rewrite !pairsf_cons in *; rewrite !in_app_iff in *; tauto.
Qed.
Lemma pairs_create i n num a q : In q (pairs (create_account i n num a)) -> In q (pairs a) \/ fst q = i.
Proof.
  destruct a as [i0 n0 num0 ty pp p ks]. cbn [create_account]. rewrite !pairs_unfold.
  intros [H|H]; [left; left; auto|]. rewrite pairsf_app, in_app_iff in H. destruct H as [H|H]; [left; right; auto|].
  cbn in H. destruct H as [<-|[]]. right; reflexivity.
Qed.
Lemma pairs_update i f a q (P : Prop) : (forall x, In q (pairs (f x)) -> In q (pairs x) \/ P) ->
  In q (pairs (update_acct i f a)) -> In q (pairs a) \/ P.
Proof.
  intros Hf. induction a as [i0 n num ty pp p ks IH] using acct_ind'. cbn [update_acct].
  destruct (Nat.eqb i0 i); [apply Hf|]. rewrite !pairs_unfold. intros [H|H]; [left; left; auto|].
  assert (In q (pairsf ks) \/ P).
  { induction IH as [|k ks Hk IH IHk]; [destruct H|]. cbn [map] in H. rewrite pairsf_cons, in_app_iff in *.
    destruct H as [H|H]; [destruct (Hk H)|destruct (IHk H)]; auto. }
  destruct H0; [left; right|right]; auto.
Qed.
Lemma pairsf_update i f l q (P : Prop) : (forall x, In q (pairs (f x)) -> In q (pairs x) \/ P) ->
  In q (pairsf (map (update_acct i f) l)) -> In q (pairsf l) \/ P.
Proof.
  intros Hf. induction l as [|a l IH]; cbn [map]; auto. rewrite !pairsf_cons, !in_app_iff.
  intros [H|H]; [destruct (pairs_update i f a q P Hf H)|destruct (IH H)]; auto.
Qed.

Definition typed_gls (g : gls) : Prop :=
  (27 <= g_next g)%nat /\ forall q, In q (pairsf (g_accounts g)) -> (fst q < 27)%nat -> In q (pairsf (g_accounts default_gls)).

Lemma typed_step g o : typed_gls g -> typed_gls (gls_step g o).
Proof.
  intros [L H]. destruct o; cbn [gls_step]; unfold typed_gls; cbn [create_top update_gls g_accounts g_next].
  - split; [lia|]. intros q Hq Hl. rewrite pairsf_app, in_app_iff in Hq. destruct Hq as [Hq|[<-|[]]]; auto. cbn in Hl. lia.
  - split; [lia|]. intros q Hq Hl.
    destruct (pairsf_update i _ _ q (fst q = g_next g) (fun x => pairs_create _ _ _ x q) Hq) as [G|G]; auto. lia.
  - split; [lia|]. intros q Hq Hl. destruct (pairsf_update i (rename n) (g_accounts g) q False) as [G|[]]; auto.
    intros x Hx. rewrite pairs_rename in Hx. auto.
  - split; [lia|]. intros q Hq Hl. destruct (pairsf_update i (remove_account n) (g_accounts g) q False) as [G|[]]; auto.
    intros x Hx. apply pairs_remove in Hx. auto.
Qed.

Lemma typed_built ops : typed_gls (built ops).
Proof.
  assert (G : forall ops g, typed_gls g -> typed_gls (fold_left gls_step ops g)).
  { clear ops. induction ops as [|o ops IH]; intros g H; cbn; auto. apply IH, typed_step, H. }
  apply G. split; [vm_compute; lia|auto].
Qed.

Lemma deref_in g i a : deref g i = Some a -> in_structure g a /\ a_id a = i.
Proof. unfold deref. intros H. apply find_some in H as [H1 H2]. apply in_all in H1. apply Nat.eqb_eq in H2. auto. Qed.

Lemma deref_type ops i a ty : (i < 27)%nat -> deref (built ops) i = Some a ->
  (forall q, In q (pairsf (g_accounts default_gls)) -> fst q = i -> snd q = ty) -> a_type a = ty.
Proof.
  intros L H D. apply deref_in in H as [H1 H2]. destruct (typed_built ops) as [_ T].
  apply (D (a_id a, a_type a)); [|exact H2]. apply T; [|cbn; lia].
  unfold pairsf. apply (in_map (fun x => (a_id x, a_type x))). apply in_all in H1. exact H1.
Qed.

Definition default_pairs : list (nat * atype) :=
  Eval vm_compute in pairsf (g_accounts default_gls).
Lemma default_pairs_ok : pairsf (g_accounts default_gls) = default_pairs.
Proof. vm_compute. reflexivity. Qed.
Definition first_type (i : nat) (ty : atype) : bool :=
  forallb (fun q => negb (Nat.eqb (fst q) i) || atype_eqb (snd q) ty) default_pairs.
Lemma first_type_ok i ty : first_type i ty = true ->
  forall q, In q (pairsf (g_accounts default_gls)) -> fst q = i -> snd q = ty.
Proof.
  intros H q Hq E. rewrite default_pairs_ok in Hq. unfold first_type in H. rewrite forallb_forall in H.
  specialize (H q Hq). rewrite E, Nat.eqb_refl in H. cbn in H. apply atype_eqb_eq in H. auto.
Qed.
Ltac dtype := apply first_type_ok; vm_compute; reflexivity.
Lemma sales_type ops a : deref (built ops) id_sales = Some a -> a_type a = Revenue.
Proof. intros H. eapply deref_type; [|exact H|]; [unfold id_sales; lia|dtype]. Qed.
Lemma cos_type ops a : deref (built ops) id_cos = Some a -> a_type a = Expense.
Proof. intros H. eapply deref_type; [|exact H|]; [unfold id_cos; lia|dtype]. Qed.
Lemma gp_type ops a : deref (built ops) id_gross_profit = Some a -> a_type a = Revenue.
Proof. intros H. eapply deref_type; [|exact H|]; [unfold id_gross_profit; lia|dtype]. Qed.
Lemma is_type_ ops a : deref (built ops) id_inc_sum = Some a -> a_type a = Revenue.
Proof. intros H. eapply deref_type; [|exact H|]; [unfold id_inc_sum; lia|dtype]. Qed.
Lemma re_type ops a : deref (built ops) id_ret_earnings = Some a -> a_type a = Equity.
Proof. intros H. eapply deref_type; [|exact H|]; [unfold id_ret_earnings; lia|dtype]. Qed.

Lemma same_obj_eq ops a b : in_structure (built ops) a -> in_structure (built ops) b -> same_obj a b = true -> a = b.
Proof.
  intros A B E. apply Nat.eqb_eq in E. apply in_all in A, B. pose proof (ids_unique ops) as N.
  apply In_nth_error in A as (i & A). apply In_nth_error in B as (j & B).
  assert (i = j).
  { rewrite NoDup_nth_error in N. apply N.
    - rewrite map_length. apply nth_error_Some. congruence.
    - erewrite !map_nth_error by eauto. congruence. }
  subst j. congruence.
Qed.

Lemma below_type a d : coh a -> below a d -> a_type d = a_type a.
Proof.
  intros C B. induction B as [a d H|a k d H B IH].
  - apply coh_kid in H; tauto.
  - rewrite IH; [apply coh_kid in H; tauto|]. eapply coh_below; eauto. apply below_kid; auto.
Qed.

(** ** the dictionaries *)
Definition wsum (h : acct -> Qc) (d : wdict) : Qc := Qcsum (map (fun kv => (h (fst kv) * snd kv)%Qc) d).

Lemma wsum_nil h : wsum h [] = 0%Qc. Proof. reflexivity. Qed.
Lemma wsum_cons h a v d : wsum h ((a, v) :: d) = (h a * v + wsum h d)%Qc.
Proof. unfold wsum. cbn [map fst snd]. apply Qcsum_cons. Qed.

Lemma wsum_upd (P : acct -> Prop) h k x d : P k -> Forall (fun kv => P (fst kv)) d ->
  (forall a b, P a -> P b -> same_obj a b = true -> a = b) ->
  wsum h (wupd k x x d) = (wsum h d + h k * x)%Qc /\ Forall (fun kv => P (fst kv)) (wupd k x x d).
Proof.
  intros Pk F U. induction F as [|[a v] d Pa F [IH1 IH2]]; cbn [wupd].
  - split; [|constructor; auto]. rewrite wsum_cons, wsum_nil. ring.
  - destruct (same_obj a k) eqn:E.
    + split; [|constructor; auto]. cbn in Pa. assert (a = k) by auto. subst a. rewrite !wsum_cons. ring.
    + split; [|constructor; auto]. rewrite !wsum_cons, IH1. ring.
Qed.

Lemma qpos_spec v : qpos v = true <-> (0 < v)%Qc.
Proof. unfold qpos, Qclt. rewrite Qgt_alt. cbn. destruct (this v ?= 0)%Q; split; congruence. Qed.
Lemma qneg_spec v : qneg v = true <-> (v < 0)%Qc.
Proof. unfold qneg, Qclt. rewrite Qlt_alt. cbn. destruct (this v ?= 0)%Q; split; congruence. Qed.
Lemma qsign v : (qpos v = true /\ qneg v = false /\ qabs v = v) \/ (qpos v = false /\ qneg v = true /\ qabs v = (- v)%Qc) \/ (qpos v = false /\ qneg v = false /\ v = 0%Qc).
Proof.
  unfold qabs. unfold qpos, qneg. destruct (this v ?= 0)%Q eqn:E; auto.
  right; right. repeat split; auto. apply Qeq_alt in E. apply Qc_is_canon. exact E.
Qed.

Definition ind (x s : string) : Qc := if (x =? s)%string then 1%Qc else 0%Qc.

Lemma net_credit_cons t l s : net_credit (t :: l) s =
  ((if is_acc (tx_cr t) s then tx_amount t else 0) - (if is_acc (tx_dt t) s then tx_amount t else 0) + net_credit l s)%Qc.
Proof. unfold net_credit. rewrite credits_cons, debits_cons. ring. Qed.
Lemma net_credit_nil s : net_credit [] s = 0%Qc.
Proof. unfold net_credit, credits, debits. cbn. unfold Qcsum; cbn. ring. Qed.
Lemma net_credit_app l l' s : net_credit (l ++ l') s = (net_credit l s + net_credit l' s)%Qc.
Proof. induction l as [|t l IH]; cbn [app]; [rewrite net_credit_nil; ring|]. rewrite !net_credit_cons, IH. ring. Qed.
Lemma net_closing path nm ye dt cr v l s :
  net_credit (closing_tx path nm ye dt cr v :: l) s = (ind cr s * v - ind dt s * v + net_credit l s)%Qc.
Proof. rewrite net_credit_cons. unfold closing_tx, ind. cbn. destruct (cr =? s)%string, (dt =? s)%string; ring. Qed.

Lemma net_gross path gp ye d s :
  net_credit (ye_gross_profit path gp ye d) s = (wsum (fun a => ind (a_path a) s) d - ind gp s * wsum (fun _ => 1%Qc) d)%Qc.
Proof.
  induction d as [|[a v] d IH]; cbn [ye_gross_profit flat_map].
  - rewrite net_credit_nil. rewrite ?wsum_nil. ring.
  - fold (ye_gross_profit path gp ye d). rewrite net_credit_app, IH. rewrite !wsum_cons.
    destruct (qsign v) as [(E1 & E2 & E3)|[(E1 & E2 & E3)|(E1 & E2 & E3)]]; rewrite ?E1, ?E2, ?E3; rewrite ?net_closing, net_credit_nil; ring.
Qed.

Definition sg (a : acct) : Qc := if atype_eqb (a_type a) Expense then 1%Qc else (- (1))%Qc.

Lemma sg_case a : (atype_eqb (a_type a) Expense = true /\ sg a = 1%Qc) \/ (atype_eqb (a_type a) Expense = false /\ sg a = (- (1))%Qc).
Proof. unfold sg. destruct (atype_eqb _ _); auto. Qed.

Lemma net_summary path is_ ye d s :
  net_credit (ye_income_summary path is_ ye d) s =
  (wsum (fun a => sg a * ind (a_path a) s) d - ind is_ s * wsum sg d)%Qc.
Proof.
  induction d as [|[a v] d IH]; cbn [ye_income_summary flat_map].
  - rewrite net_credit_nil. rewrite ?wsum_nil. ring.
  - fold (ye_income_summary path is_ ye d). rewrite net_credit_app, IH. rewrite !wsum_cons. destruct (sg_case a) as [[EX ES]|[EX ES]]; rewrite EX, ES;
    destruct (qsign v) as [(E1 & E2 & E3)|[(E1 & E2 & E3)|(E1 & E2 & E3)]]; rewrite ?E1, ?E2, ?E3;
      rewrite ?net_closing, net_credit_nil; ring.
Qed.

Lemma summary_amount gross d : ye_income_summary_amount gross d = (gross - wsum sg d)%Qc.
Proof.
  unfold ye_income_summary_amount. revert gross. induction d as [|[a v] d IH]; intros gross; cbn [fold_left].
  - rewrite ?wsum_nil. ring.
  - rewrite IH. rewrite wsum_cons. destruct (sg_case a) as [[EX ES]|[EX ES]]; rewrite EX, ES;
    destruct (qsign v) as [(E1 & E2 & _)|[(E1 & E2 & _)|(E1 & E2 & E3)]]; rewrite ?E1, ?E2, ?E3; cbn [orb]; ring.
Qed.

Lemma net_settle path gp is_ ye G s :
  net_credit (ye_settle_gross path gp is_ ye G) s = (ind is_ s * G - ind gp s * G)%Qc.
Proof.
  unfold ye_settle_gross. destruct (qsign G) as [(E1 & E2 & E3)|[(E1 & E2 & E3)|(E1 & E2 & E3)]]; rewrite ?E1, ?E2, ?E3;
    rewrite ?net_closing, net_credit_nil; ring.
Qed.
Lemma net_retained path is_ re ye N s :
  net_credit (ye_retained path is_ re ye N) s = (ind re s * qabs N - ind is_ s * qabs N)%Qc.
Proof.
  unfold ye_retained. destruct (qsign N) as [(E1 & E2 & E3)|[(E1 & E2 & E3)|(E1 & E2 & E3)]]; rewrite ?E1, ?E2, ?E3;
    rewrite ?net_closing, net_credit_nil; try ring.
  unfold qabs. replace (qneg 0%Qc) with false by reflexivity. ring.
Qed.
Lemma gross_sum d : ye_gross_profit_sum d = wsum (fun _ => 1%Qc) d.
Proof. unfold ye_gross_profit_sum, wsum. f_equal. apply map_ext. intros [a v]. cbn. ring. Qed.

(** ** one year *)
Section Year.
  Variable ops : list gls_op.
  Hypothesis Hops : forallb op_names_ok ops = true.
  Let g := built ops.
  Variables sa co : acct.
  Hypothesis Hsa : deref g id_sales = Some sa.
  Hypothesis Hco : deref g id_cos = Some co.

  Definition scb (o : option string) : bool :=
    match get_account_o g o with
    | Ok x => in_accs x (account_descendants sa) || in_accs x (account_descendants co)
    | Err _ => false
    end.

  Lemma g_sound s a : get_account g s = Ok (Some a) -> in_structure g a /\ a_path a = s.
  Proof. apply get_account_sound, coh_built, Hops. Qed.

  Lemma in_accs_below top i a : deref g i = Some top -> in_structure g a ->
    (in_accs (Some a) (account_descendants top) = true <-> below top a).
  Proof.
    intros Ht Ha. apply deref_in in Ht as [Ht _]. cbn. rewrite existsb_exists. split.
    - intros (x & Hx & E). apply in_descendants in Hx. assert (Hxs : in_structure g x).
      { destruct Ht as (t & T1 & T2). exists t. split; auto. right. destruct T2 as [<-|T2]; auto. eapply below_trans; eauto. }
      rewrite (same_obj_eq ops a x); auto.
    - intros B. exists a. split; [apply in_descendants; auto|]. apply Nat.eqb_refl.
  Qed.

  Lemma top_below_type top i a : deref g i = Some top -> below top a -> a_type a = a_type top.
  Proof.
    intros Ht B. apply deref_in in Ht as [Ht _]. apply below_type; auto. eapply coh_in_structure; eauto. apply coh_built, Hops.
  Qed.

  Lemma scb_trading s : scb (Some s) = true <-> trading_account g s.
  Proof.
    unfold scb, trading_account. cbn [get_account_o]. destruct (get_account g s) as [[a|]|] eqn:E.
    - destruct (g_sound _ _ E) as [Ha _]. rewrite orb_true_iff, (in_accs_below sa id_sales), (in_accs_below co id_cos) by auto. split.
      + intros [H|H]; [exists a, sa|exists a, co]; auto.
      + intros (a' & top & E' & D & B). inversion E'; subst a'. destruct D as [D|D]; [left|right]; congruence.
    - split; [discriminate|]. intros (a & top & E' & _). congruence.
    - split; [discriminate|]. intros (a & top & E' & _). congruence.
  Qed.

  Lemma scb_income o : scb o = true -> income_account g o = true.
  Proof.
    destruct o as [s|]; [|discriminate]. intros H. apply scb_trading in H as (a & top & E & D & B).
    unfold income_account. rewrite E. destruct D as [D|D]; rewrite (top_below_type _ _ _ D B).
    - rewrite (sales_type _ _ D). reflexivity.
    - rewrite (cos_type _ _ D). reflexivity.
  Qed.
  Definition oib (o : option string) : bool := income_account g o && negb (scb o).

  (** weighted postings to one class of accounts *)
  Definition side (cls : option string -> bool) (f : string -> Qc) (t : tx) : Qc :=
    ((if cls (tx_cr t) then f (str_of (tx_cr t)) * tx_amount t else 0) -
     (if cls (tx_dt t) then f (str_of (tx_dt t)) * tx_amount t else 0))%Qc.

  Definition winv (w : wdict * wdict) (done : list tx) : Prop :=
    Forall (fun kv => in_structure g (fst kv)) (fst w) /\ Forall (fun kv => in_structure g (fst kv)) (snd w) /\
    forall f, wsum (fun a => f (a_path a)) (fst w) = Qcsum (map (side scb f) done) /\
              wsum (fun a => sg a * f (a_path a))%Qc (snd w) = (- Qcsum (map (side oib f) done))%Qc.

  Lemma winv_keep w done t : winv w done -> (forall f, side scb f t = 0%Qc) -> (forall f, side oib f t = 0%Qc) -> winv w (done ++ [t]).
  Proof.
    intros (A & B & C) H1 H2. split; [exact A|split; [exact B|]]. intros f. destruct (C f) as [C1 C2].
    rewrite !map_app, !Qcsum_app. cbn [map]. rewrite !Qcsum_cons, H1, H2, C1, C2. unfold Qcsum; cbn. split; ring.
  Qed.
  Lemma winv_fst w done t a x : winv w done -> in_structure g a -> (forall f, side scb f t = f (a_path a) * x)%Qc ->
    (forall f, side oib f t = 0%Qc) -> winv (wupd a x x (fst w), snd w) (done ++ [t]).
  Proof.
    intros (A & B & C) Ha H1 H2. destruct w as [w1 w2]; cbn [fst snd] in *.
    split; [apply (wsum_upd (in_structure g) (fun _ => 0%Qc)); auto; apply same_obj_eq|split; [exact B|]].
    intros f. destruct (C f) as [C1 C2].
    destruct (wsum_upd (in_structure g) (fun a => f (a_path a)) a x w1 Ha A (same_obj_eq ops)) as [E _].
    cbn [fst snd]. rewrite E, C1, C2, !map_app, !Qcsum_app. cbn [map]. rewrite !Qcsum_cons, H1, H2. unfold Qcsum; cbn. split; ring.
  Qed.
  Lemma winv_snd w done t a x : winv w done -> in_structure g a -> (forall f, side scb f t = 0)%Qc ->
    (forall f, side oib f t = (- (sg a * f (a_path a) * x))%Qc) -> winv (fst w, wupd a x x (snd w)) (done ++ [t]).
  Proof.
    intros (A & B & C) Ha H1 H2. destruct w as [w1 w2]; cbn [fst snd] in *.
    split; [exact A|split; [apply (wsum_upd (in_structure g) (fun _ => 0%Qc)); auto; apply same_obj_eq|]].
    intros f. destruct (C f) as [C1 C2].
    destruct (wsum_upd (in_structure g) (fun a => sg a * f (a_path a))%Qc a x w2 Ha B (same_obj_eq ops)) as [E _].
    cbn [fst snd]. rewrite E, C1, C2, !map_app, !Qcsum_app. cbn [map]. rewrite !Qcsum_cons, H1, H2. unfold Qcsum; cbn. split; ring.
  Qed.

  Lemma income_get o x : get_account_o g o = Ok x -> income_account g o =
    match x with Some a => atype_eqb (a_type a) Revenue || atype_eqb (a_type a) Expense | None => false end.
  Proof. destruct o as [s|]; cbn; [|discriminate]. intros ->. destruct x; reflexivity. Qed.

  Lemma ye_step_inv w done t w' : winv w done -> simple_entries g [t] ->
    ye_step g (account_descendants sa) (account_descendants co) w t = Ok w' -> winv w' (done ++ [t]).
  Proof.
    intros I S. destruct (S t (or_introl eq_refl)) as ((sd & ad & Ed & Gd) & (sc & ac & Ec & Gc) & One). clear S.
    unfold ye_step. rewrite Ec, Ed. cbn [get_account_o]. rewrite Gc, Gd. cbn [bind].
    destruct (g_sound _ _ Gc) as [Sc Pc]. destruct (g_sound _ _ Gd) as [Sd Pd].
    assert (Xc : scb (tx_cr t) = in_accs (Some ac) (account_descendants sa) || in_accs (Some ac) (account_descendants co)).
    { unfold scb. rewrite Ec. cbn [get_account_o]. rewrite Gc. reflexivity. }
    assert (Xd : scb (tx_dt t) = in_accs (Some ad) (account_descendants sa) || in_accs (Some ad) (account_descendants co)).
    { unfold scb. rewrite Ed. cbn [get_account_o]. rewrite Gd. reflexivity. }
    assert (Ic : income_account g (tx_cr t) = atype_eqb (a_type ac) Revenue || atype_eqb (a_type ac) Expense).
    { rewrite Ec. apply (income_get (Some sc) (Some ac)). exact Gc. }
    assert (Id : income_account g (tx_dt t) = atype_eqb (a_type ad) Revenue || atype_eqb (a_type ad) Expense).
    { rewrite Ed. apply (income_get (Some sd) (Some ad)). exact Gd. }
    pose proof (scb_income (tx_cr t)) as Ic'. pose proof (scb_income (tx_dt t)) as Id'.
    assert (Sc' : str_of (tx_cr t) = a_path ac) by (rewrite Ec; auto).
    assert (Sd' : str_of (tx_dt t) = a_path ad) by (rewrite Ed; auto).
    unfold is_type, type_of. cbn [bind].
    destruct (in_accs (Some ac) (account_descendants sa)) eqn:B1.
    { cbn [orb] in Xc. rewrite (Ic' Xc) in One. destruct One as [One|One]; [|discriminate].
      assert (Nd : scb (tx_dt t) = false) by (destruct (scb (tx_dt t)); auto; rewrite Id' in One by auto; discriminate).
      intros H; inversion H; subst w'. apply winv_fst; auto; intros f; unfold side, oib; rewrite ?Xc, ?(Ic' Xc), ?One, ?Nd, ?Sc'; cbn [negb andb]; ring. }
    destruct (in_accs (Some ad) (account_descendants sa)) eqn:B2.
    { cbn [orb] in Xd. rewrite (Id' Xd) in One. destruct One as [One|One]; [discriminate|].
      assert (Nd : scb (tx_cr t) = false) by (destruct (scb (tx_cr t)); auto; rewrite Ic' in One by auto; discriminate).
      intros H; inversion H; subst w'. apply winv_fst; auto; intros f; unfold side, oib; rewrite ?Xd, ?(Id' Xd), ?One, ?Nd, ?Sd'; cbn [negb andb]; ring. }
    destruct (in_accs (Some ac) (account_descendants co)) eqn:B3.
    { cbn [orb] in Xc. rewrite (Ic' Xc) in One. destruct One as [One|One]; [|discriminate].
      assert (Nd : scb (tx_dt t) = false) by (destruct (scb (tx_dt t)); auto; rewrite Id' in One by auto; discriminate).
      intros H; inversion H; subst w'. apply winv_fst; auto; intros f; unfold side, oib; rewrite ?Xc, ?(Ic' Xc), ?One, ?Nd, ?Sc'; cbn [negb andb]; ring. }
    destruct (in_accs (Some ad) (account_descendants co)) eqn:B4.
    { cbn [orb] in Xd. rewrite (Id' Xd) in One. destruct One as [One|One]; [discriminate|].
      assert (Nd : scb (tx_cr t) = false) by (destruct (scb (tx_cr t)); auto; rewrite Ic' in One by auto; discriminate).
      intros H; inversion H; subst w'. apply winv_fst; auto; intros f; unfold side, oib; rewrite ?Xd, ?(Id' Xd), ?One, ?Nd, ?Sd'; cbn [negb andb]; ring. }
    cbn [orb] in Xc, Xd. clear Ic' Id'.
    assert (Z1 : forall f, side scb f t = 0%Qc) by (intros f; unfold side; rewrite Xc, Xd; ring).
    assert (Z2 : forall f, side oib f t = ((if income_account g (tx_cr t) then f (a_path ac) * tx_amount t else 0) -
       (if income_account g (tx_dt t) then f (a_path ad) * tx_amount t else 0))%Qc).
    { intros f. unfold side, oib. rewrite Xc, Xd, Sc', Sd'. cbn [negb]. rewrite !andb_true_r. reflexivity. }
    rewrite Ic, Id in One.
    destruct (atype_eqb (a_type ac) Revenue) eqn:T1.
    { cbn [orb] in One. destruct One as [One|One]; [|discriminate]. rewrite One in Id.
      intros H; inversion H; subst w'. apply winv_snd; auto. intros f. rewrite Z2, Ic, Id. cbn [orb]. unfold sg.
      replace (atype_eqb (a_type ac) Expense) with false by (destruct (a_type ac); auto; discriminate). ring. }
    destruct (atype_eqb (a_type ad) Revenue) eqn:T2.
    { cbn [orb] in One, Ic, Id. destruct One as [One|One]; [discriminate|]. rewrite One in Ic.
      destruct (whas ad (snd w)); [|discriminate].
      intros H; inversion H; subst w'. apply winv_snd; auto. intros f. rewrite Z2, Ic, Id. unfold sg.
      replace (atype_eqb (a_type ad) Expense) with false by (destruct (a_type ad); auto; discriminate). ring. }
    cbn [orb] in One, Ic, Id.
    destruct (atype_eqb (a_type ac) Expense) eqn:T3.
    { destruct One as [One|One]; [|discriminate]. rewrite One in Id.
      intros H; inversion H; subst w'. apply winv_snd; auto. intros f. rewrite Z2, Ic, Id. unfold sg. rewrite T3. ring. }
    destruct (atype_eqb (a_type ad) Expense) eqn:T4.
    { intros H; inversion H; subst w'. apply winv_snd; auto. intros f. rewrite Z2, Ic, Id. unfold sg. rewrite T4. ring. }
    intros H; inversion H; subst w'. apply winv_keep; auto. intros f. rewrite Z2, Ic, Id. ring.
  Qed.

  Lemma ye_fold_inv year : forall w done w', winv w done -> simple_entries g year ->
    foldM (ye_step g (account_descendants sa) (account_descendants co)) year w = Ok w' -> winv w' (done ++ year).
  Proof.
    induction year as [|t year IH]; intros w done w' I S; cbn [foldM].
    - intros H; inversion H; subst. rewrite app_nil_r. auto.
    - destruct (ye_step _ _ _ w t) as [w1|] eqn:E; cbn [bind]; [|discriminate]. intros H.
      apply (IH w1 (done ++ [t])%list) in H.
      + rewrite <- app_assoc in H. exact H.
      + eapply ye_step_inv; eauto. intros x [<-|[]]. apply S. left; auto.
      + intros x Hx. apply S. right; auto.
  Qed.
End Year.

(** ** the whole closing *)
Lemma close_year_parts g path txs ys ye cl : close_year g path txs ys ye = Ok cl ->
  exists sa co gp is_ re w,
    deref g id_sales = Some sa /\ deref g id_cos = Some co /\ deref g id_gross_profit = Some gp /\
    deref g id_inc_sum = Some is_ /\ deref g id_ret_earnings = Some re /\
    foldM (ye_step g (account_descendants sa) (account_descendants co)) (of_year ys ye txs) ([], []) = Ok w /\
    cl = (ye_gross_profit path (a_path gp) ye (fst w) ++
          ye_income_summary path (a_path is_) ye (snd w) ++
          ye_settle_gross path (a_path gp) (a_path is_) ye (ye_gross_profit_sum (fst w)) ++
          ye_retained path (a_path is_) (a_path re) ye (ye_income_summary_amount (ye_gross_profit_sum (fst w)) (snd w)))%list.
Proof.
  unfold close_year. destruct (deref g id_sales) as [sa|], (deref g id_cos) as [co|], (deref g id_gross_profit) as [gp|],
    (deref g id_inc_sum) as [is_|], (deref g id_ret_earnings) as [re|]; try discriminate.
  match goal with |- context [foldM ?f txs []] => destruct (foldM f txs []) as [year|] eqn:Ey end; cbn [bind]; [|discriminate].
  destruct (foldM _ year _) as [w|] eqn:Ew; cbn [bind]; [|discriminate].
  intros H; inversion H; subst cl. exists sa, co, gp, is_, re, w. repeat split; auto.
  assert (G : forall l acc r, foldM (fun acc t => do b <- py_between (PDateTime ys) (tx_date t) (PDateTime ye); Ok (if b : bool then acc ++ [t] else acc)%list) l acc = Ok r ->
     r = (acc ++ of_year ys ye l)%list).
  { clear. induction l as [|t l IH]; intros acc r; cbn [foldM of_year filter].
    - intros H; inversion H. rewrite app_nil_r. auto.
    - destruct (py_between _ _ _) as [b|] eqn:E; cbn [bind]; [|discriminate]. apply py_between_ok in E. rewrite <- E.
      intros H. apply IH in H. rewrite H. destruct b; [rewrite <- app_assoc|]; reflexivity. }
  apply G in Ey. cbn in Ey. rewrite <- Ey. exact Ew.
Qed.

Lemma trading_scb ops sa co o : deref (built ops) id_sales = Some sa -> deref (built ops) id_cos = Some co ->
  trading (built ops) o = scb ops sa co o.
Proof.
  intros A B. unfold trading, scb. destruct o as [s|]; [|reflexivity]. cbn [get_account_o].
  destruct (get_account (built ops) s) as [[a|]|]; auto. rewrite A, B. reflexivity.
Qed.
Lemma trading_spec ops s sa co : forallb op_names_ok ops = true ->
  deref (built ops) id_sales = Some sa -> deref (built ops) id_cos = Some co ->
  (trading (built ops) (Some s) = true <-> trading_account (built ops) s).
Proof. intros H A B. rewrite (trading_scb ops sa co) by auto. apply scb_trading; auto. Qed.

Lemma side_sum (cls : option string -> bool) f l :
  Qcsum (map (side cls f) l) =
  (Qcsum (map (fun t => f (str_of (tx_cr t)) * tx_amount t)%Qc (filter (fun t => cls (tx_cr t)) l)) -
   Qcsum (map (fun t => f (str_of (tx_dt t)) * tx_amount t)%Qc (filter (fun t => cls (tx_dt t)) l)))%Qc.
Proof.
  induction l as [|t l IH]; cbn [map filter]; [unfold Qcsum; cbn; ring|]. rewrite Qcsum_cons, IH. unfold side.
  destruct (cls (tx_cr t)), (cls (tx_dt t)); cbn [map]; rewrite ?Qcsum_cons; ring.
Qed.

Lemma side_ind (cls : option string -> bool) s l : (forall t, In t l -> (exists x, tx_cr t = Some x) /\ (exists x, tx_dt t = Some x)) ->
  Qcsum (map (side cls (fun x => ind x s)) l) = if cls (Some s) then net_credit l s else 0%Qc.
Proof.
  induction l as [|t l IH]; intros H; cbn [map].
  - rewrite net_credit_nil. destruct (cls _); reflexivity.
  - rewrite Qcsum_cons, IH by (intros x Hx; apply H; right; auto). rewrite net_credit_cons.
    destruct (H t (or_introl eq_refl)) as ((x & Ex) & (y & Ey)). unfold side, ind. rewrite Ex, Ey. cbn [is_acc str_of].
    destruct (x =? s)%string eqn:E1, (y =? s)%string eqn:E2;
      try (apply String.eqb_eq in E1; subst x); try (apply String.eqb_eq in E2; subst y);
      destruct (cls (Some s)); try destruct (cls (Some x)); try destruct (cls (Some y)); ring.
Qed.

Lemma simple_some g l : simple_entries g l -> forall t, In t l -> (exists x, tx_cr t = Some x) /\ (exists x, tx_dt t = Some x).
Proof. intros S t Ht. destruct (S t Ht) as ((x & a & -> & _) & (y & b & -> & _) & _). eauto. Qed.

Lemma map_one_mul (f : tx -> option string) l : map (fun t => ((fun _ : string => 1) (str_of (f t)) * tx_amount t)%Qc) l = map tx_amount l.
Proof. apply map_ext. intros t. ring. Qed.

Theorem closing_exact ops path txs ys ye cl s :
  forallb op_names_ok ops = true -> close_year (built ops) path txs ys ye = Ok cl ->
  simple_entries (built ops) (of_year ys ye txs) ->
  exists gp is_ re, deref (built ops) id_gross_profit = Some gp /\ deref (built ops) id_inc_sum = Some is_ /\
    deref (built ops) id_ret_earnings = Some re /\
    let year := of_year ys ye txs in
    let N := income_net_credit (built ops) year in
    let G := gross_net_credit (built ops) year in
    net_credit cl s =
      ((if trading (built ops) (Some s) then net_credit year s
        else if income_account (built ops) (Some s) then - net_credit year s else 0)
       - at_account (a_path gp) s (G + G) + at_account (a_path is_) s (N - qabs N) + at_account (a_path re) s (qabs N))%Qc.
Proof.
  intros Hops H S. destruct (close_year_parts _ _ _ _ _ _ H) as (sa & co & gp & is_ & re & w & Dsa & Dco & Dgp & Dis & Dre & Ew & ->).
  exists gp, is_, re. split; [exact Dgp|]. split; [exact Dis|]. split; [exact Dre|].
  assert (W0 : winv ops sa co ([], []) []).
  { split; [constructor|]. split; [constructor|]. intros f. split; reflexivity. }
  pose proof (ye_fold_inv ops Hops sa co Dsa Dco _ _ _ _ W0 S Ew) as (_ & _ & W). cbn [app] in W.
  set (year := of_year ys ye txs) in *.
  assert (EG : wsum (fun _ => 1%Qc) (fst w) = gross_net_credit (built ops) year).
  { destruct (W (fun _ => 1%Qc)) as [E _]. rewrite E, side_sum. unfold gross_net_credit.
    rewrite (map_ext (fun t => 1 * tx_amount t)%Qc tx_amount), (map_ext (fun t => 1 * tx_amount t)%Qc tx_amount) by (intros; ring).
    rewrite (filter_ext (fun t => trading (built ops) (tx_cr t)) (fun t => scb ops sa co (tx_cr t))) by (intros t; apply trading_scb; auto).
    rewrite (filter_ext (fun t => trading (built ops) (tx_dt t)) (fun t => scb ops sa co (tx_dt t))) by (intros t; apply trading_scb; auto).
    reflexivity. }
  assert (EN : (wsum (fun _ => 1%Qc) (fst w) - wsum sg (snd w))%Qc = income_net_credit (built ops) year).
  { destruct (W (fun _ => 1%Qc)) as [E1 E2]. rewrite E1.
    replace (wsum sg (snd w)) with (wsum (fun a => sg a * 1)%Qc (snd w)).
    2: { unfold wsum. f_equal. apply map_ext. intros [a v]. cbn. ring. }
    rewrite E2. unfold income_net_credit. clear - Hops Dsa Dco. induction year as [|t l IH]; cbn [map filter]; [reflexivity|].
    rewrite !Qcsum_cons.
    transitivity (side (scb ops sa co) (fun _ => 1%Qc) t + side (oib ops sa co) (fun _ => 1%Qc) t +
      (Qcsum (map (side (scb ops sa co) (fun _ : string => 1%Qc)) l) - - Qcsum (map (side (oib ops sa co) (fun _ : string => 1%Qc)) l)))%Qc; [ring|].
    rewrite IH. unfold side, oib.
    pose proof (scb_income ops Hops sa co Dsa Dco (tx_cr t)) as A1. pose proof (scb_income ops Hops sa co Dsa Dco (tx_dt t)) as A2.
    fold (built ops) in *.
    destruct (scb ops sa co (tx_cr t)); [rewrite (A1 eq_refl)|]; (destruct (scb ops sa co (tx_dt t)); [rewrite (A2 eq_refl)|]);
      cbn [negb andb]; rewrite ?andb_true_r, ?andb_false_r;
      destruct (income_account (built ops) (tx_cr t)); destruct (income_account (built ops) (tx_dt t)); cbn [map]; rewrite ?Qcsum_cons; try ring. }
  destruct (W (fun x => ind x s)) as [E1 E2].
  rewrite !net_credit_app, net_gross, net_summary, net_settle, net_retained, gross_sum, summary_amount, E1, E2.
  rewrite (side_ind _ s year (simple_some _ _ S)), (side_ind _ s year (simple_some _ _ S)).
  rewrite EN, EG. cbn zeta.
  assert (E3 : wsum sg (snd w) = (gross_net_credit (built ops) year - income_net_credit (built ops) year)%Qc) by (rewrite <- EN, EG; ring).
  rewrite E3, (trading_scb ops sa co) by auto. unfold oib, at_account, ind.
  pose proof (scb_income ops Hops sa co Dsa Dco (Some s)) as A.
  destruct (scb ops sa co (Some s)); [rewrite (A eq_refl)|]; cbn [negb andb]; rewrite ?andb_true_r;
    destruct (income_account (built ops) (Some s)); destruct (a_path gp =? s)%string, (a_path is_ =? s)%string, (a_path re =? s)%string; ring.
Qed.

Lemma path_type ops a : forallb op_names_ok ops = true -> names_distinct (built ops) -> in_structure (built ops) a ->
  get_account (built ops) (a_path a) = Ok (Some a).
Proof. apply lookup_found. Qed.

(** retained earnings receives the absolute value of the net income *)
Theorem retained_exact ops path txs ys ye cl re :
  forallb op_names_ok ops = true -> names_distinct (built ops) -> close_year (built ops) path txs ys ye = Ok cl ->
  simple_entries (built ops) (of_year ys ye txs) -> deref (built ops) id_ret_earnings = Some re ->
  net_credit cl (a_path re) = qabs (income_net_credit (built ops) (of_year ys ye txs)).
Proof.
  intros Hops ND H S Dre. destruct (closing_exact _ _ _ _ _ _ (a_path re) Hops H S) as (gp & is_ & re' & Dgp & Dis & Dre' & E).
  rewrite Dre in Dre'. inversion Dre'; subst re'. cbn zeta in E. rewrite E. clear E.
  pose proof (path_type ops re Hops ND (proj1 (deref_in _ _ _ Dre))) as Gre. pose proof (re_type _ _ Dre) as Tre.
  assert (I : income_account (built ops) (Some (a_path re)) = false) by (unfold income_account; rewrite Gre, Tre; reflexivity).
  assert (T : trading (built ops) (Some (a_path re)) = false).
  { destruct (trading _ _) eqn:T; auto. destruct (close_year_parts _ _ _ _ _ _ H) as (sa & co & _ & _ & _ & _ & Dsa & Dco & _).
    rewrite (trading_scb ops sa co) in T by auto. apply scb_income in T; auto. fold (built ops) in T. congruence. }
  rewrite I, T. unfold at_account. rewrite String.eqb_refl.
  assert (Ngp : (a_path gp =? a_path re)%string = false).
  { apply String.eqb_neq. intros X. pose proof (path_type ops gp Hops ND (proj1 (deref_in _ _ _ Dgp))) as Y. rewrite X, Gre in Y.
    inversion Y; subst. pose proof (gp_type _ _ Dgp). congruence. }
  assert (Nis : (a_path is_ =? a_path re)%string = false).
  { apply String.eqb_neq. intros X. pose proof (path_type ops is_ Hops ND (proj1 (deref_in _ _ _ Dis))) as Y. rewrite X, Gre in Y.
    inversion Y; subst. pose proof (is_type_ _ _ Dis). congruence. }
  rewrite Ngp, Nis. ring.
Qed.

(** income statement accounts outside Sales/..., Cost of Sales/... and the two
    clearing accounts are emptied *)
Theorem income_emptied ops path txs ys ye cl s :
  forallb op_names_ok ops = true -> names_distinct (built ops) -> close_year (built ops) path txs ys ye = Ok cl ->
  simple_entries (built ops) (of_year ys ye txs) ->
  income_account (built ops) (Some s) = true -> ~ trading_account (built ops) s ->
  (forall gp, deref (built ops) id_gross_profit = Some gp -> s <> a_path gp \/ gross_net_credit (built ops) (of_year ys ye txs) = 0%Qc) ->
  (forall is_, deref (built ops) id_inc_sum = Some is_ -> s <> a_path is_ \/ (0 <= income_net_credit (built ops) (of_year ys ye txs))%Qc) ->
  net_credit (of_year ys ye txs ++ cl) s = 0%Qc.
Proof.
  intros Hops ND H S I T Hgp His. destruct (closing_exact _ _ _ _ _ _ s Hops H S) as (gp & is_ & re & Dgp & Dis & Dre & E).
  cbn zeta in E. rewrite net_credit_app, E.
  assert (T' : trading (built ops) (Some s) = false).
  { destruct (trading _ _) eqn:X; auto. destruct (close_year_parts _ _ _ _ _ _ H) as (sa & co & _ & _ & _ & _ & Dsa & Dco & _).
    exfalso. apply T. eapply trading_spec; eauto. }
  rewrite T', I. unfold at_account.
  assert (Nre : (a_path re =? s)%string = false).
  { apply String.eqb_neq. intros X. pose proof (path_type ops re Hops ND (proj1 (deref_in _ _ _ Dre))) as Y. rewrite X in Y.
    unfold income_account in I. rewrite Y, (re_type _ _ Dre) in I. discriminate. }
  rewrite Nre.
  assert (G0 : (if (a_path gp =? s)%string then gross_net_credit (built ops) (of_year ys ye txs) + gross_net_credit (built ops) (of_year ys ye txs) else 0)%Qc = 0%Qc).
  { destruct (String.eqb_spec (a_path gp) s) as [X|X]; auto. destruct (Hgp _ Dgp) as [Y|Y]; [congruence|]. rewrite Y. ring. }
  assert (N0 : (if (a_path is_ =? s)%string then income_net_credit (built ops) (of_year ys ye txs) - qabs (income_net_credit (built ops) (of_year ys ye txs)) else 0)%Qc = 0%Qc).
  { destruct (String.eqb_spec (a_path is_) s) as [X|X]; auto. destruct (His _ Dis) as [Y|Y]; [congruence|].
    unfold qabs. destruct (qneg _) eqn:Z; [|ring]. apply qneg_spec in Z. exfalso. eapply Qclt_not_le; eauto. }
  rewrite G0, N0. ring.
Qed.

(** a trading account is doubled instead of emptied *)
Theorem trading_doubled ops path txs ys ye cl s :
  forallb op_names_ok ops = true -> close_year (built ops) path txs ys ye = Ok cl ->
  simple_entries (built ops) (of_year ys ye txs) -> trading_account (built ops) s ->
  (forall i a, In i [id_gross_profit; id_inc_sum; id_ret_earnings] -> deref (built ops) i = Some a -> a_path a <> s) ->
  net_credit (of_year ys ye txs ++ cl) s = (net_credit (of_year ys ye txs) s + net_credit (of_year ys ye txs) s)%Qc.
Proof.
  intros Hops H S T Hne. destruct (closing_exact _ _ _ _ _ _ s Hops H S) as (gp & is_ & re & Dgp & Dis & Dre & E).
  destruct (close_year_parts _ _ _ _ _ _ H) as (sa & co & _ & _ & _ & _ & Dsa & Dco & _).
  apply (trading_spec ops s sa co) in T; auto. cbn zeta in E. rewrite net_credit_app, E, T. unfold at_account.
  rewrite (proj2 (String.eqb_neq (a_path gp) s)) by (eapply Hne; [|exact Dgp]; cbn; auto).
  rewrite (proj2 (String.eqb_neq (a_path is_) s)) by (eapply Hne; [|exact Dis]; cbn; auto).
  rewrite (proj2 (String.eqb_neq (a_path re) s)) by (eapply Hne; [|exact Dre]; cbn; auto).
  ring.
Qed.

(** ** the shape of closing entries *)
Lemma wupd_keys (P : acct -> Prop) k x i d : P k -> Forall (fun kv => P (fst kv)) d -> Forall (fun kv => P (fst kv)) (wupd k x i d).
Proof.
  intros Pk F. induction F as [|[a v] d Pa F IH]; cbn [wupd]; [constructor; auto|]. destruct (same_obj a k); constructor; auto.
Qed.

Definition inc_key (g : gls) (a : acct) : Prop := in_structure g a /\ (a_type a = Revenue \/ a_type a = Expense).

Lemma ye_step_keys ops sa co w t w' : forallb op_names_ok ops = true ->
  deref (built ops) id_sales = Some sa -> deref (built ops) id_cos = Some co ->
  Forall (fun kv => inc_key (built ops) (fst kv)) (fst w) -> Forall (fun kv => inc_key (built ops) (fst kv)) (snd w) ->
  ye_step (built ops) (account_descendants sa) (account_descendants co) w t = Ok w' ->
  Forall (fun kv => inc_key (built ops) (fst kv)) (fst w') /\ Forall (fun kv => inc_key (built ops) (fst kv)) (snd w').
Proof.
  intros Hops Dsa Dco F1 F2. unfold ye_step.
  destruct (get_account_o (built ops) (tx_cr t)) as [oc|] eqn:Gc; cbn [bind]; [|discriminate].
  destruct (get_account_o (built ops) (tx_dt t)) as [od|] eqn:Gd; cbn [bind]; [|discriminate].
  assert (L : forall o x a, get_account_o (built ops) o = Ok x -> x = Some a -> in_structure (built ops) a).
  { intros o x a E ->. destruct o as [s|]; [|discriminate]. cbn in E. apply get_account_sound in E; [tauto|]. apply coh_built; auto. }
  assert (K : forall x a top i, x = Some a -> in_structure (built ops) a -> deref (built ops) i = Some top ->
             (a_type top = Revenue \/ a_type top = Expense) -> in_accs x (account_descendants top) = true -> inc_key (built ops) a).
  { intros x a top i -> Ha D Ty B. split; auto. apply (in_accs_below ops top i a D Ha) in B. rewrite (top_below_type ops Hops top i a D B). auto. }
  pose proof (sales_type _ _ Dsa) as Ts. pose proof (cos_type _ _ Dco) as Tc.
  destruct (in_accs oc (account_descendants sa)) eqn:B1.
  { intros H; inversion H; subst w'. destruct oc as [a|]; [|discriminate]. cbn [fst snd]. split; auto. apply wupd_keys; auto. apply (K (Some a) a sa id_sales); auto; apply (L _ _ _ Gc eq_refl). }
  destruct (in_accs od (account_descendants sa)) eqn:B2.
  { intros H; inversion H; subst w'. destruct od as [a|]; [|discriminate]. cbn [fst snd]. split; auto. apply wupd_keys; auto. apply (K (Some a) a sa id_sales); auto; apply (L _ _ _ Gd eq_refl). }
  destruct (in_accs oc (account_descendants co)) eqn:B3.
  { intros H; inversion H; subst w'. destruct oc as [a|]; [|discriminate]. cbn [fst snd]. split; auto. apply wupd_keys; auto. apply (K (Some a) a co id_cos); auto; apply (L _ _ _ Gc eq_refl). }
  destruct (in_accs od (account_descendants co)) eqn:B4.
  { intros H; inversion H; subst w'. destruct od as [a|]; [|discriminate]. cbn [fst snd]. split; auto. apply wupd_keys; auto. apply (K (Some a) a co id_cos); auto; apply (L _ _ _ Gd eq_refl). }
  destruct oc as [ac|]; cbn [is_type type_of bind]; [|discriminate].
  pose proof (L _ _ ac Gc eq_refl) as Sc.
  destruct (atype_eqb (a_type ac) Revenue) eqn:T1.
  { intros H; inversion H; subst w'. cbn [fst snd]. split; auto. apply wupd_keys; auto. split; auto. left. apply atype_eqb_eq; auto. }
  destruct od as [ad|]; cbn [is_type type_of bind]; [|discriminate].
  pose proof (L _ _ ad Gd eq_refl) as Sd.
  destruct (atype_eqb (a_type ad) Revenue) eqn:T2.
  { match goal with |- context [whas ?x ?y] => destruct (whas x y) end; intros H; [|discriminate H]. inversion H; subst w'. cbn [fst snd]. split; auto. apply wupd_keys; auto. split; auto. left. apply atype_eqb_eq; auto. }
  destruct (atype_eqb (a_type ac) Expense) eqn:T3.
  { intros H; inversion H; subst w'. cbn [fst snd]. split; auto. apply wupd_keys; auto. split; auto. right. apply atype_eqb_eq; auto. }
  destruct (atype_eqb (a_type ad) Expense) eqn:T4.
  { intros H; inversion H; subst w'. cbn [fst snd]. split; auto. apply wupd_keys; auto. split; auto. right. apply atype_eqb_eq; auto. }
  intros H; inversion H; subst w'. auto.
Qed.

Lemma ye_fold_keys ops sa co : forallb op_names_ok ops = true ->
  deref (built ops) id_sales = Some sa -> deref (built ops) id_cos = Some co -> forall year w w',
  Forall (fun kv => inc_key (built ops) (fst kv)) (fst w) -> Forall (fun kv => inc_key (built ops) (fst kv)) (snd w) ->
  foldM (ye_step (built ops) (account_descendants sa) (account_descendants co)) year w = Ok w' ->
  Forall (fun kv => inc_key (built ops) (fst kv)) (fst w') /\ Forall (fun kv => inc_key (built ops) (fst kv)) (snd w').
Proof.
  intros Hops Dsa Dco. induction year as [|t year IH]; intros w w' F1 F2; cbn [foldM].
  - intros H; inversion H; subst. auto.
  - destruct (ye_step _ _ _ w t) as [w1|] eqn:E; cbn [bind]; [|discriminate]. intros H.
    destruct (ye_step_keys _ _ _ _ _ _ Hops Dsa Dco F1 F2 E). eapply IH; eauto.
Qed.

Theorem closing_shape ops path txs ys ye cl t :
  forallb op_names_ok ops = true -> names_distinct (built ops) -> close_year (built ops) path txs ys ye = Ok cl -> In t cl ->
  tx_closing_cr t = true /\ tx_closing_dt t = false /\ tx_date t = PDateTime ye /\ tx_source t = Some path /\
  exists d c, tx_dt t = Some d /\ tx_cr t = Some c /\
    (forall s, s = d \/ s = c -> has_type (built ops) s Revenue \/ has_type (built ops) s Expense \/
       exists re, deref (built ops) id_ret_earnings = Some re /\ s = a_path re /\ has_type (built ops) s Equity).
Proof.
  intros Hops ND H Ht. destruct (close_year_parts _ _ _ _ _ _ H) as (sa & co & gp & is_ & re & w & Dsa & Dco & Dgp & Dis & Dre & Ew & ->).
  destruct (ye_fold_keys ops sa co Hops Dsa Dco _ ([], []) _ (Forall_nil _) (Forall_nil _) Ew) as [F1 F2].
  assert (T : forall a, inc_key (built ops) a -> has_type (built ops) (a_path a) Revenue \/ has_type (built ops) (a_path a) Expense).
  { intros a [Ha [Ty|Ty]]; [left|right]; exists a; split; auto; apply lookup_found; auto. }
  assert (Tgp : has_type (built ops) (a_path gp) Revenue).
  { exists gp. split; [apply lookup_found; auto; eapply deref_in; eauto|eapply gp_type; eauto]. }
  assert (Tis : has_type (built ops) (a_path is_) Revenue).
  { exists is_. split; [apply lookup_found; auto; eapply deref_in; eauto|eapply is_type_; eauto]. }
  assert (Tre : has_type (built ops) (a_path re) Equity).
  { exists re. split; [apply lookup_found; auto; eapply deref_in; eauto|eapply re_type; eauto]. }
  assert (W : forall nm d c v, 
     (has_type (built ops) d Revenue \/ has_type (built ops) d Expense \/ d = a_path re) ->
     (has_type (built ops) c Revenue \/ has_type (built ops) c Expense \/ c = a_path re) ->
     t = closing_tx path nm ye d c v ->
  tx_closing_cr t = true /\ tx_closing_dt t = false /\ tx_date t = PDateTime ye /\ tx_source t = Some path /\
  exists d c, tx_dt t = Some d /\ tx_cr t = Some c /\
    (forall s, s = d \/ s = c -> has_type (built ops) s Revenue \/ has_type (built ops) s Expense \/
       exists re, deref (built ops) id_ret_earnings = Some re /\ s = a_path re /\ has_type (built ops) s Equity)).
  { intros nm d c v Hd Hc ->. cbn. repeat split; auto. exists d, c. repeat split; auto.
    assert (Q : forall s, has_type (built ops) s Revenue \/ has_type (built ops) s Expense \/ s = a_path re ->
      has_type (built ops) s Revenue \/ has_type (built ops) s Expense \/
       exists re, deref (built ops) id_ret_earnings = Some re /\ s = a_path re /\ has_type (built ops) s Equity).
    { intros s [A|[A|A]]; auto. right; right. exists re. subst s. auto. }
    intros s [->| ->]; auto. }
  assert (Tk : forall a, inc_key (built ops) a -> has_type (built ops) (a_path a) Revenue \/ has_type (built ops) (a_path a) Expense \/ a_path a = a_path re).
  { intros a Ha. destruct (T a Ha); auto. }
  rewrite !in_app_iff in Ht. destruct Ht as [Ht|[Ht|[Ht|Ht]]].
  - apply in_flat_map in Ht as ([a v] & Ha & Ht). rewrite Forall_forall in F1. specialize (F1 _ Ha). cbn in F1.
    destruct (qpos v); [|destruct (qneg v)]; cbn in Ht; (destruct Ht as [<-|[]] || destruct Ht); eapply W; try reflexivity; auto.
  - apply in_flat_map in Ht as ([a v] & Ha & Ht). rewrite Forall_forall in F2. specialize (F2 _ Ha). cbn in F2.
    destruct (qpos v); [|destruct (qneg v)]; destruct (atype_eqb (a_type a) Expense); cbn in Ht; (destruct Ht as [<-|[]] || destruct Ht); eapply W; try reflexivity; auto.
  - unfold ye_settle_gross in Ht. destruct (qpos _); [|destruct (qneg _)]; cbn in Ht; (destruct Ht as [<-|[]] || destruct Ht); eapply W; try reflexivity; auto.
  - unfold ye_retained in Ht. destruct (qpos _); [|destruct (qneg _)]; cbn in Ht; (destruct Ht as [<-|[]] || destruct Ht); eapply W; try reflexivity; auto.
Qed.

Theorem closing_keeps_assets ops path txs ys ye cl s :
  forallb op_names_ok ops = true -> names_distinct (built ops) -> close_year (built ops) path txs ys ye = Ok cl ->
  has_type (built ops) s Asset \/ has_type (built ops) s Liability -> ~ touched cl s.
Proof.
  intros Hops ND H A (t & Ht & Hs). destruct (closing_shape _ _ _ _ _ _ _ Hops ND H Ht) as (_ & _ & _ & _ & d & c & Ed & Ec & Q).
  assert (U : forall T T', has_type (built ops) s T -> has_type (built ops) s T' -> T = T').
  { intros T T' (a & E & <-) (b & E' & <-). congruence. }
  assert (s = d \/ s = c) as Hdc by (destruct Hs; [left|right]; congruence).
  destruct (Q s Hdc) as [B|[B|(re & _ & _ & B)]]; destruct A as [A|A]; pose proof (U _ _ A B); discriminate.
Qed.
