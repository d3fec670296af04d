From Verif Require Import Prelude M_Dates M_Accounts M_Ledger Spec_Accounts Spec_Ledger P_Accounts P_Ledger.
From Coq Require Import Permutation.
Open Scope string_scope.

Definition tyb (g : gls) (o : option string) (T : atype) : bool :=
  match account_type_of g o with Ok t => atype_eqb t T | Err _ => false end.

Lemma atype_eqb_eq a b : atype_eqb a b = true <-> a = b.
Proof. destruct a, b; cbn; split; intros; congruence. Qed.

Lemma tyb_has_type g s T : tyb g (Some s) T = true <-> has_type g s T.
Proof.
  unfold tyb, has_type, account_type_of, get_account_o. destruct (get_account g s) as [[a|]|e]; cbn.
  - rewrite atype_eqb_eq. split; [intros; exists a; auto|intros (b & E & H); congruence].
  - split; [discriminate|intros (b & E & H); congruence].
  - split; [discriminate|intros (b & E & H); congruence].
Qed.

Lemma account_type_of_ok g o T : account_type_of g o = Ok T -> exists_account g o /\ tyb g o T = true.
Proof.
  intros H. unfold tyb. rewrite H. split; [|apply atype_eqb_eq; auto].
  unfold account_type_of, get_account_o in H. destruct o as [s|]; cbn in H; [|discriminate].
  destruct (get_account g s) as [[a|]|] eqn:E; cbn in H; try discriminate. exists s, a; auto.
Qed.

Lemma exists_account_type g o : exists_account g o -> exists T, account_type_of g o = Ok T.
Proof. intros (s & a & -> & E). unfold account_type_of; cbn. rewrite E. cbn. eauto. Qed.

Lemma income_account_tyb g o : income_account g o = tyb g o Revenue || tyb g o Expense.
Proof.
  unfold income_account, tyb, account_type_of. destruct o as [s|]; cbn; auto.
  destruct (get_account g s) as [[a|]|]; cbn; auto.
Qed.

(** ** Postings of one account type as dictionary operations *)
Section Gen.
  Variables (T : atype) (g : gls) (fc fd : Qc -> Qc * Qc) (c : Qc).
  Hypothesis Hfc : forall v, fst (fc v) = (c * v)%Qc.
  Hypothesis Hfd : forall v, fst (fd v) = (- c * v)%Qc.

  Definition gops (t : tx) : list op :=
    ((if tyb g (tx_cr t) T then [(str_of (tx_cr t), fc (tx_amount t))] else []) ++
     (if tyb g (tx_dt t) T then [(str_of (tx_dt t), fd (tx_amount t))] else []))%list.
  Definition posts_at (k : string) (t : tx) : list op :=
    ((if is_acc (tx_cr t) k then [(k, fc (tx_amount t))] else []) ++
     (if is_acc (tx_dt t) k then [(k, fd (tx_amount t))] else []))%list.

  Lemma ops_at_side k o (f : Qc -> Qc * Qc) v :
    ops_at k (if tyb g o T then [(str_of o, f v)] else []) =
    if tyb g (Some k) T then (if is_acc o k then [(k, f v)] else []) else [].
  Proof.
    destruct o as [s|]; cbn [str_of is_acc].
    - destruct (s =? k) eqn:E.
      + apply String.eqb_eq in E. subst s. destruct (tyb g (Some k) T); cbn; rewrite ?String.eqb_refl; reflexivity.
      + destruct (tyb g (Some s) T); cbn; rewrite ?E; destruct (tyb g (Some k) T); reflexivity.
    - cbn. destruct (tyb g (Some k) T); reflexivity.
  Qed.

  Lemma ops_at_app k (a b : list op) : ops_at k (a ++ b) = (ops_at k a ++ ops_at k b)%list.
  Proof. unfold ops_at. apply filter_app. Qed.

  Lemma ops_at_gops k ts : ops_at k (flat_map gops ts) = if tyb g (Some k) T then flat_map (posts_at k) ts else [].
  Proof.
    induction ts as [|t ts IH]; cbn [flat_map].
    - destruct (tyb g (Some k) T); reflexivity.
    - rewrite ops_at_app, IH. unfold gops at 1. rewrite ops_at_app, !ops_at_side.
      destruct (tyb g (Some k) T); reflexivity.
  Qed.

  Lemma sum_delta_app l l' : sum_delta (l ++ l') = (sum_delta l + sum_delta l')%Qc.
  Proof. unfold sum_delta. rewrite map_app. apply Qcsum_app. Qed.

  Lemma debits_cons t ts k : debits (t :: ts) k = ((if is_acc (tx_dt t) k then tx_amount t else 0) + debits ts k)%Qc.
  Proof. unfold debits; cbn [filter]. destruct (is_acc (tx_dt t) k); cbn [map]; rewrite ?Qcsum_cons; ring. Qed.
  Lemma credits_cons t ts k : credits (t :: ts) k = ((if is_acc (tx_cr t) k then tx_amount t else 0) + credits ts k)%Qc.
  Proof. unfold credits; cbn [filter]. destruct (is_acc (tx_cr t) k); cbn [map]; rewrite ?Qcsum_cons; ring. Qed.

  Lemma sum_posts_at k ts : sum_delta (flat_map (posts_at k) ts) = (c * (credits ts k - debits ts k))%Qc.
  Proof.
    induction ts as [|t ts IH]; cbn [flat_map].
    - unfold sum_delta, credits, debits; cbn. change (Qcsum []) with 0%Qc. ring.
    - rewrite sum_delta_app, IH, debits_cons, credits_cons. unfold posts_at, sum_delta.
      destruct (is_acc (tx_cr t) k), (is_acc (tx_dt t) k); cbn; rewrite ?Qcsum_cons, ?Hfc, ?Hfd; change (Qcsum []) with 0%Qc; ring.
  Qed.

  Lemma posts_at_first k ts :
    match first_posting k ts with
    | None => flat_map (posts_at k) ts = []
    | Some (b, v) => exists r, flat_map (posts_at k) ts = (k, if b then fc v else fd v) :: r
    end.
  Proof.
    induction ts as [|t ts IH]; cbn [first_posting flat_map]; auto.
    assert (E : posts_at k t = ((if is_acc (tx_cr t) k then [(k, fc (tx_amount t))] else []) ++
     (if is_acc (tx_dt t) k then [(k, fd (tx_amount t))] else []))%list) by reflexivity.
    rewrite E. destruct (is_acc (tx_cr t) k); [eexists; reflexivity|]. destruct (is_acc (tx_dt t) k); [eexists; reflexivity|].
    exact IH.
  Qed.

  Definition correction (k : string) (ts : list tx) : Qc :=
    match first_posting k ts with
    | None => 0
    | Some (b, v) => let p := if b then fc v else fd v in snd p - fst p
    end%Qc.

  Lemma line_value k ts :
    dict_get k (run_ops (flat_map gops ts) []) =
    if tyb g (Some k) T then
      match first_posting k ts with
      | None => None
      | Some _ => Some (c * (credits ts k - debits ts k) + correction k ts)%Qc
      end
    else None.
  Proof.
    rewrite dict_get_run. cbn [dict_get]. rewrite ops_at_gops. destruct (tyb g (Some k) T); auto.
    rewrite <- sum_posts_at. unfold correction.
    pose proof (posts_at_first k ts) as P. destruct (first_posting k ts) as [[b v]|].
    - destruct P as [r ->]. f_equal. unfold sum_delta. cbn. rewrite Qcsum_cons. ring.
    - rewrite P. reflexivity.
  Qed.
End Gen.

Lemma first_posting_touched k ts : first_posting k ts <> None <-> touched ts k.
Proof.
  unfold touched. induction ts as [|t ts IH]; cbn.
  - split; [congruence|intros (t & [] & _)].
  - destruct (is_acc (tx_cr t) k) eqn:Ec; [|destruct (is_acc (tx_dt t) k) eqn:Ed].
    + split; [intros _|discriminate]. exists t. split; auto. right. unfold is_acc in Ec. destruct (tx_cr t); [|discriminate].
      apply String.eqb_eq in Ec. congruence.
    + split; [intros _|discriminate]. exists t. split; auto. left. unfold is_acc in Ed. destruct (tx_dt t); [|discriminate].
      apply String.eqb_eq in Ed. congruence.
    + rewrite IH. split.
      * intros (x & Hx & H). exists x; auto.
      * intros (x & [<-|Hx] & H); [|exists x; auto]. unfold is_acc in *.
        destruct H as [E|E]; rewrite E in *; rewrite String.eqb_refl in *; discriminate.
Qed.

(** ** Balance sheet *)
Definition bfc (T : atype) (v : Qc) : Qc * Qc := match T with Asset => (- v, - v)%Qc | _ => (v, v) end.
Definition bfd (T : atype) (v : Qc) : Qc * Qc := match T with Asset => (v, v) | _ => (- v, - v)%Qc end.

Lemma run_ops_app o1 o2 d : run_ops (o1 ++ o2) d = run_ops o2 (run_ops o1 d).
Proof. unfold run_ops. apply fold_left_app. Qed.

Definition bs_ops (g : gls) (T : atype) (ts : list tx) : list op := flat_map (gops T g (bfc T) (bfd T)) ts.

Lemma bs_post g t s ct dt :
  account_type_of g (tx_cr t) = Ok ct -> account_type_of g (tx_dt t) = Ok dt ->
  let s' := bs_debit dt (str_of (tx_dt t)) (tx_amount t) (bs_credit ct (str_of (tx_cr t)) (tx_amount t) s) in
  bs_assets s' = run_ops (gops Asset g (bfc Asset) (bfd Asset) t) (bs_assets s) /\
  bs_liab s' = run_ops (gops Liability g (bfc Liability) (bfd Liability) t) (bs_liab s) /\
  bs_equity s' = run_ops (gops Equity g (bfc Equity) (bfd Equity) t) (bs_equity s).
Proof.
  intros Ec Ed. unfold gops, tyb. rewrite Ec, Ed. destruct ct, dt; cbn; auto.
Qed.

Lemma bs_fold g fin l s s' : foldM (bs_step g fin) l s = Ok s' ->
  bs_assets s' = run_ops (bs_ops g Asset (upto fin l)) (bs_assets s) /\
  bs_liab s' = run_ops (bs_ops g Liability (upto fin l)) (bs_liab s) /\
  bs_equity s' = run_ops (bs_ops g Equity (upto fin l)) (bs_equity s) /\
  (forall t, In t (upto fin l) -> exists_account g (tx_dt t) /\ exists_account g (tx_cr t)) /\
  (forall t, In t l -> comparable (tx_date t) fin).
Proof.
  revert s. induction l as [|t l IH]; intros s; cbn [foldM].
  - intros H; inversion H; subst. cbn. tauto.
  - unfold bs_step at 1. destruct (py_le (tx_date t) fin) as [le|] eqn:El; cbn [bind]; [|discriminate].
    apply py_le_ok in El as [-> Hcmp]. unfold upto. cbn [filter]. destruct (py_leb (tx_date t) fin) eqn:Eb.
    + destruct (account_type_of g (tx_cr t)) as [ct|] eqn:Ec; cbn [bind]; [|discriminate].
      destruct (account_type_of g (tx_dt t)) as [dt|] eqn:Ed; cbn [bind]; [|discriminate].
      intros H. apply IH in H. destruct (bs_post g t s ct dt Ec Ed) as (B1 & B2 & B3).
      unfold bs_ops in *. cbn [flat_map]. rewrite !run_ops_app, <- B1, <- B2, <- B3.
      destruct H as (H1 & H2 & H3 & H4 & H5). repeat split; auto.
      * destruct H as [<-|H]; [apply account_type_of_ok in Ed; tauto|apply H4; auto].
      * destruct H as [<-|H]; [apply account_type_of_ok in Ec; tauto|apply H4; auto].
      * intros x [<-|Hx]; auto.
    + cbn [bind]. intros H. apply IH in H. destruct H as (H1 & H2 & H3 & H4 & H5).
      split; [exact H1|]. split; [exact H2|]. split; [exact H3|]. split; [exact H4|]. intros x [<-|Hx]; auto.
Qed.

Lemma bs_total g fin l s :
  (forall t, In t l -> comparable (tx_date t) fin) ->
  (forall t, In t (upto fin l) -> exists_account g (tx_dt t) /\ exists_account g (tx_cr t)) ->
  exists s', foldM (bs_step g fin) l s = Ok s'.
Proof.
  revert s. induction l as [|t l IH]; intros s Hc Ha; cbn [foldM]; [eauto|].
  unfold bs_step at 1. rewrite py_le_comparable by (apply Hc; cbn; auto). cbn [bind].
  unfold upto in Ha. cbn [filter] in Ha. destruct (py_leb (tx_date t) fin).
  - destruct (Ha t (or_introl eq_refl)) as [Hd Hr].
    destruct (exists_account_type _ _ Hd) as [dt ->]. destruct (exists_account_type _ _ Hr) as [ct ->]. cbn [bind].
    apply IH; intros; [apply Hc; cbn; auto|apply Ha; cbn; auto].
  - cbn [bind]. apply IH; intros; [apply Hc; cbn; auto|apply Ha; auto].
Qed.

Definition line_of (T : atype) (ts : list tx) (s : string) : Qc :=
  match T with Asset => debits ts s - credits ts s | _ => credits ts s - debits ts s end%Qc.

Lemma bs_dict g T ts k v :
  In (k, v) (run_ops (bs_ops g T ts) []) <-> has_type g k T /\ touched ts k /\ v = line_of T ts k.
Proof.
  rewrite in_dict_get by (apply nodup_run; constructor).
  unfold bs_ops. rewrite (line_value T g (bfc T) (bfd T) (match T with Asset => - (1) | _ => 1 end)%Qc)
    by (intros w; destruct T; cbn; ring).
  rewrite <- first_posting_touched, <- tyb_has_type.
  assert (Cz : forall ts, correction (bfc T) (bfd T) k ts = 0%Qc).
  { intros ts'. unfold correction. destruct (first_posting k ts') as [[b w]|]; auto. destruct T, b; cbn; ring. }
  rewrite Cz. destruct (tyb g (Some k) T); [|split; [discriminate|intros [? _]; discriminate]].
  destruct (first_posting k ts).
  - split.
    + intros E; inversion E. split; auto. split; [discriminate|]. unfold line_of. destruct T; ring.
    + intros (_ & _ & ->). f_equal. unfold line_of. destruct T; ring.
  - split; [discriminate|]. intros (_ & ? & _). congruence.
Qed.

Lemma bs_firsts_ok g T ts : firsts_ok (bs_ops g T ts) [].
Proof.
  intros k o r _ Ho.
  assert (Hin : In o (bs_ops g T ts)).
  { assert (X : In o (ops_at k (bs_ops g T ts))) by (rewrite Ho; cbn; auto). apply filter_In in X. tauto. }
  unfold bs_ops in Hin. apply in_flat_map in Hin as (t & _ & Hin). unfold gops in Hin.
  apply in_app_or in Hin. destruct (tyb g (tx_cr t) T), (tyb g (tx_dt t) T), T; cbn in Hin; intuition; subst; reflexivity.
Qed.

Lemma income_net_cons g t ts : income_net_credit g (t :: ts) =
  ((if income_account g (tx_cr t) then tx_amount t else 0) - (if income_account g (tx_dt t) then tx_amount t else 0)
   + income_net_credit g ts)%Qc.
Proof.
  unfold income_net_credit. cbn [filter].
  destruct (income_account g (tx_cr t)), (income_account g (tx_dt t)); cbn [map]; rewrite ?Qcsum_cons; ring.
Qed.

Lemma bs_equation g ts :
  (forall t, In t ts -> exists_account g (tx_dt t) /\ exists_account g (tx_cr t)) ->
  (sum_delta (bs_ops g Asset ts) - (sum_delta (bs_ops g Liability ts) + sum_delta (bs_ops g Equity ts)))%Qc
  = income_net_credit g ts.
Proof.
  induction ts as [|t ts IH]; intros H.
  - unfold sum_delta, income_net_credit, bs_ops; cbn. change (Qcsum []) with 0%Qc. ring.
  - destruct (H t (or_introl eq_refl)) as [Hd Hc].
    destruct (exists_account_type _ _ Hd) as [dt Ed]. destruct (exists_account_type _ _ Hc) as [ct Ec].
    rewrite income_net_cons, !income_account_tyb, <- IH by (intros; apply H; cbn; auto).
    unfold bs_ops. cbn [flat_map]. rewrite !sum_delta_app. unfold gops at 1 3 5, tyb. rewrite Ec, Ed.
    destruct ct, dt; cbn; unfold sum_delta; cbn; rewrite ?Qcsum_cons; change (Qcsum []) with 0%Qc; ring.
Qed.

Lemma bs_report_ok l fin sh : balance_sheet_report l fin = Ok sh ->
  exists s, foldM (bs_step (l_structure l) fin) (l_txs l) (mkbs [] [] []) = Ok s /\
    sh = mkbsheet (bs_assets s) (bs_liab s) (bs_equity s)
        (dict_sum (bs_assets s)) (dict_sum (bs_liab s)) (dict_sum (bs_equity s))
        (dict_sum (bs_liab s) + dict_sum (bs_equity s))%Qc.
Proof.
  unfold balance_sheet_report, bs_sums. destruct (foldM _ _ _) as [s|]; cbn; [|discriminate].
  intros H; inversion H. eauto.
Qed.

Theorem balance_sheet_equation l fin sh : balance_sheet_report l fin = Ok sh ->
  (sheet_total_assets sh - sheet_total_le sh)%Qc = income_net_credit (l_structure l) (upto fin (l_txs l)).
Proof.
  intros H. apply bs_report_ok in H as (s & Hf & ->). cbn.
  apply bs_fold in Hf. cbn in Hf. destruct Hf as (-> & -> & -> & Ha & _).
  rewrite !dict_sum_run by apply bs_firsts_ok. rewrite <- bs_equation by auto.
  change (dict_sum []) with 0%Qc. ring.
Qed.

Theorem balance_sheet_lines l fin sh : balance_sheet_report l fin = Ok sh ->
  let g := l_structure l in let ts := upto fin (l_txs l) in
  (forall s v, In (s, v) (sheet_assets sh) <-> has_type g s Asset /\ touched ts s /\ v = (debits ts s - credits ts s)%Qc) /\
  (forall s v, In (s, v) (sheet_liab sh) <-> has_type g s Liability /\ touched ts s /\ v = (credits ts s - debits ts s)%Qc) /\
  (forall s v, In (s, v) (sheet_equity sh) <-> has_type g s Equity /\ touched ts s /\ v = (credits ts s - debits ts s)%Qc) /\
  NoDup (keys (sheet_assets sh)) /\ NoDup (keys (sheet_liab sh)) /\ NoDup (keys (sheet_equity sh)) /\
  sheet_total_assets sh = Qcsum (map snd (sheet_assets sh)) /\
  sheet_total_liab sh = Qcsum (map snd (sheet_liab sh)) /\
  sheet_total_equity sh = Qcsum (map snd (sheet_equity sh)) /\
  sheet_total_le sh = (sheet_total_liab sh + sheet_total_equity sh)%Qc.
Proof.
  intros H g ts. apply bs_report_ok in H as (s & Hf & ->). cbn.
  apply bs_fold in Hf. cbn in Hf. destruct Hf as (-> & -> & -> & Ha & _). fold g ts in Ha |- *.
  split; [intros; apply (bs_dict g Asset)|]. split; [intros; apply (bs_dict g Liability)|].
  split; [intros; apply (bs_dict g Equity)|].
  repeat split; try (apply nodup_run; constructor).
Qed.

Theorem balance_sheet_succeeds l fin :
  (exists sh, balance_sheet_report l fin = Ok sh) <->
  (forall t, In t (l_txs l) -> comparable (tx_date t) fin) /\
  (forall t, In t (upto fin (l_txs l)) -> exists_account (l_structure l) (tx_dt t) /\ exists_account (l_structure l) (tx_cr t)).
Proof.
  split.
  - intros [sh H]. apply bs_report_ok in H as (s & Hf & _). apply bs_fold in Hf. tauto.
  - intros [H1 H2]. unfold balance_sheet_report, bs_sums.
    destruct (bs_total (l_structure l) fin (l_txs l) (mkbs [] [] []) H1 H2) as [s ->]. cbn. eauto.
Qed.

(** ** Income statement *)
Definition ifc (T : atype) (v : Qc) : Qc * Qc := match T with Revenue => (v, v) | _ => (- v, v)%Qc end.
Definition ifd (T : atype) (v : Qc) : Qc * Qc := match T with Revenue => (- v, v)%Qc | _ => (v, v) end.
Definition is_ops (g : gls) (T : atype) (ts : list tx) : list op := flat_map (gops T g (ifc T) (ifd T)) ts.

Definition unnamed_free (g : gls) : Prop := get_account g "" = Ok None.

Lemma is_post g t s ct dt : unnamed_free g ->
  account_type_of g (tx_cr t) = Ok ct -> account_type_of g (tx_dt t) = Ok dt ->
  let s1 := if negb (tx_closing_cr t) && negb (tx_closing_dt t) && not_empty (tx_cr t)
            then is_credit ct (str_of (tx_cr t)) (tx_amount t) s else s in
  let s2 := if negb (tx_closing_cr t) && negb (tx_closing_dt t) && not_empty (tx_dt t)
            then is_debit dt (str_of (tx_dt t)) (tx_amount t) s1 else s1 in
  fst s2 = run_ops (is_ops g Revenue (operating [t])) (fst s) /\
  snd s2 = run_ops (is_ops g Expense (operating [t])) (snd s).
Proof.
  intros U Ec Ed.
  assert (N : forall o T, account_type_of g o = Ok T -> not_empty o = true).
  { intros o T H. unfold account_type_of, get_account_o in H. destruct o as [n|]; [|reflexivity]. cbn.
    destruct (n =? "") eqn:E; auto. apply String.eqb_eq in E. subst n. unfold unnamed_free in U. rewrite U in H. discriminate. }
  rewrite (N _ _ Ec), (N _ _ Ed), !andb_true_r. unfold operating. cbn [filter].
  destruct (negb (tx_closing_cr t) && negb (tx_closing_dt t)); cbn [is_ops flat_map]; [|auto].
  unfold is_ops; cbn [flat_map]. rewrite !app_nil_r. unfold gops, tyb. rewrite Ec, Ed. destruct ct, dt; cbn; auto.
Qed.

Lemma selected_cons start fin path t l s :
  tx_source t = Some s ->
  selected start fin path (t :: l) =
  if starts_with s path && (py_leb start (tx_date t) && py_leb (tx_date t) fin)
  then t :: selected start fin path l else selected start fin path l.
Proof. intros E. unfold selected; cbn [filter]. rewrite E. cbn [str_of]. rewrite andb_assoc. reflexivity. Qed.

Lemma operating_cons t l : operating (t :: l) = (operating [t] ++ operating l)%list.
Proof. unfold operating; cbn. destruct (_ && _); reflexivity. Qed.

Lemma is_ops_app g T a b : is_ops g T (a ++ b) = (is_ops g T a ++ is_ops g T b)%list.
Proof. unfold is_ops. apply flat_map_app. Qed.

Lemma is_fold g start fin path l s s' : unnamed_free g -> foldM (is_step g start fin path) l s = Ok s' ->
  let ts := operating (selected start fin path l) in
  fst s' = run_ops (is_ops g Revenue ts) (fst s) /\ snd s' = run_ops (is_ops g Expense ts) (snd s) /\
  (forall t, In t (selected start fin path l) -> exists_account g (tx_dt t) /\ exists_account g (tx_cr t)).
Proof.
  intros U. revert s. induction l as [|t l IH]; intros s; cbn [foldM].
  - intros H; inversion H; subst. cbn. tauto.
  - unfold is_step at 1, source_starts. destruct (tx_source t) as [src|] eqn:Es; cbn [bind]; [|discriminate].
    rewrite (selected_cons _ _ _ _ _ _ Es).
    destruct (starts_with src path); cbn [negb andb bind].
    + destruct (py_between start (tx_date t) fin) as [b|] eqn:Eb; cbn [bind]; [|discriminate].
      apply py_between_ok in Eb. rewrite <- Eb. destruct b; cbn [negb bind].
      * destruct (account_type_of g (tx_cr t)) as [ct|] eqn:Ec; cbn [bind]; [|discriminate].
        destruct (account_type_of g (tx_dt t)) as [dt|] eqn:Ed; cbn [bind]; [|discriminate].
        intros H. apply IH in H. destruct (is_post g t s ct dt U Ec Ed) as [B1 B2].
        cbn zeta in *. rewrite operating_cons, !is_ops_app, !run_ops_app, <- B1, <- B2.
        destruct H as (H1 & H2 & H3). repeat split; auto.
        -- destruct H as [<-|H]; [apply account_type_of_ok in Ed; tauto|apply H3; auto].
        -- destruct H as [<-|H]; [apply account_type_of_ok in Ec; tauto|apply H3; auto].
      * apply IH.
    + apply IH.
Qed.

Lemma is_report_ok l start fin path r : unnamed_free (l_structure l) ->
  income_statement_report l start fin path = Ok r ->
  let g := l_structure l in let ts := operating (selected start fin path (l_txs l)) in
  exists exp, exp = run_ops (is_ops g Expense ts) [] /\
    inc_revenue r = run_ops (is_ops g Revenue ts) [] /\
    inc_cos r = filter (fun kv => is_cos (fst kv)) exp /\
    inc_expense r = filter (fun kv => negb (is_cos (fst kv))) exp /\
    inc_net r = (dict_sum (inc_revenue r) - dict_sum exp)%Qc /\
    inc_gross r = (dict_sum (inc_revenue r) - dict_sum (inc_cos r))%Qc /\
    inc_total_expenses r = (dict_sum exp - dict_sum (inc_cos r))%Qc /\
    (forall t, In t (selected start fin path (l_txs l)) -> exists_account g (tx_dt t) /\ exists_account g (tx_cr t)).
Proof.
  intros U. unfold income_statement_report, is_sums.
  destruct (foldM _ _ _) as [[inc exp]|] eqn:E; cbn [bind]; [|discriminate].
  intros H; inversion H; subst r; clear H. cbn [inc_revenue inc_cos inc_expense inc_net inc_gross inc_total_expenses fst snd].
  apply is_fold in E; auto. cbn [fst snd] in E. destruct E as (E1 & E2 & E3).
  exists exp. repeat split; auto; apply E3; auto.
Qed.

Lemma is_dict g T ts k v : T = Revenue \/ T = Expense ->
  In (k, v) (run_ops (is_ops g T ts) []) <->
  has_type g k T /\ touched ts k /\
  v = ((match T with Revenue => credits ts k - debits ts k | _ => debits ts k - credits ts k end) +
       match first_posting k ts, T with
       | Some (false, w), Revenue => w + w
       | Some (true, w), Expense => w + w
       | _, _ => 0
       end)%Qc.
Proof.
  intros HT. rewrite in_dict_get by (apply nodup_run; constructor).
  unfold is_ops. rewrite (line_value T g (ifc T) (ifd T) (match T with Revenue => 1 | _ => - (1) end)%Qc)
    by (intros w; destruct HT; subst T; cbn; ring).
  rewrite <- first_posting_touched, <- tyb_has_type.
  destruct (tyb g (Some k) T); [|split; [discriminate|intros [? _]; discriminate]].
  unfold correction. destruct (first_posting k ts) as [[b w]|].
  - split.
    + intros E; inversion E. split; auto. split; [discriminate|]. destruct HT; subst T; destruct b; cbn; ring.
    + intros (_ & _ & ->). f_equal. destruct HT; subst T; destruct b; cbn; ring.
  - split; [discriminate|]. intros (_ & ? & _). congruence.
Qed.


Lemma is_firsts_ok g T ts : T = Revenue \/ T = Expense -> normal_first g ts -> firsts_ok (is_ops g T ts) [].
Proof.
  intros HT HN k o r _ Ho. unfold is_ops in Ho. rewrite (ops_at_gops T g (ifc T) (ifd T)) in Ho.
  destruct (tyb g (Some k) T) eqn:E; [|discriminate]. apply tyb_has_type in E.
  pose proof (posts_at_first (ifc T) (ifd T) k ts) as P. destruct (HN k) as [N1 N2].
  destruct (first_posting k ts) as [[b v]|]; [|congruence].
  destruct P as [r' P]. rewrite P in Ho. inversion Ho; subst o. cbn.
  destruct HT; subst T; destruct b; cbn; auto; exfalso; [eapply N1|eapply N2]; eauto.
Qed.

Lemma is_equation g ts :
  (sum_delta (is_ops g Revenue ts) - sum_delta (is_ops g Expense ts))%Qc = income_net_credit g ts.
Proof.
  induction ts as [|t ts IH].
  - unfold sum_delta, income_net_credit, is_ops; cbn. change (Qcsum []) with 0%Qc. ring.
  - rewrite income_net_cons, !income_account_tyb, <- IH.
    unfold is_ops. cbn [flat_map]. rewrite !sum_delta_app. unfold gops at 1 3, tyb.
    destruct (account_type_of g (tx_cr t)) as [ct|]; destruct (account_type_of g (tx_dt t)) as [dt|];
    try destruct ct; try destruct dt; cbn; unfold sum_delta; cbn; rewrite ?Qcsum_cons; change (Qcsum []) with 0%Qc; ring.
Qed.

Theorem income_statement_exact_lines l start fin path r : unnamed_free (l_structure l) ->
  income_statement_report l start fin path = Ok r ->
  let g := l_structure l in let ts := operating (selected start fin path (l_txs l)) in
  (forall s v, In (s, v) (inc_revenue r) <-> has_type g s Revenue /\ touched ts s /\
     v = (credits ts s - debits ts s + match first_posting s ts with Some (false, w) => w + w | _ => 0 end)%Qc) /\
  (forall s v, In (s, v) (inc_cos r ++ inc_expense r)%list <-> has_type g s Expense /\ touched ts s /\
     v = (debits ts s - credits ts s + match first_posting s ts with Some (true, w) => w + w | _ => 0 end)%Qc) /\
  (forall s v, In (s, v) (inc_cos r) -> starts_with s "Cost of Sales" = true) /\
  (forall s v, In (s, v) (inc_expense r) -> starts_with s "Cost of Sales" = false) /\
  NoDup (keys (inc_revenue r)) /\ NoDup (keys (inc_cos r ++ inc_expense r)%list) /\
  inc_gross r = (Qcsum (map snd (inc_revenue r)) - Qcsum (map snd (inc_cos r)))%Qc /\
  inc_total_expenses r = Qcsum (map snd (inc_expense r)) /\
  inc_net r = (inc_gross r - inc_total_expenses r)%Qc.
Proof.
  intros U H g ts. destruct (is_report_ok _ _ _ _ _ U H) as (exp & Eexp & Er & Ec & Ee & En & Eg & Et & Ha). fold g in Eexp, Er; fold ts in Eexp, Er.
  assert (PS : Permutation exp (inc_cos r ++ inc_expense r)%list).
  { rewrite Ec, Ee. clear. induction exp as [|kv exp IH]; cbn; auto. destruct (is_cos (fst kv)); cbn; auto.
    apply Permutation_cons_app; auto. }
  assert (SUM : dict_sum exp = (dict_sum (inc_cos r) + dict_sum (inc_expense r))%Qc).
  { unfold dict_sum. rewrite (Qcsum_perm _ _ (Permutation_map snd PS)), map_app, Qcsum_app. reflexivity. }
  repeat apply conj.
  - intros s v. rewrite Er, is_dict by auto. destruct (first_posting s ts) as [[[] w]|]; reflexivity.
  - intros s v. transitivity (In (s, v) exp).
    { split; intros X; [eapply Permutation_in; [apply Permutation_sym, PS|exact X]|eapply Permutation_in; [apply PS|exact X]]. }
    rewrite Eexp, is_dict by auto. destruct (first_posting s ts) as [[[] w]|]; reflexivity.
  - intros s v X. rewrite Ec in X. apply filter_In in X. apply X.
  - intros s v X. rewrite Ee in X. apply filter_In in X as [_ X]. cbn in X. unfold is_cos in X. apply negb_true_iff in X. exact X.
  - rewrite Er. apply nodup_run. constructor.
  - eapply Permutation_NoDup; [apply (Permutation_map fst PS)|]. rewrite Eexp. apply nodup_run. constructor.
  - exact Eg.
  - rewrite Et, SUM. unfold dict_sum. ring.
  - rewrite En, Eg, Et, SUM. ring.
Qed.

Theorem income_statement_normal l start fin path r : unnamed_free (l_structure l) ->
  income_statement_report l start fin path = Ok r ->
  let g := l_structure l in let ts := operating (selected start fin path (l_txs l)) in
  normal_first g ts ->
  (forall s v, In (s, v) (inc_revenue r) <-> has_type g s Revenue /\ touched ts s /\ v = (credits ts s - debits ts s)%Qc) /\
  (forall s v, In (s, v) (inc_cos r ++ inc_expense r)%list <-> has_type g s Expense /\ touched ts s /\ v = (debits ts s - credits ts s)%Qc) /\
  inc_net r = income_net_credit g ts.
Proof.
  intros U H g ts HN. destruct (income_statement_exact_lines _ _ _ _ _ U H) as (L1 & L2 & _). fold g ts in L1, L2.
  repeat apply conj.
  - intros s v. rewrite L1. split; intros (A & B & ->); (split; [exact A|split; [exact B|]]);
    destruct (HN s) as [N1 _]; specialize (N1 A); destruct (first_posting s ts) as [[[] w]|]; try ring;
    exfalso; eapply N1; reflexivity.
  - intros s v. rewrite L2. split; intros (A & B & ->); (split; [exact A|split; [exact B|]]);
    destruct (HN s) as [_ N1]; specialize (N1 A); destruct (first_posting s ts) as [[[] w]|]; try ring;
    exfalso; eapply N1; reflexivity.
  - destruct (is_report_ok _ _ _ _ _ U H) as (exp & Eexp & Er & _ & _ & En & _). fold g in Eexp, Er; fold ts in Eexp, Er.
    rewrite En, Er, Eexp, !dict_sum_run, <- is_equation by (apply is_firsts_ok; auto).
    change (dict_sum []) with 0%Qc. ring.
Qed.

(** built structures have no account without name *)
Lemma top_names_nonempty ops t : forallb op_names_ok ops = true -> In t (g_accounts (built ops)) -> a_name t <> "".
Proof.
  intros Ho Ht. pose proof (coh_built ops Ho) as C. pose proof (coh_top _ _ C Ht) as E.
  unfold coh_gls in C. rewrite Forall_forall in C. destruct (C t Ht) as [_ Hc]. inversion Hc as [a' _ H2]; subst.
  congruence.
Qed.

Lemma built_unnamed_free ops : forallb op_names_ok ops = true -> unnamed_free (built ops).
Proof.
  intros Ho. unfold unnamed_free, get_account; cbn. f_equal. apply top_item_none.
  intros (t & Ht & Hn). apply (top_names_nonempty ops t Ho Ht Hn).
Qed.

(** ** Trial balance *)
Lemma paths_nodup ops : forallb op_names_ok ops = true -> names_distinct (built ops) ->
  NoDup (map a_path (all_accounts (built ops))).
Proof.
  intros Ho Hd. pose proof (ids_unique ops) as N. 
  assert (Hin : forall a, In a (all_accounts (built ops)) -> get_account (built ops) (a_path a) = Ok (Some a)).
  { intros a Ha. apply lookup_found; auto. apply in_all; auto. }
  induction (all_accounts (built ops)) as [|a l IH]; cbn in *; [constructor|].
  inversion N as [|? ? N1 N2]; subst. constructor; [|apply IH; auto].
  intros X. apply in_map_iff in X as (b & E & Hb). apply N1.
  pose proof (Hin a (or_introl eq_refl)) as A. pose proof (Hin b (or_intror Hb)) as B. rewrite E in B.
  rewrite A in B. inversion B; subst. apply in_map; auto.
Qed.

Lemma sum_indicator (l : list string) o s v : NoDup l -> In s l -> o = Some s ->
  Qcsum (map (fun x => if is_acc o x then v else 0%Qc) l) = v.
Proof.
  intros N Hin ->. cbn [is_acc]. induction l as [|x l IH]; [destruct Hin|].
  inversion N as [|? ? N1 N2]; subst. cbn [map]. rewrite Qcsum_cons. destruct (s =? x) eqn:E.
  - apply String.eqb_eq in E. subst x.
    assert (Z : Qcsum (map (fun x => if s =? x then v else 0%Qc) l) = 0%Qc).
    { clear - N1. induction l as [|y l IH]; [reflexivity|]. cbn [map]. rewrite Qcsum_cons, IH by (intros X; apply N1; cbn; auto).
      destruct (s =? y) eqn:E; [|ring]. apply String.eqb_eq in E. subst y. exfalso; apply N1; cbn; auto. }
    rewrite Z. ring.
  - destruct Hin as [->|Hin]; [rewrite String.eqb_refl in E; discriminate|]. rewrite IH by auto. ring.
Qed.

Lemma Qcsum_map_add {A} (f h : A -> Qc) l : Qcsum (map (fun x => (f x + h x)%Qc) l) = (Qcsum (map f l) + Qcsum (map h l))%Qc.
Proof. induction l as [|x l IH]; cbn [map]; rewrite ?Qcsum_cons; [change (Qcsum []) with 0%Qc; ring|]. rewrite IH. ring. Qed.

Lemma trial_balance_paths ps txs : NoDup ps ->
  (forall t, In t txs -> (exists s, tx_dt t = Some s /\ In s ps) /\ (exists s, tx_cr t = Some s /\ In s ps)) ->
  Qcsum (map (fun p => (debits txs p - credits txs p)%Qc) ps) = 0%Qc.
Proof.
  intros N. induction txs as [|t txs IH]; intros H.
  - assert (E : map (fun p => (debits [] p - credits [] p)%Qc) ps = map (fun _ => 0%Qc) ps).
    { apply map_ext. intros. unfold debits, credits; cbn. change (Qcsum []) with 0%Qc. ring. }
    rewrite E. clear. induction ps; cbn [map]; [reflexivity|]. rewrite Qcsum_cons, IHps. ring.
  - destruct (H t (or_introl eq_refl)) as [(d & Ed & Hd) (c & Ec & Hc)].
    rewrite (map_ext _ (fun p => (((if is_acc (tx_dt t) p then tx_amount t else 0) +
        (if is_acc (tx_cr t) p then - tx_amount t else 0)) + (debits txs p - credits txs p))%Qc)).
    + rewrite !Qcsum_map_add, IH by (intros; apply H; cbn; auto).
      rewrite (sum_indicator ps (tx_dt t) d), (sum_indicator ps (tx_cr t) c) by auto. ring.
    + intros p. rewrite debits_cons, credits_cons. destruct (is_acc (tx_cr t) p); ring.
Qed.

Theorem trial_balance ops txs : forallb op_names_ok ops = true -> names_distinct (built ops) ->
  (forall t, In t txs -> exists_account (built ops) (tx_dt t) /\ exists_account (built ops) (tx_cr t)) ->
  Qcsum (map (fun a => (debits txs (a_path a) - credits txs (a_path a))%Qc) (all_accounts (built ops))) = 0%Qc.
Proof.
  intros Ho Hd H. rewrite <- (map_map a_path (fun p => (debits txs p - credits txs p)%Qc)).
  apply trial_balance_paths; [apply paths_nodup; auto|].
  intros t Ht. destruct (H t Ht) as [(d & a & Ed & Ea) (c & b & Ec & Eb)].
  split; [exists d|exists c]; split; auto; apply lookup_sound in Ea; apply lookup_sound in Eb; auto.
  - destruct Ea as [Ha <-]. apply in_map, in_all; auto.
  - destruct Eb as [Hb <-]. apply in_map, in_all; auto.
Qed.

(** ** Structure report *)

Lemma insert_key_perm {A} (x : string * A) l : Permutation (x :: l) (insert_key x l).
Proof.
  induction l as [|y l IH]; cbn; auto. destruct (str_leb _ _); auto.
  eapply perm_trans; [apply perm_swap|]. constructor; auto.
Qed.
Lemma sort_key_perm {A} (l : list (string * A)) : Permutation l (sort_key l).
Proof. induction l as [|x l IH]; cbn; auto. eapply perm_trans; [|apply insert_key_perm]. constructor; auto. Qed.

Lemma concat_perm {A} (l l' : list (list A)) : Permutation l l' -> Permutation (concat l) (concat l').
Proof.
  induction 1 as [|x l l' H IH|x y l|l l' l'' H1 IH1 H2 IH2]; cbn; auto.
  - apply Permutation_app_head; auto.
  - rewrite !app_assoc. apply Permutation_app_tail, Permutation_app_comm.
  - eapply perm_trans; eauto.
Qed.


Lemma gls_rows_unfold prefix a : gls_rows prefix a =
  match a_number a with
  | None => Err TypeError
  | Some k => do subs <- mapM (gls_rows (k ++ "/")) (a_kids a);
              Ok (k, mkglsrow (a_type a) (prefix ++ k) (a_name a) :: concat (map snd (sort_key subs)))
  end.
Proof. destruct a as [i n num ty pp p ks]. reflexivity. Qed.

Lemma gls_rows_perm a : forall prefix k rows, gls_rows prefix a = Ok (k, rows) ->
  Permutation (map row_key rows) (map acct_key (acct_and_descendants a)) /\
  (forall x, In x (acct_and_descendants a) -> numbered x).
Proof.
  induction a as [i n num ty pp p ks IH] using acct_ind'. intros prefix k rows.
  rewrite gls_rows_unfold. cbn [a_number a_kids a_type a_name]. destruct num as [k0|]; [|discriminate].
  destruct (mapM (gls_rows (k0 ++ "/")) ks) as [subs|] eqn:E; cbn [bind]; [|discriminate].
  intros H; inversion H; subst k0 rows; clear H.
  assert (G : Permutation (map row_key (concat (map snd subs))) (map acct_key (flat_map acct_and_descendants ks)) /\
              (forall x, In x (flat_map acct_and_descendants ks) -> numbered x)).
  { revert subs E. induction ks as [|x ks IHk]; intros subs E; cbn [mapM] in E.
    - inversion E; subst. cbn. split; auto. intros x [].
    - inversion IH as [|? ? Hx Hks]; subst.
      destruct (gls_rows (k ++ "/") x) as [[kx rx]|] eqn:Ex; cbn [bind] in E; [|discriminate].
      destruct (mapM (gls_rows (k ++ "/")) ks) as [ss|] eqn:Es; cbn [bind] in E; [|discriminate].
      inversion E; subst subs. destruct (Hx _ _ _ Ex) as [P1 N1]. destruct (IHk Hks ss eq_refl) as [P2 N2].
      cbn [map snd concat flat_map]. rewrite !map_app. split; [apply Permutation_app; auto|].
      intros y Hy. apply in_app_or in Hy. destruct Hy; auto. }
  destruct G as [P N]. cbn [map acct_and_descendants]. split.
  - apply Permutation_cons; [reflexivity|].
    eapply perm_trans; [|exact P]. apply Permutation_map, concat_perm, Permutation_map, Permutation_sym, sort_key_perm.
  - intros x [<-|Hx]; [exists k; reflexivity|auto].
Qed.

Lemma gls_rows_total a prefix : (forall x, In x (acct_and_descendants a) -> numbered x) -> exists r, gls_rows prefix a = Ok r.
Proof.
  revert prefix. induction a as [i n num ty pp p ks IH] using acct_ind'. intros prefix H.
  rewrite gls_rows_unfold. cbn [a_number a_kids a_type a_name].
  destruct (H _ (or_introl eq_refl)) as [k Ek]. cbn in Ek. subst num.
  assert (G : exists subs, mapM (gls_rows (k ++ "/")) ks = Ok subs).
  { assert (H' : forall x, In x (flat_map acct_and_descendants ks) -> numbered x) by (intros; apply H; cbn; auto).
    clear H. induction ks as [|x ks IHk]; cbn [mapM]; [eauto|]. inversion IH; subst.
    destruct (H1 (k ++ "/")) as [r ->]; [intros; apply H'; cbn; apply in_or_app; auto|]. cbn [bind].
    destruct IHk as [ss ->]; auto; [intros; apply H'; cbn; apply in_or_app; auto|]. cbn. eauto. }
  destruct G as [subs ->]. cbn. eauto.
Qed.

Lemma mapM_rows l rs : mapM (gls_rows "") l = Ok rs ->
  Permutation (map row_key (concat (map snd rs))) (map acct_key (flat_map acct_and_descendants l)).
Proof.
  revert rs. induction l as [|x l IH]; intros rs E; cbn [mapM] in E.
  - inversion E; subst. cbn. auto.
  - destruct (gls_rows "" x) as [[kx rx]|] eqn:Ex; cbn [bind] in E; [|discriminate].
    destruct (mapM (gls_rows "") l) as [ss|] eqn:Es; cbn [bind] in E; [|discriminate].
    inversion E; subst. destruct (gls_rows_perm _ _ _ _ Ex) as [P _]. cbn [map snd concat flat_map]. rewrite !map_app.
    apply Permutation_app; auto.
Qed.

Theorem gls_report_lists g rows : gls_report g = Ok rows ->
  Permutation (map row_key rows)
    (map acct_key (flat_map acct_and_descendants (filter (number_starts "I") (g_accounts g) ++
                                                  filter (number_starts "B") (g_accounts g)))).
Proof.
  unfold gls_report. destruct (existsb _ _); [discriminate|].
  destruct (mapM _ (filter (number_starts "I") _)) as [i|] eqn:Ei; cbn [bind]; [|discriminate].
  destruct (mapM _ (filter (number_starts "B") _)) as [b|] eqn:Eb; cbn [bind]; [|discriminate].
  intros H; inversion H; subst rows. rewrite map_app, flat_map_app, map_app.
  apply Permutation_app; (eapply perm_trans; [|apply mapM_rows; eassumption]);
  apply Permutation_map, concat_perm, Permutation_map, Permutation_sym, sort_key_perm.
Qed.

Theorem gls_report_needs_numbers g a rows : gls_report g = Ok rows ->
  In a (flat_map acct_and_descendants (filter (number_starts "I") (g_accounts g) ++
                                       filter (number_starts "B") (g_accounts g))) -> numbered a.
Proof.
  unfold gls_report. destruct (existsb _ _); [discriminate|].
  destruct (mapM _ (filter (number_starts "I") _)) as [i|] eqn:Ei; cbn [bind]; [|discriminate].
  destruct (mapM _ (filter (number_starts "B") _)) as [b|] eqn:Eb; cbn [bind]; [|discriminate].
  intros _. rewrite flat_map_app. intros Hin.
  assert (G : forall l rs, mapM (gls_rows "") l = Ok rs -> In a (flat_map acct_and_descendants l) -> numbered a).
  { clear. induction l as [|x l IH]; intros rs E Hin; cbn [mapM] in E; [destruct Hin|].
    destruct (gls_rows "" x) as [[kx rx]|] eqn:Ex; cbn [bind] in E; [|discriminate].
    destruct (mapM (gls_rows "") l) as [ss|] eqn:Es; cbn [bind] in E; [|discriminate].
    cbn in Hin. apply in_app_or in Hin as [Hin|Hin]; [|exact (IH _ eq_refl Hin)]. exact (proj2 (gls_rows_perm _ _ _ _ Ex) _ Hin). }
  apply in_app_or in Hin as [Hin|Hin]; [exact (G _ _ Ei Hin)|exact (G _ _ Eb Hin)].
Qed.
