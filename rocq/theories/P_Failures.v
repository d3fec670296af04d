(** When and how reports fail. *)
From Verif Require Import Prelude M_Dates M_Accounts M_Ledger M_Business Spec_Accounts Spec_Ledger Spec_Failures P_Accounts P_Ledger P_Reports.
Open Scope string_scope.

Lemma known_top_split g n : (forall t, In t (g_accounts g) -> no_slash (a_name t) = true) ->
  (known_top g n <-> exists t, In t (g_accounts g) /\ a_name t = fst (split_slash n)).
Proof.
  intros N. split.
  - intros (t & I & S & [-> | [r ->]]); exists t; split; auto.
    + now rewrite split_none.
    + now rewrite split_some.
  - intros (t & I & E). exists t. split; auto. split; [auto|]. destruct (split_slash n) as [h r] eqn:Es. destruct (split_join _ _ _ Es) as [_ J]. cbn [fst] in E. subst h.
    destruct r as [r|]; [right; eauto|auto].
Qed.

Section Structure.
  Variable ops : list gls_op.
  Hypothesis Ho : forallb op_names_ok ops = true.
  Hypothesis Hd : names_distinct (built ops).
  Notation g := (built ops).

  Lemma tops_plain : forall t, In t (g_accounts g) -> no_slash (a_name t) = true.
  Proof. intros t I. destruct Hd as [N _]. apply N. exists t. auto. Qed.

  Lemma lookup_cases n : (exists a, get_account g n = Ok (Some a) /\ in_structure g a /\ a_path a = n /\ known g n) \/
    (get_account g n = Ok None /\ ~ known g n /\ ~ known_top g n) \/ (get_account g n = Err IndexError /\ ~ known g n /\ known_top g n).
  Proof.
    destruct (get_account g n) as [[a|]|e] eqn:G.
    - left. exists a. destruct (lookup_sound ops n a Ho G). repeat split; auto. exists a; auto.
    - right; left. split; auto. assert (A : ~ known g n). { intros (a & I & <-). rewrite (lookup_found ops a Ho Hd I) in G. discriminate. } split; auto.
      intros K. apply (known_top_split g n tops_plain) in K. destruct (lookup_absent ops n Ho Hd A) as [L _]. rewrite (L K) in G. discriminate.
    - right; right. assert (A : ~ known g n). { intros (a & I & <-). rewrite (lookup_found ops a Ho Hd I) in G. discriminate. }
      destruct (lookup_absent ops n Ho Hd A) as [L1 L2].
      assert (K : exists t, In t (g_accounts g) /\ a_name t = fst (split_slash n)).
      { destruct (top_item g (fst (split_slash n))) as [t|] eqn:T.
        - apply find_some in T as [I E]. apply String.eqb_eq in E. eauto.
        - apply top_item_none in T. rewrite (L2 T) in G. discriminate. }
      rewrite (L1 K) in G. injection G as <-. split; auto. split; auto. apply (known_top_split g n tops_plain). exact K.
  Qed.

  Lemma type_fault o e : account_type_of g o = Err e <-> account_fault g o e.
  Proof.
    unfold account_type_of. destruct o as [n|]; cbn [get_account_o bind].
    - destruct (lookup_cases n) as [(a & G & I & P & K) | [(G & A & T) | (G & A & T)]]; rewrite G; cbn [bind]; (split; [intros H | intros H; inversion H; subst; try contradiction; auto]).
      + discriminate.
      + injection H as <-. now constructor.
      + injection H as <-. now constructor.
    - split; [intros H; injection H as <-; constructor | intros H; inversion H; auto].
  Qed.
  Lemma type_good o ty : account_type_of g o = Ok ty -> good_account g o.
  Proof.
    unfold account_type_of. destruct o as [n|]; cbn [get_account_o bind]; [|discriminate].
    destruct (lookup_cases n) as [(a & G & I & P & K) | [(G & A & T) | (G & A & T)]]; rewrite G; cbn [bind]; try discriminate. intros _. exists n; auto.
  Qed.
  Lemma good_not_fault o e : good_account g o -> ~ account_fault g o e.
  Proof. intros (n & -> & K) F. inversion F; subst; contradiction. Qed.
  Lemma good_type o : good_account g o -> exists ty, account_type_of g o = Ok ty.
  Proof. intros G. destruct (account_type_of g o) as [ty|e] eqn:E; eauto. exfalso. apply type_fault in E. eapply good_not_fault; eauto. Qed.

  Lemma entry_types {A} (t : tx) (k : atype -> atype -> A) e :
    (do ct <- account_type_of g (tx_cr t); do dt <- account_type_of g (tx_dt t); Ok (k ct dt)) = Err e <-> entry_fault g t e.
  Proof.
    unfold entry_fault. destruct (account_type_of g (tx_cr t)) as [ct|e1] eqn:E1; cbn [bind].
    - pose proof (type_good _ _ E1) as G1. destruct (account_type_of g (tx_dt t)) as [dt|e2] eqn:E2; cbn [bind].
      + split; [discriminate|]. intros [F|[_ F]]; exfalso; [eapply good_not_fault; eauto|]. eapply good_not_fault; [eapply type_good; eauto|eauto].
      + apply type_fault in E2. split; [intros H; injection H as <-; auto|]. intros [F|[_ F]]; [exfalso; eapply good_not_fault; eauto|].
        apply type_fault in F, E2. congruence.
    - split; [intros H; injection H as <-; left; now apply type_fault|]. intros [F|[G F]]; [apply type_fault in F; congruence|].
      destruct (good_type _ G) as [ty T]. congruence.
  Qed.
End Structure.

Lemma le_cases a b : (comparable a b /\ py_le a b = Ok (py_leb a b)) \/ (~ comparable a b /\ py_le a b = Err TypeError /\ py_leb a b = false).
Proof. destruct a, b; unfold comparable, py_leb; cbn; auto; right; repeat split; auto; discriminate. Qed.

Lemma between_cases a d b : (exists e, py_between a d b = Err e /\ period_fault a b d e) \/
  (py_between a d b = Ok (py_leb a d && py_leb d b) /\ forall e, ~ period_fault a b d e).
Proof.
  unfold py_between, period_fault. destruct (le_cases a d) as [[C ->] | (C & -> & L)]; cbn [bind].
  - destruct (py_leb a d) eqn:L; cbn [andb].
    + destruct (le_cases d b) as [[C2 ->] | (C2 & -> & _)].
      * right. split; auto. intros e (_ & [H | [_ H]]); auto.
      * left. exists TypeError. auto.
    + right. split; auto. intros e (_ & [H | [H _]]); auto. congruence.
  - left. exists TypeError. auto.
Qed.

(** The first failing step of a loop decides, if whether a step fails does not
    depend on what the loop has done before. *)
Lemma loop_faults {S} (f : S -> tx -> res S) (fault : tx -> exn -> Prop) :
  (forall s t e, f s t = Err e <-> fault t e) -> forall txs s e, foldM f txs s = Err e <-> first_fault fault txs e.
Proof.
  intros H. induction txs as [|t r IH]; intros s e; cbn [foldM].
  - split; [discriminate|]. intros (b & x & a & E & _). destruct b; discriminate.
  - destruct (f s t) as [s'|e'] eqn:E; cbn [bind].
    + rewrite IH. split.
      * intros (b & x & a & -> & N & F). exists (t :: b), x, a. repeat split; auto. intros u e' [<-|I]; [|eauto]. intros G. apply (H s) in G. congruence.
      * intros (b & x & a & Eq & N & F). destruct b as [|t' b]; cbn [app] in Eq; injection Eq as -> ->.
        { apply (H s) in F. congruence. }
        exists b, x, a. repeat split; auto. intros u e' I. apply N. right; auto.
    + apply H in E. split.
      * intros Q. injection Q as <-. exists [], t, r. repeat split; auto.
      * intros (b & x & a & Eq & N & F). destruct b as [|t' b]; cbn [app] in Eq; injection Eq as -> ->.
        { apply (H s) in F. apply (H s) in E. congruence. }
        exfalso. eapply N; [left; reflexivity|eauto].
Qed.
Lemma loop_ok {S} (f : S -> tx -> res S) (fault : tx -> exn -> Prop) :
  (forall s t e, f s t = Err e <-> fault t e) -> forall txs s, is_ok (foldM f txs s) = true <-> no_fault fault txs.
Proof.
  intros H. induction txs as [|t r IH]; intros s; cbn [foldM]; [split; auto; intros _ t e []|].
  destruct (f s t) as [s'|e'] eqn:E; cbn [bind].
  - rewrite IH. split; intros N u e; [intros [<-|I]; [intros F; apply (H s) in F; congruence|apply N; auto]|intros I; apply N; right; auto].
  - split; [discriminate|]. intros N. exfalso. apply (N t e'); [left; auto|]. now apply (H s).
Qed.
Lemma sheet_step ops fin : forallb op_names_ok ops = true -> names_distinct (built ops) ->
  forall s t e, bs_step (built ops) fin s t = Err e <-> sheet_fault (built ops) fin t e.
Proof.
  intros Ho Hd s t e'. unfold bs_step, sheet_fault. destruct (le_cases (tx_date t) fin) as [[C ->] | (C & -> & L)]; cbn [bind].
    + destruct (py_leb (tx_date t) fin) eqn:L.
      * rewrite (entry_types ops Ho Hd t). split; [intros F; right; auto|]. intros [[N _]|(_ & _ & F)]; [contradiction|auto].
      * split; [discriminate|]. intros [[N _]|(_ & N & _)]; [contradiction|discriminate].
    + split; [intros Q; injection Q as <-; auto|]. intros [[_ ->]|(K & _)]; [auto|contradiction].

Qed.
Lemma sheet_failure ops txs fin e : forallb op_names_ok ops = true -> names_distinct (built ops) ->
  (balance_sheet_report (mkledger (built ops) txs) fin = Err e <-> first_fault (sheet_fault (built ops) fin) txs e) /\ (is_ok (balance_sheet_report (mkledger (built ops) txs) fin) = true <-> no_fault (sheet_fault (built ops) fin) txs).
Proof.
  intros Ho Hd. unfold balance_sheet_report, bs_sums. cbn [l_structure l_txs].
  rewrite <- (loop_faults _ _ (sheet_step ops fin Ho Hd) txs (mkbs [] [] []) e), <- (loop_ok _ _ (sheet_step ops fin Ho Hd) txs (mkbs [] [] [])).
  destruct (foldM _ txs _) as [s|e']; cbn [bind]; split; split; auto; congruence.
Qed.

Lemma source_cases t path : (tx_source t = None /\ source_starts t path = Err AttributeError) \/
  (exists s, tx_source t = Some s /\ source_starts t path = Ok (starts_with s path)).
Proof. unfold source_starts. destruct (tx_source t) as [s|]; eauto. Qed.

Lemma statement_step ops start fin path : forallb op_names_ok ops = true -> names_distinct (built ops) ->
  forall s t e, is_step (built ops) start fin path s t = Err e <-> statement_fault (built ops) start fin path t e.
Proof.
  intros Ho Hd s t e'. unfold is_step, statement_fault, row_fault. destruct (source_cases t path) as [[Sn ->] | (n & Sn & ->)]; cbn [bind]; rewrite Sn.
    { split; [intros Q; injection Q as <-; auto|]. intros [[[_ ->]|((? & ? & _) & _)]|((? & ? & _) & _)]; auto; discriminate. }
    destruct (starts_with n path) eqn:W; cbn [negb].
    2:{ split; [discriminate|]. intros [[[? _]|((? & Q & V) & _)]|((? & Q & V) & _)]; try discriminate; injection Q as <-; congruence. }
    destruct (between_cases start (tx_date t) fin) as [(e1 & -> & P) | [-> P]]; cbn [bind].
    { split; [intros Q; injection Q as <-; left; right; eauto|]. destruct P as [-> P]. intros [[[? _]|(_ & [-> _])]|(_ & L1 & L2 & _)]; auto; try discriminate.
      exfalso. destruct P as [P|[_ P]]; [apply P|apply P]; unfold comparable; [unfold py_leb in L1; apply andb_prop in L1 as [L1 _]; now apply Bool.eqb_prop in L1 | unfold py_leb in L2; apply andb_prop in L2 as [L2 _]; now apply Bool.eqb_prop in L2]. }
    destruct (py_leb start (tx_date t)) eqn:L1; cbn [andb negb].
    2:{ split; [discriminate|]. intros [[[? _]|(_ & F)]|(_ & ? & _)]; try discriminate. exfalso; eapply P; eauto. }
    destruct (py_leb (tx_date t) fin) eqn:L2; cbn [andb negb].
    2:{ split; [discriminate|]. intros [[[? _]|(_ & F)]|(_ & _ & ? & _)]; try discriminate. exfalso; eapply P; eauto. }
    cbv zeta. rewrite (entry_types ops Ho Hd t). split; [intros F; right; eauto 6|]. intros [[[? _]|(_ & F)]|(_ & _ & _ & F)]; auto; [discriminate|exfalso; eapply P; eauto].

Qed.
Lemma statement_failure ops txs start fin path e : forallb op_names_ok ops = true -> names_distinct (built ops) ->
  (income_statement_report (mkledger (built ops) txs) start fin path = Err e <-> first_fault (statement_fault (built ops) start fin path) txs e) /\ (is_ok (income_statement_report (mkledger (built ops) txs) start fin path) = true <-> no_fault (statement_fault (built ops) start fin path) txs).
Proof.
  intros Ho Hd. unfold income_statement_report, is_sums. cbn [l_structure l_txs].
  rewrite <- (loop_faults _ _ (statement_step ops start fin path Ho Hd) txs ([], []) e), <- (loop_ok _ _ (statement_step ops start fin path Ho Hd) txs ([], [])).
  destruct (foldM _ txs _) as [s|e']; cbn [bind]; split; split; auto; congruence.
Qed.

Lemma rows_step start fin path : forall s t e, tl_step start fin path s t = Err e <-> row_fault start fin path t e.
Proof.
  intros s t e'. unfold tl_step, row_fault. destruct (source_cases t path) as [[Sn ->] | (n & Sn & ->)]; cbn [bind]; rewrite Sn.
  { split; [intros Q; injection Q as <-; auto|]. intros [[_ ->]|((? & ? & _) & _)]; auto; discriminate. }
  destruct (starts_with n path) eqn:W; cbn [negb].
  2:{ split; [discriminate|]. intros [[? _]|((? & Q & V) & _)]; try discriminate; injection Q as <-; congruence. }
  destruct (between_cases start (tx_date t) fin) as [(e1 & -> & P) | [-> P]]; cbn [bind].
  - split; [intros Q; injection Q as <-; right; eauto|]. destruct P as [-> P]. intros [[? _]|(_ & [-> _])]; auto; discriminate.
  - split; [destruct (_ && _); discriminate|]. intros [[? _]|(_ & F)]; [discriminate|exfalso; eapply P; eauto].

Qed.
