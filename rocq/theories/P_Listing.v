(** Proofs about the listing of the compounds. *)
From Verif Require Import Prelude M_Stoichiometry M_Chem M_Thermochem M_Json M_Listing Spec_File Spec_Print Spec_Listing P_File P_Convert P_ThermoApi.
From Coq Require Import Permutation.
Local Open Scope string_scope.
Local Open Scope list_scope.

Lemma lookup_keys {A} k (d : list (string * A)) : In k (map fst d) <-> exists v, lookup k d = Some v.
Proof.
  split.
  - induction d as [|[k' v'] d IH]; [intros []|]. intros I. change (map fst ((k', v') :: d)) with (k' :: map fst d) in I. cbn [lookup]. destruct (String.eqb_spec k k') as [->|N]; [eauto|]. destruct I as [<-|I]; [congruence|auto].
  - intros [v H]. apply lookup_In in H. change k with (fst (k, v)). now apply in_map.
Qed.
Lemma lookup_perm {A} k (d d' : list (string * A)) : NoDup (map fst d) -> Permutation d d' -> lookup k d = lookup k d'.
Proof.
  intros N P. revert N. induction P as [|[k1 v1] d d' P IH|[k1 v1] [k2 v2] d|d d1 d' P1 IH1 P2 IH2]; intros N; cbn [lookup] in *; auto.
  - cbn [map fst] in N. inversion N; subst. now rewrite IH.
  - cbn [map fst] in N. inversion N as [|? ? N1 N2]; subst. destruct (String.eqb_spec k k1), (String.eqb_spec k k2); subst; auto. exfalso. apply N1. left. auto.
  - rewrite IH1, IH2; auto. eapply Permutation_NoDup; [apply Permutation_map, P1|exact N].
Qed.
(** Two lists in order with the same elements are the same. *)
Lemma ltb_spec x y : String.ltb x y = true <-> String.compare x y = Lt.
Proof. unfold String.ltb. destruct (String.compare x y); split; congruence. Qed.
Lemma compare_lt_trans x : forall y z, String.compare x y = Lt -> String.compare y z = Lt -> String.compare x z = Lt.
Proof.
  induction x as [|a x IH]; intros [|b y] [|c z]; cbn [String.compare]; try congruence.
  unfold Ascii.compare. destruct (N.compare_spec (N_of_ascii a) (N_of_ascii b)) as [E|E|E], (N.compare_spec (N_of_ascii b) (N_of_ascii c)) as [F|F|F]; try congruence; intros H1 H2.
  - rewrite E, F, N.compare_refl. eauto.
  - assert (G : (N_of_ascii a < N_of_ascii c)%N) by lia. now rewrite (proj2 (N.compare_lt_iff _ _) G).
  - assert (G : (N_of_ascii a < N_of_ascii c)%N) by lia. now rewrite (proj2 (N.compare_lt_iff _ _) G).
  - assert (G : (N_of_ascii a < N_of_ascii c)%N) by lia. now rewrite (proj2 (N.compare_lt_iff _ _) G).
Qed.
Lemma order_head x l : in_order (x :: l) -> forall y, In y l -> String.ltb x y = true.
Proof.
  revert x. induction l as [|z l IH]; intros x O y I; [destruct I|]. inversion O as [| |? ? ? L O']; subst. destruct I as [<-|I]; auto.
  apply ltb_spec. eapply compare_lt_trans; apply ltb_spec; [exact L|]. now apply IH.
Qed.
Lemma order_tail x l : in_order (x :: l) -> in_order l.
Proof. inversion 1; auto. constructor. Qed.
Lemma ltb_irrefl x : String.ltb x x = false.
Proof. unfold String.ltb. assert (E : String.compare x x = Eq); [|now rewrite E]. induction x as [|a x IH]; cbn [String.compare]; auto. unfold Ascii.compare. now rewrite N.compare_refl. Qed.
Lemma order_unique l : forall m, in_order l -> in_order m -> (forall x, In x l <-> In x m) -> l = m.
Proof.
  induction l as [|x l IH]; intros [|y m] L M S; auto.
  - destruct (proj2 (S y) (or_introl eq_refl)).
  - destruct (proj1 (S x) (or_introl eq_refl)).
  - assert (x = y) as ->.
    { destruct (proj1 (S x) (or_introl eq_refl)) as [|I]; auto. destruct (proj2 (S y) (or_introl eq_refl)) as [|J]; auto.
      pose proof (order_head _ _ L _ J) as A. pose proof (order_head _ _ M _ I) as B. apply ltb_spec in A, B. pose proof (compare_lt_trans _ _ _ A B) as C. apply ltb_spec in C. rewrite ltb_irrefl in C. discriminate. }
    f_equal. apply IH; [eapply order_tail; eauto|eapply order_tail; eauto|]. intros z. pose proof (S z) as Z. split; intros I.
    + destruct (proj1 Z (or_intror I)) as [<-|]; auto. pose proof (order_head _ _ L _ I) as A. rewrite ltb_irrefl in A. discriminate.
    + destruct (proj2 Z (or_intror I)) as [<-|]; auto. pose proof (order_head _ _ M _ I) as A. rewrite ltb_irrefl in A. discriminate.
Qed.
Lemma sorted_in l x : In x (M_Chem.sorted l) <-> In x l.
Proof. split; apply Permutation_in; [symmetry|]; apply sorted_perm. Qed.
Lemma sorted_same l l' : NoDup l -> NoDup l' -> (forall x, In x l <-> In x l') -> M_Chem.sorted l = M_Chem.sorted l'.
Proof. intros N N' S. apply order_unique; try now apply sorted_increasing. intros x. rewrite !sorted_in. apply S. Qed.

(** * Lines *)
Lemma join_separated ns : separated ns (M_Json.join (text_of ", ") (map text_of ns)).
Proof. induction ns as [|n [|m ns] IH]; [constructor|constructor|]. change (M_Json.join (text_of ", ") (map text_of (n :: m :: ns))) with (text_of n ++ ","%char :: " "%char :: M_Json.join (text_of ", ") (map text_of (m :: ns))). now constructor. Qed.
Lemma separated_line ns t : separated ns t -> (forall n, In n ns -> one_line (text_of n)) -> one_line t.
Proof.
  induction 1 as [|n|n m ns t S IH]; intros O c I; [destruct I|apply (O n); cbn; auto|]. apply in_app_or in I. destruct I as [I|[<-|[<-|I]]]; [apply (O n); cbn; auto|split; discriminate|split; discriminate|].
  apply IH; auto. intros k K. apply O. now right.
Qed.
Lemma cut {c : ascii} a : forall b x y, ~ In c a -> ~ In c b -> a ++ c :: x = b ++ c :: y -> a = b /\ x = y.
Proof.
  induction a as [|d a IH]; intros [|e b] x y A B E; cbn [app] in E.
  - now injection E as ->. - injection E as E1 E2; subst. exfalso. apply B. cbn. auto. - injection E as E1 E2; subst. exfalso. apply A. cbn. auto.
  - injection E as E1 E2; subst. destruct (IH b x y) as [-> ->]; auto; intros I; [apply A|apply B]; cbn; auto.
Qed.
Lemma no_char n c : plain_name n -> (c = ","%char \/ c = ":"%char) -> ~ In c (text_of n).
Proof. intros [_ P] O I. destruct (P c I) as (H1 & H2 & _). destruct O; auto. Qed.
Lemma text_inj a b : text_of a = text_of b -> a = b.
Proof. intros H. rewrite <- (text_str a), <- (text_str b). now rewrite H. Qed.
Lemma separated_unique ns t : separated ns t -> forall ms, separated ms t -> Forall plain_name ns -> Forall plain_name ms -> ns = ms.
Proof.
  induction 1 as [|n|n m ns t S IH]; intros ms M F G.
  - inversion M as [K0 K|k K0 K|k k1 ks u U K0 K]; subst; auto.
    + exfalso. apply Forall_inv in G. destruct G as [G _]. apply G. apply text_inj. auto.
    + destruct (text_of k); discriminate.
  - inversion M as [K0 K|k K0 K|k k1 ks u U K0 K]; subst.
    + exfalso. apply Forall_inv in F. destruct F as [F _]. apply F. apply text_inj. auto.
    + f_equal. now apply text_inj.
    + exfalso. apply (no_char n ","%char); [now apply Forall_inv in F|auto|]. rewrite <- K. apply in_or_app. right. now left.
  - inversion M as [K0 K|k K0 K|k k1 ks u U K0 K]; subst.
    + destruct (text_of n); discriminate.
    + exfalso. apply (no_char k ","%char); [now apply Forall_inv in G|auto|]. rewrite K. apply in_or_app. right. now left.
    + inversion F; inversion G; subst. apply cut in K; [|now apply no_char; auto|now apply no_char; auto]. destruct K as [K1 K2]. apply text_inj in K1. injection K2 as ->. subst. f_equal. apply IH; auto.
Qed.
Lemma tells_unique fo phs fo' phs' l : Forall plain_name (fo :: phs) -> Forall plain_name (fo' :: phs') -> tells_compound fo phs l -> tells_compound fo' phs' l -> fo = fo' /\ phs = phs'.
Proof.
  intros F G (t & S & E) (t' & S' & E'). inversion F; inversion G; subst. apply cut in E'; [|now apply no_char; auto|now apply no_char; auto]. destruct E' as [E1 E2]. apply text_inj in E1. injection E2 as ->. split; auto. eapply separated_unique; eauto.
Qed.

Lemma one_line_check t : forallb (fun c => negb (Ascii.eqb c "010" || Ascii.eqb c "013"))%char t = true -> one_line t.
Proof. intros H c I. rewrite forallb_forall in H. specialize (H c I). destruct (Ascii.eqb_spec c "010"), (Ascii.eqb_spec c "013"); try discriminate. split; auto. Qed.
(** * The listing *)
Lemma phase_names c ph : In ph (get_phase_list c) <-> exists p, lookup ph (tc_phases c) = Some p.
Proof. unfold get_phase_list. rewrite sorted_in. apply lookup_keys. Qed.
Definition one_line_names (db : database) : Prop := forall fo c, lookup fo db = Some c -> one_line (text_of fo) /\ forall ph, In ph (map fst (tc_phases c)) -> one_line (text_of ph).
Lemma lines_cons' l t ls : one_line l -> lines_are t ls -> lines_are (l ++ line_feed ++ t) (l :: ls).
Proof. intros O L. now constructor. Qed.
Lemma compound_line_ok db fo : dictionaries db -> one_line_names db -> In fo (map fst db) ->
  exists c phs l, compound_line db fo = Ok (l ++ line_feed) /\ lookup fo db = Some c /\ one_line l /\ phs = get_phase_list c /\ tells_compound fo phs l /\ in_order phs /\ forall ph, In ph phs <-> loaded db fo ph.
Proof.
  intros [_ D] O I. apply lookup_keys in I. destruct I as [c L]. unfold compound_line. rewrite L. destruct (O fo c L) as [O1 O2].
  exists c, (get_phase_list c), (text_of fo ++ ":"%char :: " "%char :: M_Json.join (text_of ", ") (map text_of (get_phase_list c))). split; [|split; [auto|split; [|split; [auto|split; [|split]]]]].
  - f_equal. rewrite <- app_assoc. reflexivity.
  - intros x X. apply in_app_or in X. destruct X as [X|[<-|[<-|X]]]; [now apply O1|split; discriminate|split; discriminate|]. eapply separated_line; [apply join_separated| |exact X]. intros n N. apply O2. apply sorted_in. exact N.
  - eexists. split; [apply join_separated|reflexivity].
  - apply sorted_increasing. eapply D; eauto.
  - intros ph. rewrite phase_names. unfold loaded. rewrite L. split; [intros [p P]; eauto|]. intros (c' & p & [= <-] & P). eauto.
Qed.
Lemma listing_ok db : dictionaries db -> one_line_names db -> exists t, list_compounds db = Ok t /\ listing db (M_Chem.sorted (map fst db)) t.
Proof.
  intros D O. unfold list_compounds, listing.
  assert (G : forall cs, (forall fo, In fo cs -> In fo (map fst db)) -> exists ts ls, mapM (compound_line db) cs = Ok ts /\ lines_are (concat ts) ls /\
     Forall2 (fun fo l => exists phs, tells_compound fo phs l /\ in_order phs /\ forall ph, In ph phs <-> loaded db fo ph) cs ls).
  { induction cs as [|fo cs IH]; intros I; [exists [], []; split; [reflexivity|split; constructor]|].
    destruct (compound_line_ok db fo D O) as (c & phs & l & E & L & O1 & _ & H); [apply I; cbn; auto|]. destruct IH as (ts & ls & E' & L' & F); [intros; apply I; cbn; auto|].
    exists ((l ++ line_feed) :: ts), (l :: ls). cbn [mapM]. rewrite E. cbn [bind]. rewrite E'. split; [reflexivity|]. split; [|constructor; eauto].
    cbn [concat]. rewrite <- app_assoc. now apply lines_cons'. }
  destruct (G (M_Chem.sorted (map fst db))) as (ts & ls & E & L & F); [intros fo; apply sorted_in|]. rewrite E. cbn [bind]. eexists. split; [reflexivity|]. exists ls. split; auto. apply lines_cons'; auto.
  apply one_line_check. reflexivity.
Qed.
Lemma plain_one_line db : plain_names db -> one_line_names db.
Proof. intros P fo c L. destruct (P fo c L) as [[_ A] B]. split; [intros x X; now apply A|]. intros ph I. destruct (B ph I) as [_ C]. intros x X. now apply C. Qed.

(** * Loading *)
From Verif Require Import M_Csv M_Factsage M_JsonFiles P_Json4 P_JsonFiles2.
Lemma file_of_spec ext name : is_file_of ext name = true <-> data_file ext name.
Proof.
  unfold is_file_of, data_file. split.
  - destruct (word (text_of "Compound_") name) as [r|] eqn:W; [|discriminate]. apply word_app in W. unfold starts. destruct (word (rev ext) (rev r)) as [r'|] eqn:V; [|discriminate]. apply word_app in V. intros _.
    exists (rev r'). rewrite W. f_equal. rewrite <- (rev_involutive r), V, rev_app_distr, rev_involutive. reflexivity.
  - intros [f ->]. rewrite word_self. unfold starts. rewrite rev_app_distr, word_self. reflexivity.
Qed.
Lemma lookup_dput (d : database) k v k' : lookup k' (dput string_dec d k v) = if String.eqb k' k then Some v else lookup k' d.
Proof.
  induction d as [|[k1 v1] d IH]; cbn [dput lookup]; auto. destruct (string_dec k1 k) as [->|N]; cbn [lookup].
  - destruct (String.eqb k' k); auto.
  - rewrite IH. destruct (String.eqb_spec k' k1), (String.eqb_spec k' k); subst; auto. congruence.
Qed.
Section Load.
Variable read : text -> res tcompound.
Variable ext : text.
Definition formula_of (f : text * text) (fo : string) : Prop := exists c, read (snd f) = Ok c /\ tc_formula c = fo.
Lemma load_each_lookup files : forall db, (forall f, In f files -> exists c, read (snd f) = Ok c) ->
  exists db', load_each read db files = (db', Ok tt) /\ forall fo c, lookup fo db' = Some c <->
    (exists before f after, files = before ++ f :: after /\ read (snd f) = Ok c /\ tc_formula c = fo /\ forall g, In g after -> ~ formula_of g fo) \/
    (lookup fo db = Some c /\ forall g, In g files -> ~ formula_of g fo).
Proof.
  induction files as [|f files IH]; intros db R; cbn [load_each].
  - exists db. split; auto. intros fo c. split; [intros L; right; split; auto; intros g []|]. intros [(b & f & a & E & _)|[L _]]; auto. destruct b; discriminate.
  - destruct (R f) as [c0 E0]; [cbn; auto|]. rewrite E0. destruct (IH (dput string_dec db (tc_formula c0) c0)) as (db' & E & L); [intros g I; apply R; cbn; auto|]. exists db'. split; auto. intros fo c. rewrite L. clear L. split.
    + intros [(b & g & a & -> & H)|[H N]].
      * left. exists (f :: b), g, a. auto.
      * rewrite lookup_dput in H. destruct (String.eqb_spec fo (tc_formula c0)) as [->|Ne].
        -- injection H as <-. left. exists [], f, files. auto.
        -- right. split; auto. intros g [<-|I]; auto. intros (c' & X & Y). rewrite E0 in X. injection X as <-. auto.
    + intros [(b & g & a & Eq & X & Y & N)|[H N]].
      * destruct b as [|f' b]; injection Eq as -> ->; [|left; exists b, g, a; auto]. rewrite E0 in X. injection X as <-. right. rewrite lookup_dput, Y, String.eqb_refl. auto.
      * right. split; [|intros g I; apply N; cbn; auto]. rewrite lookup_dput. destruct (String.eqb_spec fo (tc_formula c0)) as [->|Ne]; auto. exfalso. apply (N f); [cbn; auto|]. exists c0. auto.
Qed.
Lemma load_each_fails files : forall db, (exists db', load_each read db files = (db', Ok tt)) \/
  exists before f after db' e, files = before ++ f :: after /\ load_each read db before = (db', Ok tt) /\ read (snd f) = Err e /\ load_each read db files = (db', Err e).
Proof.
  induction files as [|f files IH]; intros db; cbn [load_each]; [left; eauto|]. destruct (read (snd f)) as [c|e] eqn:R.
  - destruct (IH (dput string_dec db (tc_formula c) c)) as [[db' E]|(b & g & a & db' & e & E1 & E2 & E3 & E4)]; [left; eauto|].
    right. exists (f :: b), g, a, db', e. rewrite E1. cbn [load_each app]. rewrite R. subst. auto.
  - right. exists [], f, files, db, e. auto.
Qed.
Lemma dput_keys (d : database) k v x : In x (map fst (dput string_dec d k v)) -> In x (map fst d) \/ x = k.
Proof. induction d as [|[k1 v1] d IH]; cbn [dput map fst In]; [intros [<-|[]]; auto|]. destruct (string_dec k1 k) as [->|N]; cbn [map fst In]; tauto. Qed.
Lemma dput_nodup (d : database) k v : NoDup (map fst d) -> NoDup (map fst (dput string_dec d k v)).
Proof.
  induction d as [|[k1 v1] d IH]; intros N; cbn [dput].
  - repeat constructor. intros [].
  - cbn [map fst] in N. inversion N; subst. destruct (string_dec k1 k) as [->|Ne]; cbn [map fst]; constructor; auto. intros I. apply dput_keys in I. tauto.
Qed.
Lemma load_each_nodup files : forall db, NoDup (map fst db) -> NoDup (map fst (fst (load_each read db files))).
Proof. induction files as [|f files IH]; intros db N; cbn [load_each]; auto. destruct (read (snd f)); auto. apply IH. now apply dput_nodup. Qed.
Lemma filter_split {A} (P : A -> bool) l : forall b x a, filter P l = b ++ x :: a -> exists b' a', l = b' ++ x :: a' /\ filter P b' = b /\ filter P a' = a /\ P x = true.
Proof.
  induction l as [|y l IH]; intros b x a E; cbn [filter] in E; [destruct b; discriminate|]. destruct (P y) eqn:Py.
  - destruct b as [|z b]; cbn [app] in E.
    + injection E as -> E. exists [], l. auto.
    + injection E as -> E. destruct (IH _ _ _ E) as (b' & a' & -> & F1 & F2 & F3). exists (z :: b'), a'. cbn [filter app]. rewrite Py, F1. auto.
  - destruct (IH _ _ _ E) as (b' & a' & -> & F1 & F2 & F3). exists (y :: b'), a'. cbn [filter app]. rewrite Py. auto.
Qed.
Lemma load_from_lookup files db : readable read ext files ->
  exists db', load_from read ext (Some files) db = (db', Ok tt) /\ forall fo c, lookup fo db' = Some c <-> last_of read ext files fo c.
Proof.
  intros R. unfold load_from. destruct (load_each_lookup (filter (fun f => is_file_of ext (fst f)) files) []) as (db' & E & L).
  { intros [n s] I. apply filter_In in I. destruct I as [I F]. apply file_of_spec in F. exact (R n s I F). }
  exists db'. split; auto. intros fo c. rewrite L. unfold last_of. split.
  - intros [(b & [n s] & a & Eq & X & Y & N)|[H _]]; [|discriminate]. destruct (filter_split _ _ _ _ _ Eq) as (b' & a' & -> & _ & F2 & F3). apply file_of_spec in F3. exists b', n, s, a'. split; auto. split; auto. split; auto. split; auto.
    intros n' s' c' I D Q Z. apply (N (n', s')); [rewrite <- F2; apply filter_In; split; auto; now apply file_of_spec|]. exists c'. auto.
  - intros (b & n & s & a & -> & D & X & Y & N). left. exists (filter (fun f => is_file_of ext (fst f)) b), (n, s), (filter (fun f => is_file_of ext (fst f)) a). split; [|split; auto; split; auto].
    + rewrite filter_app. cbn [filter fst]. now rewrite (proj2 (file_of_spec ext n) D).
    + intros [n' s'] I (c' & Q & Z). apply filter_In in I. destruct I as [I F]. apply file_of_spec in F. exact (N n' s' c' I F Q Z).
Qed.
Lemma load_from_fails files db : ~ readable read ext files -> exists before name content after e db',
  files = before ++ (name, content) :: after /\ data_file ext name /\ read content = Err e /\ readable read ext before /\
  load_from read ext (Some files) db = (db', Err e) /\ load_from read ext (Some before) db = (db', Ok tt).
Proof.
  intros NR. unfold load_from. destruct (load_each_fails (filter (fun f => is_file_of ext (fst f)) files) []) as [[db' E]|(b & [n s] & a & db' & e & E1 & E2 & E3 & E4)].
  - exfalso. apply NR. intros n s I D. assert (J : In (n, s) (filter (fun f => is_file_of ext (fst f)) files)) by (apply filter_In; split; auto; now apply file_of_spec).
    revert E J. generalize (filter (fun f => is_file_of ext (fst f)) files). generalize (@nil (string * tcompound)). clear. intros db0 l. revert db0. induction l as [|f l IH]; intros db0 E J; [destruct J|].
    cbn [load_each] in E. destruct (read (snd f)) as [c|e] eqn:R; [|discriminate]. destruct J as [->|J]; [eauto|]. eapply IH; eauto.
  - destruct (filter_split _ _ _ _ _ E1) as (b' & a' & -> & F1 & F2 & F3). apply file_of_spec in F3. exists b', n, s, a', e, db'. split; auto. split; auto. split; auto. rewrite F1. split; [|auto].
    intros n' s' I D. assert (J : In (n', s') b) by (rewrite <- F1; apply filter_In; split; auto; now apply file_of_spec). clear -E2 J.
    revert E2 J. generalize (@nil (string * tcompound)). induction b as [|f l IH]; intros db0 E J; [destruct J|].
    cbn [load_each] in E. destruct (read (snd f)) as [c|e0] eqn:R; [|discriminate]. destruct J as [->|J]; [eauto|]. eapply IH; eauto.
Qed.
End Load.
