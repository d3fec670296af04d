(** Proofs for C53. *)
From Verif Require Import Prelude M_Accounts M_Ledger Spec_Accounts Spec_Ledger Spec_Structure P_Accounts P_Reports.
From Coq Require Import Permutation Sorted NArith Nnat Arith.
Local Open Scope string_scope.

Lemma compare_nat x y : Ascii.compare x y = Nat.compare (nat_of_ascii x) (nat_of_ascii y).
Proof. unfold Ascii.compare, nat_of_ascii. apply N2Nat.inj_compare. Qed.
Lemma leb_text a b : str_leb a b = true <-> text_le a b.
Proof.
  unfold str_leb. revert b. induction a as [|x a IH]; intros [|y b]; cbn [String.compare text_le]; try (split; [auto|reflexivity]); try (split; [discriminate|tauto]).
  rewrite compare_nat. destruct (Nat.compare_spec (nat_of_ascii x) (nat_of_ascii y)) as [E|E|E].
  - assert (x = y) by (rewrite <- (ascii_nat_embedding x), <- (ascii_nat_embedding y), E; reflexivity). subst y. rewrite IH. split; [auto|]. intros [H|[_ H]]; [lia|auto].
  - split; auto.
  - split; [discriminate|]. intros [H|[H _]]; [lia|subst; lia].
Qed.
Lemma text_le_total a b : text_le a b \/ text_le b a.
Proof.
  revert b. induction a as [|x a IH]; intros [|y b]; cbn; auto. destruct (lt_eq_lt_dec (nat_of_ascii x) (nat_of_ascii y)) as [[H|H]|H]; auto.
  assert (x = y) by (rewrite <- (ascii_nat_embedding x), <- (ascii_nat_embedding y), H; reflexivity). subst y. destruct (IH b); auto.
Qed.
Lemma text_le_trans a b c : text_le a b -> text_le b c -> text_le a c.
Proof.
  revert b c. induction a as [|x a IH]; intros [|y b] [|z c]; cbn; try tauto. intros [H|[-> H]] [K|[-> K]]; [left; lia|left; lia|left; lia|right; split; eauto].
Qed.

(** Sorting pairs of a key and rows goes along with sorting the accounts. *)
Definition keyed (prefix : string) (a : acct) (p : string * list gls_row) : Prop := a_number a = Some (fst p) /\ rows_of prefix a (snd p).
Fixpoint insert_acct (a : acct) (l : list acct) : list acct :=
  match l with
  | [] => [a]
  | b :: r => match a_number a, a_number b with Some k, Some m => if str_leb k m then a :: l else b :: insert_acct a r | _, _ => a :: l end
  end.
Definition sort_acct (l : list acct) : list acct := fold_right insert_acct [] l.
Lemma insert_along prefix a p l ps : keyed prefix a p -> Forall2 (keyed prefix) l ps -> Forall2 (keyed prefix) (insert_acct a l) (insert_key p ps).
Proof.
  intros K F. induction F as [|b q l ps Kb F IH]; cbn [insert_acct insert_key]; [constructor; auto|]. destruct K as [N R]. destruct Kb as [Nb Rb]. rewrite N, Nb.
  destruct (str_leb (fst p) (fst q)); constructor; try (split; auto); auto. constructor; auto. split; auto.
Qed.
Lemma sort_along prefix l ps : Forall2 (keyed prefix) l ps -> Forall2 (keyed prefix) (sort_acct l) (sort_key ps).
Proof. induction 1 as [|a p l ps K F IH]; cbn; [constructor|]. apply insert_along; auto. Qed.
Lemma insert_acct_perm a l : Permutation (insert_acct a l) (a :: l).
Proof.
  induction l as [|b l IH]; cbn [insert_acct]; auto. destruct (a_number a), (a_number b); auto. destruct (str_leb s s0); auto. eapply perm_trans; [apply perm_skip, IH|]. constructor.
Qed.
Lemma sort_acct_perm l : Permutation (sort_acct l) l.
Proof. induction l as [|a l IH]; cbn; auto. eapply perm_trans; [apply insert_acct_perm|]. now apply perm_skip. Qed.
Lemma insert_acct_sorted a l : Forall numbered l -> numbered a -> StronglySorted number_le l -> StronglySorted number_le (insert_acct a l).
Proof.
  intros NL [k Ek] S. induction S as [|b l S IH F]; cbn [insert_acct]; [constructor; constructor|]. inversion NL as [|? ? [m Em] NL']; subst. rewrite Ek, Em.
  destruct (str_leb k m) eqn:L.
  - apply leb_text in L. assert (Hab : number_le a b). { intros x y Ex Ey. assert (x = k) by congruence. assert (y = m) by congruence. now subst. } constructor; [constructor; auto|]. constructor; auto.
    rewrite Forall_forall in *. intros c I x y Ex Ey. assert (x = k) by congruence. subst x. apply (text_le_trans _ m); auto. exact (F c I m y Em Ey).
  - assert (L' : text_le m k). { destruct (text_le_total m k) as [H|H]; auto. apply leb_text in H. congruence. }
    constructor; [now apply IH|]. rewrite Forall_forall in *. intros c I. apply (Permutation_in _ (insert_acct_perm a l)) in I. destruct I as [<-|I]; [|now apply F]. intros x y Ex Ey. assert (x = m) by congruence. assert (y = k) by congruence. now subst.
Qed.
Lemma sort_acct_sorted l : Forall numbered l -> StronglySorted number_le (sort_acct l).
Proof.
  induction l as [|a l IH]; intros N; cbn; [constructor|]. inversion N; subst. apply insert_acct_sorted; auto. rewrite Forall_forall in *. intros c I. apply (Permutation_in _ (sort_acct_perm l)) in I. auto.
Qed.
Lemma has_number_text k a m : a_number a = Some m -> has_number k a = true <-> m = k.
Proof. intros E. unfold has_number. rewrite E. apply String.eqb_eq. Qed.
Lemma insert_acct_stable k a l : Forall numbered l -> numbered a -> filter (has_number k) (insert_acct a l) = filter (has_number k) (a :: l).
Proof.
  intros NL [m Em]. induction l as [|b l IH]; cbn [insert_acct]; auto. inversion NL as [|? ? [n En] NL']; subst. rewrite Em, En. destruct (str_leb m n) eqn:L; auto.
  cbn [filter]. rewrite IH by auto. cbn [filter]. destruct (has_number k b) eqn:B; auto. destruct (has_number k a) eqn:A; auto.
  apply (has_number_text k b n En) in B. apply (has_number_text k a m Em) in A. subst. assert (text_le k k) by (destruct (text_le_total k k); auto). apply leb_text in H. congruence.
Qed.
Lemma sort_acct_by_number l : Forall numbered l -> by_number l (sort_acct l).
Proof.
  intros N. split; [apply sort_acct_perm|]. split; [now apply sort_acct_sorted|]. intros k. induction l as [|a l IH]; auto. inversion N; subst. cbn [sort_acct fold_right]. rewrite insert_acct_stable; auto.
  - cbn [filter]. rewrite <- IH by auto. reflexivity.
  - rewrite Forall_forall in *. intros c I. apply (Permutation_in _ (sort_acct_perm l)) in I. auto.
Qed.
Lemma keyed_numbered prefix l ps : Forall2 (keyed prefix) l ps -> Forall numbered l.
Proof. induction 1 as [|a p l ps [E _]]; constructor; auto. now exists (fst p). Qed.
Lemma keyed_rows prefix l ps : Forall2 (keyed prefix) l ps -> Forall2 (rows_of prefix) l (map snd ps).
Proof. induction 1 as [|a p l ps [_ R]]; cbn [map]; constructor; auto. Qed.
Lemma mapM_keyed prefix l : Forall (fun a => forall r, gls_rows prefix a = Ok r -> keyed prefix a r) l -> forall ps, mapM (gls_rows prefix) l = Ok ps -> Forall2 (keyed prefix) l ps.
Proof.
  induction 1 as [|a l H F IH]; intros ps E; cbn [mapM] in E; [injection E as <-; constructor|]. destruct (gls_rows prefix a) as [r|] eqn:R; cbn [bind] in E; [|discriminate].
  destruct (mapM (gls_rows prefix) l) as [rs|] eqn:M; cbn [bind] in E; [|discriminate]. injection E as <-. constructor; auto.
Qed.
Lemma gls_rows_keyed a : forall prefix r, gls_rows prefix a = Ok r -> keyed prefix a r.
Proof.
  induction a as [i n num ty pp p ks IH] using acct_ind'. intros prefix r. rewrite gls_rows_unfold. cbn [a_number a_kids a_type a_name]. destruct num as [k|]; [|discriminate].
  destruct (mapM (gls_rows (k ++ "/")) ks) as [subs|] eqn:E; cbn [bind]; [|discriminate]. intros H. injection H as <-. split; [reflexivity|]. cbn [snd].
  assert (F : Forall2 (keyed (k ++ "/")) ks subs). { apply mapM_keyed; auto. rewrite Forall_forall in *. intros a I r. now apply IH. }
  apply (rows_account prefix i n k ty pp p ks (sort_acct ks) (map snd (sort_key subs))).
  - apply sort_acct_by_number. eapply keyed_numbered. exact F.
  - apply keyed_rows, sort_along, F.
Qed.
Lemma begins_starts c a : number_starts (String c "") a = begins c a.
Proof.
  unfold number_starts, begins, starts_with. destruct (a_number a) as [[|d s]|]; auto. cbn. destruct (Ascii.ascii_dec c d) as [->|N].
  - rewrite Ascii.eqb_refl. destruct s; reflexivity.
  - symmetry. apply Ascii.eqb_neq. congruence.
Qed.
Theorem report_rows g rows : gls_report g = Ok rows -> structure_rows g rows.
Proof.
  unfold gls_report. destruct (existsb _ _); [discriminate|].
  destruct (mapM _ (filter (number_starts "I") _)) as [i|] eqn:Ei; cbn [bind]; [|discriminate].
  destruct (mapM _ (filter (number_starts "B") _)) as [b|] eqn:Eb; cbn [bind]; [|discriminate]. intros H. injection H as <-.
  assert (G : forall l ps, mapM (gls_rows "") l = Ok ps -> by_number l (sort_acct l) /\ Forall2 (rows_of "") (sort_acct l) (map snd (sort_key ps))).
  { intros l ps E. assert (F : Forall2 (keyed "") l ps). { apply mapM_keyed; auto. rewrite Forall_forall. intros a _ r. apply gls_rows_keyed. } split; [apply sort_acct_by_number; eapply keyed_numbered; exact F|]. apply keyed_rows, sort_along, F. }
  rewrite (filter_ext _ _ (begins_starts "I")) in Ei. rewrite (filter_ext _ _ (begins_starts "B")) in Eb.
  destruct (G _ _ Ei) as [A1 A2]. destruct (G _ _ Eb) as [B1 B2]. do 4 eexists. split; [exact A1|]. split; [exact B1|]. split; [exact A2|]. split; [exact B2|]. reflexivity.
Qed.
(** When it fails. *)
Lemma rows_err a : forall prefix e, gls_rows prefix a = Err e -> e = TypeError.
Proof.
  induction a as [i n num ty pp p ks IH] using acct_ind'. intros prefix e. rewrite gls_rows_unfold. cbn [a_number a_kids a_type a_name]. destruct num as [k|]; [|intros [= <-]; reflexivity].
  destruct (mapM (gls_rows (k ++ "/")) ks) as [subs|e'] eqn:E; cbn [bind]; [discriminate|]. intros [= <-]. clear -E IH. induction ks as [|x ks IHk]; cbn [mapM] in E; [discriminate|]. inversion IH; subst.
  destruct (gls_rows (k ++ "/") x) as [r|] eqn:R; cbn [bind] in E; [|injection E as <-; eauto]. destruct (mapM (gls_rows (k ++ "/")) ks) as [rs|] eqn:M; cbn [bind] in E; [discriminate|]. injection E as <-. auto.
Qed.
Lemma mapM_rows_total l : (forall x, In x (flat_map acct_and_descendants l) -> numbered x) -> exists rs, mapM (gls_rows "") l = Ok rs.
Proof.
  induction l as [|a l IH]; intros H; cbn [mapM]; [eauto|]. destruct (gls_rows_total a "") as [r ->]; [intros; apply H; cbn; apply in_or_app; auto|]. cbn [bind].
  destruct IH as [rs ->]; [intros; apply H; cbn; apply in_or_app; auto|]. cbn. eauto.
Qed.
Lemma mapM_rows_err l e : mapM (gls_rows "") l = Err e -> e = TypeError.
Proof.
  induction l as [|a l IH]; cbn [mapM]; [discriminate|]. destruct (gls_rows "" a) as [r|] eqn:R; cbn [bind]; [|intros [= <-]; eapply rows_err; eauto].
  destruct (mapM (gls_rows "") l) as [rs|]; cbn [bind]; [discriminate|]. intros [= <-]. auto.
Qed.
Theorem report_fails g : 
  (gls_report g = Err AttributeError <-> exists a, In a (g_accounts g) /\ a_number a = None) /\
  (gls_report g = Err TypeError <-> (forall a, In a (g_accounts g) -> numbered a) /\
     exists t a, In t (g_accounts g) /\ (begins "I" t = true \/ begins "B" t = true) /\ In a (acct_and_descendants t) /\ a_number a = None) /\
  (forall e, gls_report g = Err e -> e = AttributeError \/ e = TypeError).
Proof.
  unfold gls_report. destruct (existsb (fun a => match a_number a with None => true | Some _ => false end) (g_accounts g)) eqn:X.
  - apply existsb_exists in X. destruct X as (a & I & N). destruct (a_number a) eqn:Na; [discriminate|]. split; [|split].
    + split; eauto.
    + split; [discriminate|]. intros [H _]. destruct (H a I). congruence.
    + intros e [= <-]. auto.
  - assert (NA : forall a, In a (g_accounts g) -> numbered a).
    { intros a I. destruct (a_number a) as [k|] eqn:E; [now exists k|]. exfalso. assert (existsb (fun a => match a_number a with None => true | Some _ => false end) (g_accounts g) = true) by (apply existsb_exists; exists a; rewrite E; auto). congruence. }
    rewrite (filter_ext _ _ (begins_starts "I")), (filter_ext _ _ (begins_starts "B")).
    set (li := filter (begins "I") (g_accounts g)). set (lb := filter (begins "B") (g_accounts g)).
    assert (T : forall r, (do i <- mapM (gls_rows "") li; do b <- mapM (gls_rows "") lb; Ok (concat (map snd (sort_key i)) ++ concat (map snd (sort_key b)))%list) = Err r -> r = TypeError).
    { intros r. destruct (mapM (gls_rows "") li) as [i|] eqn:Ei; cbn [bind]; [|intros [= <-]; eapply mapM_rows_err; eauto]. destruct (mapM (gls_rows "") lb) as [b|] eqn:Eb; cbn [bind]; [discriminate|intros [= <-]; eapply mapM_rows_err; eauto]. }
    split; [|split].
    + split; [intros H; apply T in H; discriminate|]. intros (a & I & N). destruct (NA a I). congruence.
    + split.
      * intros H. split; auto.
        assert (S : (forall a, In a (flat_map acct_and_descendants (li ++ lb)) -> numbered a) \/ exists a, In a (flat_map acct_and_descendants (li ++ lb)) /\ a_number a = None).
        { generalize (flat_map acct_and_descendants (li ++ lb)). induction l as [|x l IH]; [left; intros a []|]. destruct (a_number x) as [k|] eqn:E; [|right; exists x; split; [left|]; auto].
          destruct IH as [IH|(a & I & N)]; [left; intros a [<-|I]; [now exists k|auto]|right; exists a; split; [right|]; auto]. }
        destruct S as [S|(a & I & N)].
        -- exfalso. rewrite flat_map_app in S. destruct (mapM_rows_total li) as [i Ei]; [intros x Ix; apply S; apply in_or_app; auto|]. destruct (mapM_rows_total lb) as [b Eb]; [intros x Ix; apply S; apply in_or_app; auto|].
           rewrite Ei, Eb in H. cbn [bind] in H. discriminate.
        -- apply in_flat_map in I. destruct I as (t & It & Ia). exists t, a. apply in_app_or in It. destruct It as [It|It]; apply filter_In in It; tauto.
      * intros (_ & t & a & It & Bt & Ia & N). destruct (do i <- mapM (gls_rows "") li; do b <- mapM (gls_rows "") lb; Ok (concat (map snd (sort_key i)) ++ concat (map snd (sort_key b)))%list) as [rows|e] eqn:R; [|now rewrite (T e eq_refl)].
        exfalso. assert (R' : gls_report g = Ok rows). { unfold gls_report. rewrite X, (filter_ext _ _ (begins_starts "I")), (filter_ext _ _ (begins_starts "B")). exact R. }
        destruct (gls_report_needs_numbers g a rows R') as [k E]; [|congruence]. rewrite (filter_ext _ _ (begins_starts "I")), (filter_ext _ _ (begins_starts "B")). apply in_flat_map. exists t. split; auto. apply in_or_app. rewrite !filter_In. tauto.
    + intros e H. apply T in H. auto.
Qed.
