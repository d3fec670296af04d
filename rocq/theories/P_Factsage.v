(** Proofs about [M_Factsage]. *)
From Verif Require Import Prelude M_Stoichiometry M_Text Spec_Text P_Text P_Table M_Factsage Spec_Factsage.
Local Open Scope list_scope.

Section DictLemmas.
Context {K V : Type} (dec : forall a b : K, {a = b} + {a <> b}).
Lemma dput_new d k (v : V) : ~ In k (map fst d) -> dput dec d k v = d ++ [(k, v)].
Proof. induction d as [|[k' v'] d IH]; cbn; intros H; auto. destruct (dec k' k); [tauto|]. rewrite IH; tauto. Qed.
Lemma dput_old pre k (v0 v : V) suf : ~ In k (map fst pre) -> dput dec (pre ++ (k, v0) :: suf) k v = pre ++ (k, v) :: suf.
Proof. induction pre as [|[k' v'] d IH]; cbn; intros H. - destruct (dec k k); congruence. - destruct (dec k' k); [tauto|]. rewrite IH; tauto. Qed.
Lemma dget_old pre k (v : V) suf : ~ In k (map fst pre) -> dget dec (pre ++ (k, v) :: suf) k = Ok v.
Proof. induction pre as [|[k' v'] d IH]; cbn; intros H. - destruct (dec k k); congruence. - destruct (dec k' k); [tauto|]. apply IH; tauto. Qed.
Lemma dget_some d k (v : V) : dget dec d k = Ok v -> exists pre suf, d = pre ++ (k, v) :: suf /\ ~ In k (map fst pre).
Proof.
  induction d as [|[k' v'] d IH]; cbn; [discriminate|]. destruct (dec k' k) as [->|N].
  - intros [= ->]. exists [], d. auto.
  - intros H. destruct (IH H) as (pre & suf & -> & I). exists ((k', v') :: pre), suf. cbn. split; auto. tauto.
Qed.
End DictLemmas.

(** * Words *)
Section Words.
Context (float_of : text -> res Qc).
Notation term_is := (term_is float_of).
Notation record_is := (record_is float_of).
Notation phase_is := (phase_is float_of).
Notation fs_line := (fs_line float_of).

Lemma read_terms_row sym no extra r lo hi ts n i :
  i = (2 + length extra)%nat -> n = (length extra + 8)%nat ->
  Forall2 term_is (row_terms r) ts ->
  read_terms float_of (sym :: no :: extra ++ row_words r ++ [lo; hi]) i n = Ok ts.
Proof.
  intros -> HN F. unfold read_terms, number.
  assert (N : forall k, nth_error (sym :: no :: extra ++ row_words r ++ [lo; hi]) (2 + length extra + k) = nth_error (row_words r ++ [lo; hi]) k).
  { intros k. replace (2 + length extra + k)%nat with (S (S (length extra + k))) by lia. cbn [nth_error]. rewrite nth_error_app2 by lia. f_equal. lia. }
  pose proof (N 0%nat) as N0. pose proof (N 1%nat) as N1. pose proof (N 2%nat) as N2. pose proof (N 3%nat) as N3.
  rewrite Nat.add_0_r in N0. replace (2 + length extra + 1)%nat with (S (2 + length extra)) in N1 by lia.
  replace (2 + length extra + 2)%nat with (S (S (2 + length extra))) in N2 by lia. replace (2 + length extra + 3)%nat with (S (S (S (2 + length extra)))) in N3 by lia.
  rewrite N0, N1, N2, N3. clear N N0 N1 N2 N3.
  assert (LE : (length (sym :: no :: extra ++ row_words r ++ [lo; hi]) =? n)%nat = match row_second r with Some _ => true | None => false end).
  { cbn [length]. rewrite !app_length. unfold row_words. rewrite app_length. destruct (row_second r) as [[? ?]|]; cbn [length]; [apply Nat.eqb_eq|apply Nat.eqb_neq]; lia. }
  rewrite LE. clear LE HN. unfold row_terms, row_words in *.
  destruct r as [[c e] [[c2 e2]|]]; cbn [row_first row_second fst snd app length nth_error] in *.
  - inversion F as [|? v1 ? l1 [A1 A2] F1]; subst. inversion F1 as [|? v2 ? l2 [B1 B2] F2]; subst. inversion F2; subst. cbn in *.
    rewrite A1, A2. cbn [bind]. rewrite B1, B2. cbn [bind]. now destruct v1, v2.
  - inversion F as [|? v1 ? l1 [A1 A2] F1]; subst. inversion F1; subst. cbn in *. rewrite A1, A2. cbn [bind]. now destruct v1.
Qed.
Lemma numbers_end l (a b : text) : nth_error (l ++ [a; b]) (length (l ++ [a; b]) - 1) = Some b /\ nth_error (l ++ [a; b]) (length (l ++ [a; b]) - 2) = Some a.
Proof.
  rewrite app_length. cbn [length]. replace (length l + 2 - 1)%nat with (length l + 1)%nat by lia. replace (length l + 2 - 2)%nat with (length l + 0)%nat by lia.
  rewrite !nth_error_app2 by lia. replace (length l + 1 - length l)%nat with 1%nat by lia. replace (length l + 0 - length l)%nat with 0%nat by lia. auto.
Qed.
Lemma row_line_end sym extra rc r : exists l, row_line sym extra rc r = l ++ [rec_lo rc; rec_hi rc].
Proof. exists (sym :: rec_no rc :: extra ++ row_words r). unfold row_line. cbn [app]. now rewrite <- app_assoc. Qed.

Lemma new_record_row sym extra rc r ph ts lo hi i n : i = (2 + length extra)%nat -> n = (length extra + 8)%nat ->
  Forall2 term_is (row_terms r) ts -> float_of (rec_lo rc) = Ok lo -> float_of (rec_hi rc) = Ok hi -> ~ In hi (map fst (fp_records ph)) ->
  new_record float_of (row_line sym extra rc r) ph i n = Ok (mkfp (fp_symbol ph) (fp_DHref ph) (fp_Sref ph) (fp_records ph ++ [(hi, mkfr lo hi ts)]), hi).
Proof.
  intros I N F L H D. unfold new_record, number_from_end. destruct (row_line_end sym extra rc r) as [l E].
  destruct (numbers_end l (rec_lo rc) (rec_hi rc)) as [E1 E2]. rewrite <- E in E1, E2. unfold number at 1 2. rewrite E1, E2, L, H. cbn [bind].
  unfold row_line at 1. rewrite (read_terms_row sym (rec_no rc) extra r _ _ ts n i I N F). cbn [bind]. now rewrite dput_new by auto.
Qed.

(** The remaining rows of a record. *)
Lemma rows_ok sym rc rows : forall tss acc ph rs lo hi ts,
  Forall2 (Forall2 term_is) (map row_terms rows) tss -> ~ In sym (map fst acc) -> ~ In hi (map fst rs) -> fp_records ph = rs ++ [(hi, mkfr lo hi ts)] ->
  foldM fs_line (map (row_line sym [] rc) rows) (mkfst (acc ++ [(sym, ph)]) sym (rec_no rc) (Some hi)) =
    Ok (mkfst (acc ++ [(sym, mkfp (fp_symbol ph) (fp_DHref ph) (fp_Sref ph) (rs ++ [(hi, mkfr lo hi (ts ++ concat tss))]))]) sym (rec_no rc) (Some hi)).
Proof.
  induction rows as [|r rows IH]; intros tss acc ph rs lo hi ts F A D E; cbn [map] in *; inversion F; subst; clear F.
  - cbn [foldM concat]. rewrite app_nil_r, <- E. now destruct ph.
  - rename y into t1, l' into tss. rename H1 into F1, H3 into F2. cbn [foldM].
    assert (X : fs_line (mkfst (acc ++ [(sym, ph)]) sym (rec_no rc) (Some hi)) (row_line sym [] rc r) =
      Ok (mkfst (acc ++ [(sym, mkfp (fp_symbol ph) (fp_DHref ph) (fp_Sref ph) (rs ++ [(hi, mkfr lo hi (ts ++ t1))]))]) sym (rec_no rc) (Some hi))).
    { unfold M_Factsage.fs_line. assert (L : (length (row_line sym [] rc r) <? 2)%nat = false) by (apply Nat.ltb_ge; cbn [row_line length]; lia).
      rewrite L. unfold row_line at 1. cbn [app st_phase st_record st_phases st_Tmax]. destruct (tdec sym sym) as [_|]; [|congruence]. cbn [negb].
      rewrite (dget_old tdec acc sym ph []) by auto. cbn [bind]. destruct (tdec (rec_no rc) (rec_no rc)) as [_|]; [|congruence]. cbn [negb].
      unfold old_record. pose proof (read_terms_row sym (rec_no rc) [] r (rec_lo rc) (rec_hi rc) t1 8 2 eq_refl eq_refl F1) as R.
      change (sym :: rec_no rc :: [] ++ row_words r ++ [rec_lo rc; rec_hi rc]) with (row_line sym [] rc r) in R.
      assert (C : exists c e, number float_of (row_line sym [] rc r) 2 = Ok c /\ number float_of (row_line sym [] rc r) 3 = Ok e).
      { unfold read_terms in R. destruct (number float_of (row_line sym [] rc r) 2) as [c|]; [|discriminate]. cbn [bind] in R.
        destruct (number float_of (row_line sym [] rc r) 3) as [e|]; [|discriminate]. eauto. }
      destruct C as (c & e & -> & ->). cbn [bind]. rewrite E. rewrite (dget_old M_Factsage.qdec rs hi) by auto. cbn [bind]. rewrite R. cbn [bind fr_Tmin fr_Tmax fr_terms].
      rewrite (dput_old M_Factsage.qdec rs hi) by auto. cbn [bind]. rewrite (dput_old tdec acc sym) by auto. reflexivity. }
    rewrite X. cbn [bind]. rewrite (IH tss acc _ rs lo hi (ts ++ t1)) by auto. cbn [fp_symbol fp_DHref fp_Sref concat]. now rewrite app_assoc.
Qed.

Lemma terms_split rc ts : Forall2 term_is (rec_terms rc) ts ->
  exists t0 tss, Forall2 term_is (row_terms (rec_row rc)) t0 /\ Forall2 (Forall2 term_is) (map row_terms (rec_rows rc)) tss /\ ts = t0 ++ concat tss.
Proof.
  unfold rec_terms. intros F. apply Forall2_app_inv_l in F. destruct F as (t0 & t1 & F0 & F1 & ->). exists t0.
  assert (G : forall rs ts, Forall2 term_is (concat (map row_terms rs)) ts -> exists tss, Forall2 (Forall2 term_is) (map row_terms rs) tss /\ ts = concat tss).
  { induction rs as [|r rs IH]; cbn [map concat]; intros ts F. - inversion F; subst. exists []. split; constructor.
    - apply Forall2_app_inv_l in F. destruct F as (a & b & Fa & Fb & ->). destruct (IH b Fb) as (tss & FF & ->). exists (a :: tss). split; auto. }
  destruct (G _ _ F1) as (tss & FF & ->). eauto.
Qed.

(** A record of a phase that has been met. *)
Lemma record_next sym rc v acc ph prev tmax : record_is rc v -> ~ In sym (map fst acc) -> ~ In (fst v) (map fst (fp_records ph)) -> rec_no rc <> prev ->
  foldM fs_line (record_lines sym [] rc) (mkfst (acc ++ [(sym, ph)]) sym prev tmax) =
    Ok (mkfst (acc ++ [(sym, mkfp (fp_symbol ph) (fp_DHref ph) (fp_Sref ph) (fp_records ph ++ [v]))]) sym (rec_no rc) (Some (fst v))).
Proof.
  intros (L & H & K & T) A D N. destruct (terms_split rc _ T) as (t0 & tss & F0 & F1 & E). unfold record_lines. cbn [foldM].
  assert (X : fs_line (mkfst (acc ++ [(sym, ph)]) sym prev tmax) (row_line sym [] rc (rec_row rc)) =
     Ok (mkfst (acc ++ [(sym, mkfp (fp_symbol ph) (fp_DHref ph) (fp_Sref ph) (fp_records ph ++ [(fst v, mkfr (fr_Tmin (snd v)) (fst v) t0)]))]) sym (rec_no rc) (Some (fst v)))).
  { unfold M_Factsage.fs_line. assert (LL : (length (row_line sym [] rc (rec_row rc)) <? 2)%nat = false) by (apply Nat.ltb_ge; cbn [row_line length]; lia).
    rewrite LL. unfold row_line at 1. cbn [app st_phase st_record st_phases st_Tmax]. destruct (tdec sym sym) as [_|]; [|congruence]. cbn [negb].
    rewrite (dget_old tdec acc sym ph []) by auto. cbn [bind]. destruct (tdec (rec_no rc) prev) as [|_]; [congruence|]. cbn [negb].
    rewrite (new_record_row sym [] rc (rec_row rc) ph t0 (fr_Tmin (snd v)) (fst v) 2 8); auto; [|congruence]. cbn [bind fst snd].
    rewrite (dput_old tdec acc sym) by auto. reflexivity. }
  rewrite X. cbn [bind]. erewrite rows_ok; eauto; [|reflexivity]. cbn [fp_symbol fp_DHref fp_Sref]. rewrite <- E. destruct v as [k [a b c]]. cbn [fst snd fr_Tmin fr_Tmax fr_terms] in *. subst b. reflexivity.
Qed.
Lemma foldM_app {A S} (f : S -> A -> res S) l1 l2 s : foldM f (l1 ++ l2) s = do s' <- foldM f l1 s; foldM f l2 s'.
Proof. revert s. induction l1 as [|a l IH]; intros s; cbn [app foldM bind]; auto. destruct (f s a); cbn [bind]; auto. Qed.

Lemma last_default {A} (l : list A) x d : last (x :: l) d = last l x.
Proof. revert x d. induction l as [|y l IH]; intros x d; auto. cbn [last] in *. destruct l; auto. Qed.

Lemma records_next sym rcs : forall vs acc ph prev tmax, Forall2 record_is rcs vs -> ~ In sym (map fst acc) -> NoDup (map fst (fp_records ph ++ vs)) -> changing prev (map rec_no rcs) ->
  exists tmax', (tmax <> None -> tmax' <> None) /\ foldM fs_line (concat (map (record_lines sym []) rcs)) (mkfst (acc ++ [(sym, ph)]) sym prev tmax) =
    Ok (mkfst (acc ++ [(sym, mkfp (fp_symbol ph) (fp_DHref ph) (fp_Sref ph) (fp_records ph ++ vs))]) sym (last (map rec_no rcs) prev) tmax').
Proof.
  induction rcs as [|rc rcs IH]; intros vs acc ph prev tmax F A D C; inversion F; subst; clear F.
  - exists tmax. split; auto. cbn [map concat foldM]. rewrite app_nil_r. now destruct ph.
  - rename y into v, l' into vs. cbn [map concat changing] in *. destruct C as [C1 C2]. rewrite foldM_app.
    rewrite (record_next sym rc v acc ph prev tmax); auto.
    2:{ rewrite map_app in D. cbn [map] in D. apply NoDup_remove_2 in D. rewrite in_app_iff in D. tauto. }
    cbn [bind]. destruct (IH vs acc (mkfp (fp_symbol ph) (fp_DHref ph) (fp_Sref ph) (fp_records ph ++ [v])) (rec_no rc) (Some (fst v)) H3 A) as (t & TN & E); auto.
    { cbn [fp_records]. now rewrite <- app_assoc. }
    exists t. split; [intros _; apply TN; discriminate|]. rewrite E. cbn [fp_symbol fp_DHref fp_Sref fp_records]. rewrite <- app_assoc, last_default. reflexivity.
Qed.


Lemma last_app_default {A} (l1 l2 : list A) d : last (l1 ++ l2) d = last l2 (last l1 d).
Proof. revert d. induction l1 as [|x l IH]; intros d; auto. cbn [app]. now rewrite !last_default. Qed.
(** A whole phase. *)
Lemma phase_next p v acc sym prev tmax : phase_is p v -> ~ In (ph_sym p) (map fst acc) -> ph_sym p <> sym -> changing prev (map rec_no (records_of p)) ->
  exists tmax', tmax' <> None /\ foldM fs_line (phase_lines p) (mkfst acc sym prev tmax) =
    Ok (mkfst (acc ++ [v]) (ph_sym p) (last (map rec_no (records_of p)) prev) tmax').
Proof.
  intros (K & Y & H & S & R & D) A N C. unfold records_of in *. cbn [map changing] in C. destruct C as [C1 C2]. destruct v as [k q]. cbn [fst snd] in *. subst k.
  destruct (fp_records q) as [|w ws] eqn:RE; inversion R as [|? ? ? ? R1 R2]; subst; clear R.
  destruct R1 as (L1 & L2 & L3 & L4). destruct (terms_split _ _ L4) as (t0 & tss & F0 & F1 & E).
  assert (X : fs_line (mkfst acc sym prev tmax) (row_line (ph_sym p) [ph_H p; ph_S p] (ph_rec p) (rec_row (ph_rec p))) =
     Ok (mkfst (acc ++ [(ph_sym p, mkfp (ph_sym p) (fp_DHref q) (fp_Sref q) [(fst w, mkfr (fr_Tmin (snd w)) (fst w) t0)])]) (ph_sym p) (rec_no (ph_rec p)) (Some (fst w)))).
  { unfold M_Factsage.fs_line. assert (LL : (length (row_line (ph_sym p) [ph_H p; ph_S p] (ph_rec p) (rec_row (ph_rec p))) <? 2)%nat = false) by (apply Nat.ltb_ge; cbn [row_line length]; lia).
    rewrite LL. unfold row_line at 1. cbn [app st_phase st_record st_phases st_Tmax]. destruct (tdec (ph_sym p) sym) as [|_]; [congruence|]. cbn [negb].
    unfold number at 1 2. unfold row_line at 1 2. cbn [app nth_error]. rewrite H, S. cbn [bind].
    destruct (tdec (rec_no (ph_rec p)) prev) as [|_]; [congruence|]. cbn [negb].
    rewrite (new_record_row (ph_sym p) [ph_H p; ph_S p] (ph_rec p) (rec_row (ph_rec p)) _ t0 (fr_Tmin (snd w)) (fst w) 4 10); auto; [|congruence]. cbn [bind fst snd].
    rewrite dput_new by auto. reflexivity. }
  unfold phase_lines. rewrite foldM_app. unfold record_lines at 1. cbn [foldM]. rewrite X. cbn [bind].
  rewrite (rows_ok (ph_sym p) (ph_rec p) (rec_rows (ph_rec p)) tss acc _ [] (fr_Tmin (snd w)) (fst w) t0); auto. cbn [bind fp_symbol fp_DHref fp_Sref app].
  assert (W : (fst w, mkfr (fr_Tmin (snd w)) (fst w) (t0 ++ concat tss)) = w). { rewrite <- E. destruct w as [k [a b c]]. cbn in *. congruence. }
  rewrite W. clear W X.
  destruct (records_next (ph_sym p) (ph_recs p) ws acc (mkfp (ph_sym p) (fp_DHref q) (fp_Sref q) [w]) (rec_no (ph_rec p)) (Some (fst w))) as (t & TN & T); auto.
  exists t. split; [apply TN; discriminate|]. rewrite T. cbn [fp_symbol fp_DHref fp_Sref fp_records app map]. rewrite last_default. rewrite <- RE, <- Y. now destruct q.
Qed.

Lemma changing_app prev l1 l2 : changing prev (l1 ++ l2) <-> changing prev l1 /\ changing (last l1 prev) l2.
Proof. revert prev. induction l1 as [|x l IH]; intros prev; cbn [app changing]. - cbn. tauto. - rewrite IH, last_default. tauto. Qed.

Lemma listing_ok ps : forall vs acc sym prev tmax, Forall2 phase_is ps vs -> NoDup (map fst acc ++ map ph_sym ps) -> (match ps with p :: _ => ph_sym p <> sym | [] => True end) ->
  changing prev (numbers ps) ->
  exists s', foldM fs_line (listing ps) (mkfst acc sym prev tmax) = Ok s' /\ st_phases s' = acc ++ vs /\ st_phase s' = last (map ph_sym ps) sym /\
    st_record s' = last (numbers ps) prev /\ (tmax <> None \/ ps <> [] -> st_Tmax s' <> None).
Proof.
  induction ps as [|p ps IH]; intros vs acc sym prev tmax F N Y C; inversion F; subst; clear F.
  - eexists. split; [reflexivity|]. cbn. rewrite app_nil_r. repeat split; auto. tauto.
  - rename y into v, l' into vs. unfold listing, numbers in *. cbn [map concat] in *. apply changing_app in C. destruct C as [C1 C2]. rewrite foldM_app.
    destruct (phase_next p v acc sym prev tmax) as (t & TN & E); auto.
    { apply NoDup_remove_2 in N. rewrite in_app_iff in N. tauto. }
    rewrite E. cbn [bind].
    destruct (IH vs (acc ++ [v]) (ph_sym p) (last (map rec_no (records_of p)) prev) t) as (s' & E' & S' & P' & R' & T'); auto.
    { destruct H1 as (K & _). rewrite map_app. cbn [map]. rewrite K, <- app_assoc. exact N. }
    { destruct ps as [|p' ps']; auto. intros Q. cbn [map] in N. apply NoDup_remove_2 in N. apply N. rewrite in_app_iff. right. cbn. auto. }
    exists s'. split; auto. rewrite S', <- app_assoc. split; [reflexivity|]. rewrite P', R', last_default. repeat split; auto.
    clear. rewrite last_app_default. reflexivity.
Qed.
End Words.

(** * Raw lines *)
Lemma spaces_S n : spaces (S n) = sp :: spaces n. Proof. reflexivity. Qed.
Lemma plain_no_sp w c : plain w -> In c w -> c <> sp. Proof. intros [_ H] I. now apply H. Qed.
Lemma plain_word w : plain w -> word w.
Proof. intros [N H]. split; auto. intros c I [E|E]; destruct (H c I) as (A & B & _); congruence. Qed.

(** ** replace *)
Section Replace.
Variables (p r : text).
Hypothesis P : plain p.
Definition pat : text := sp :: p ++ [sp].
Notation rep := (replace_from pat r).
Lemma pat_other c t : c <> sp -> starts_with pat (c :: t) = false.
Proof. intros H. cbn [pat starts_with]. destruct (Ascii.eqb sp c) eqn:E; auto. apply Ascii.eqb_eq in E. congruence. Qed.
Lemma rep_word w t : (forall c, In c w -> c <> sp) -> rep 0 (w ++ t) = w ++ rep 0 t.
Proof. induction w as [|c w IH]; intros H; auto. cbn [app replace_from]. change (c :: w ++ t) with ((c :: w) ++ t). cbn [app]. rewrite pat_other by (apply H; cbn; auto). f_equal. apply IH. intros; apply H; cbn; auto. Qed.
Lemma starts_app q t : starts_with q (q ++ t) = true.
Proof. induction q as [|c q IH]; auto. cbn. now rewrite Ascii.eqb_refl. Qed.
Lemma skip_app q t : rep (length q) (q ++ t) = rep 0 t.
Proof. induction q as [|c q IH]; cbn [length app replace_from]; auto. Qed.
(** Two words, each followed by a separator: one is the beginning of the other only if equal. *)
Lemma starts_word a rest q : (forall c, In c q -> c <> sp) -> (forall c, In c a -> c <> sp) -> match rest with c :: _ => c = sp \/ c = nl | [] => True end ->
  (forall c, In c q -> c <> nl) -> starts_with (q ++ [sp]) (a ++ rest) = true -> a = q /\ exists rest', rest = sp :: rest'.
Proof.
  revert a. induction q as [|c q IH]; intros a Q A R QN H.
  - destruct a as [|d a]; cbn [app starts_with] in H. + destruct rest as [|e rest]; [discriminate|]. apply andb_true_iff in H. destruct H as [H _]. apply Ascii.eqb_eq in H. subst e. eauto.
    + apply andb_true_iff in H. destruct H as [H _]. apply Ascii.eqb_eq in H. exfalso. apply (A d); cbn; auto.
  - destruct a as [|d a]; cbn [app starts_with] in H.
    + destruct rest as [|e rest]; [discriminate|]. apply andb_true_iff in H. destruct H as [H _]. apply Ascii.eqb_eq in H. subst e. exfalso. destruct R as [R|R]; [apply (Q c)|apply (QN c)]; cbn; auto.
    + apply andb_true_iff in H. destruct H as [H1 H]. apply Ascii.eqb_eq in H1. subst d. destruct (IH a) as [-> E]; auto; try (intros; [apply Q|apply A|apply QN]; cbn; auto); intros e I; [apply Q|apply A|apply QN]; cbn; auto.
Qed.
Lemma rep_spaces n t : rep 0 (spaces (S n) ++ t) = spaces n ++ rep 0 (sp :: t).
Proof.
  induction n as [|n IH]; auto. rewrite spaces_S. cbn [app]. rewrite spaces_S at 1. cbn [app].
  assert (E : starts_with pat (sp :: sp :: spaces n ++ t) = false).
  { cbn [pat starts_with]. destruct p as [|c q] eqn:PE; [destruct P; congruence|]. cbn [app starts_with]. rewrite Ascii.eqb_refl. cbn [andb].
    destruct (Ascii.eqb c sp) eqn:D; auto. apply Ascii.eqb_eq in D. exfalso. apply (plain_no_sp _ c P); cbn; auto. }
  cbn [replace_from]. rewrite E. rewrite spaces_S. cbn [app]. f_equal. rewrite spaces_S in IH. cbn [app] in IH. exact IH.
Qed.
Lemma rep_tail tail : tail = [] \/ (exists k, tail = spaces k ++ [nl]) -> rep 0 tail = tail.
Proof.
  intros [->|[k ->]]; auto. destruct k as [|k]. - cbn [spaces repeat app]. change [nl] with ([nl] ++ []) at 1. rewrite rep_word; auto. intros c [<-|[]]. discriminate.
  - rewrite rep_spaces. assert (E : starts_with pat [sp; nl] = false).
    { cbn [pat starts_with]. destruct p as [|c q] eqn:PE; [destruct P; congruence|]. cbn [app starts_with]. rewrite Ascii.eqb_refl. cbn [andb].
      destruct (Ascii.eqb c nl) eqn:D; auto. apply Ascii.eqb_eq in D. exfalso. destruct P as [_ H]. apply (H c); cbn; auto. }
    replace (rep 0 [sp; nl]) with [sp; nl].
    + clear. induction k; auto. cbn [spaces repeat app]. f_equal. exact IHk.
    + cbn [replace_from]. rewrite E. now rewrite pat_other by discriminate.
Qed.
Lemma rep_same n t : rep 0 (spaces (S n) ++ p ++ sp :: t) = spaces n ++ r ++ rep 0 t.
Proof.
  rewrite rep_spaces. f_equal. assert (E : sp :: p ++ sp :: t = pat ++ t) by (cbn [pat app]; now rewrite <- app_assoc). 
  cbn [replace_from]. rewrite E, starts_app. f_equal. replace (pred (length pat)) with (length (p ++ [sp])) by reflexivity.
  replace (p ++ sp :: t) with ((p ++ [sp]) ++ t) by (now rewrite <- app_assoc). apply skip_app.
Qed.
Lemma rep_other n a rest : plain a -> match rest with c :: _ => c = sp \/ c = nl | [] => True end -> a <> p \/ match rest with c :: _ => c <> sp | [] => True end ->
  rep 0 (spaces n ++ a ++ rest) = spaces n ++ a ++ rep 0 rest.
Proof.
  intros A R D. destruct n as [|n]. - cbn [spaces repeat app]. apply rep_word. intros c. now apply plain_no_sp.
  - rewrite rep_spaces. assert (E : starts_with pat (sp :: a ++ rest) = false).
    { apply not_true_is_false. intros H. cbn [pat starts_with] in H. apply andb_true_iff in H. destruct H as [_ H]. apply starts_word in H; auto.
      - destruct H as [-> [rest' ->]]. destruct D; congruence. - intros c. now apply plain_no_sp. - intros c. now apply plain_no_sp. - intros c I. destruct P as [_ H']. now apply H'. }
    cbn [replace_from]. rewrite E. rewrite rep_word by (intros c; now apply plain_no_sp). rewrite (repeat_cons n sp : spaces (S n) = spaces n ++ [sp]). now rewrite <- !app_assoc.
Qed.
End Replace.

Definition sepstart (t : text) : Prop := match t with c :: _ => c = sp \/ c = nl | [] => True end.
Definition tail_ok (t : text) : Prop := t = [] \/ exists k, t = spaces k ++ [nl].
Lemma tail_start t : tail_ok t -> sepstart t.
Proof. intros [->|[[|k] ->]]; cbn; auto. Qed.
Lemma blocks_cons n ns a ws : blocks (combine (n :: ns) (a :: ws)) = spaces n ++ a ++ blocks (combine ns ws).
Proof. unfold blocks. cbn [combine map concat fst snd]. now rewrite <- app_assoc. Qed.
Lemma blocks_start ns ws tail : Forall (fun n => (1 <= n)%nat) ns -> tail_ok tail -> sepstart (blocks (combine ns ws) ++ tail).
Proof.
  intros F T. destruct ns as [|n ns]; [now apply tail_start|]. destruct ws as [|w ws]; [now apply tail_start|]. rewrite blocks_cons.
  inversion F; subst. destruct n; [lia|]. cbn. auto.
Qed.
Lemma no_twice_tl p a ws : no_twice p (a :: ws) -> no_twice p ws. Proof. cbn [no_twice]. tauto. Qed.

(** A word for another. *)
Definition put (p r a : text) : text := if tdec a p then r else a.
Lemma swap_blocks p r tail : plain p -> tail_ok tail -> forall ws ns, length ns = length ws -> Forall plain ws -> no_twice p ws -> Forall (fun n => (1 <= n)%nat) (tl ns) ->
  (forall a, hd_error ws = Some a -> hd_error ns = Some 0%nat -> a <> p) ->
  replace_from (pat p) (sp :: r ++ [sp]) 0 (blocks (combine ns ws) ++ tail) = blocks (combine ns (map (put p r) ws)) ++ tail.
Proof.
  intros P T. induction ws as [|a ws IH]; intros ns L W N F Z.
  - destruct ns; [|discriminate]. cbn [combine blocks map concat app]. now apply rep_tail.
  - destruct ns as [|n ns]; [discriminate|]. injection L as L. cbn [tl] in F. inversion W as [|? ? Wa Ws]; subst. cbn [map]. rewrite !blocks_cons, <- !app_assoc.
    unfold put at 1. destruct (tdec a p) as [->|A].
    + destruct n as [|n]. { exfalso. now apply (Z p). }
      destruct ws as [|b ws]. { cbn [no_twice] in N. tauto. }
      destruct ns as [|m ns]; [discriminate|]. inversion F; subst. destruct m as [|m]; [lia|].
      rewrite blocks_cons, (spaces_S m). cbn [app]. rewrite rep_same by auto.
      assert (B : b <> p). { cbn [no_twice] in N. intros ->. tauto. }
      replace ((spaces m ++ b ++ blocks (combine ns ws)) ++ tail) with (blocks (combine (m :: ns) (b :: ws)) ++ tail) by (now rewrite blocks_cons).
      rewrite IH; auto.
      * cbn [map]. rewrite !blocks_cons. rewrite (spaces_S m), (repeat_cons n sp : spaces (S n) = spaces n ++ [sp]). rewrite <- !app_assoc. cbn [app]. now rewrite <- !app_assoc.
      * now apply no_twice_tl in N. * intros a [= <-] _. auto.
    + rewrite rep_other; auto. * rewrite IH; auto. { now apply no_twice_tl in N. } { destruct ns; auto. now inversion F. }
        { intros b _ E. destruct ns; [discriminate|]. injection E as ->. inversion F; subst. lia. }
      * now apply blocks_start.
Qed.
(** A word dropped. *)
Definition keep (p : text) (ws : list text) : list text := filter (fun w => if tdec w p then false else true) ws.
Lemma drop_blocks p tail : plain p -> tail_ok tail -> forall ws ns, length ns = length ws -> Forall plain ws -> no_twice p ws -> Forall (fun n => (1 <= n)%nat) (tl ns) ->
  (forall a, hd_error ws = Some a -> hd_error ns = Some 0%nat -> a <> p) ->
  exists ns', length ns' = length (keep p ws) /\ Forall (fun n => (1 <= n)%nat) (tl ns') /\ (hd_error ns <> Some 0%nat -> hd_error ns' <> Some 0%nat) /\
  replace_from (pat p) [sp] 0 (blocks (combine ns ws) ++ tail) = blocks (combine ns' (keep p ws)) ++ tail.
Proof.
  intros P T. induction ws as [|a ws IH]; intros ns L W N F Z.
  - destruct ns; [|discriminate]. exists []. cbn [combine blocks map concat app keep filter length tl]. repeat split; auto. now apply rep_tail.
  - destruct ns as [|n ns]; [discriminate|]. injection L as L. cbn [tl] in F. inversion W as [|? ? Wa Ws]; subst.
    destruct (tdec a p) as [->|A].
    + destruct n as [|n]. { exfalso. now apply (Z p). }
      destruct ws as [|b ws]. { cbn [no_twice] in N. tauto. }
      destruct ns as [|m ns]; [discriminate|]. inversion F; subst. destruct m as [|m]; [lia|].
      assert (B : b <> p). { cbn [no_twice] in N. intros ->. tauto. }
      destruct (IH (m :: ns)) as (ns' & L' & F' & _ & E); auto. { now apply no_twice_tl in N. } { intros a [= <-] _. auto. }
      assert (K : keep p (p :: b :: ws) = keep p (b :: ws)). { unfold keep. cbn [filter]. destruct (tdec p p); congruence. }
      assert (K' : keep p (b :: ws) = b :: keep p ws). { unfold keep. cbn [filter]. destruct (tdec b p); congruence. }
      rewrite K. rewrite K' in *. destruct ns' as [|k ns']; [discriminate|]. exists ((n + 1 + k)%nat :: ns'). repeat split; auto.
      * intros _. cbn. intros [=]. lia.
      * rewrite !blocks_cons, <- !app_assoc, (spaces_S m). cbn [app]. rewrite rep_same by auto.
        rewrite blocks_cons, <- !app_assoc in E. rewrite E. rewrite !blocks_cons, <- !app_assoc. unfold spaces. rewrite !repeat_app. now rewrite <- !app_assoc.
    + destruct (IH ns) as (ns' & L' & F' & H' & E); auto. { now apply no_twice_tl in N. } { destruct ns; auto. now inversion F. }
      { intros b _ E. destruct ns; [discriminate|]. injection E as ->. inversion F; subst. lia. }
      assert (K : keep p (a :: ws) = a :: keep p ws). { unfold keep. cbn [filter]. destruct (tdec a p); congruence. }
      rewrite K. exists (n :: ns'). repeat split; cbn [length]; auto.
      * cbn [tl]. destruct ns' as [|k ns']; auto. cbn [tl] in F'. constructor; auto. destruct k; [|lia]. exfalso. apply H'; auto. destruct ns as [|m ns]; [discriminate|]. intros [=]. subst m. inversion F; subst. lia.
      * rewrite !blocks_cons, <- !app_assoc. rewrite rep_other; auto. { now rewrite E. } { now apply blocks_start. }
Qed.

(** ** The words, once the spaces are squeezed *)
Fixpoint glue (ws : list text) : list text := match ws with [] => [] | w :: ws' => match ws' with [] => [w ++ [nl]] | _ => w :: glue ws' end end.
Lemma joined_glue w ws : joined (glue (w :: ws)) = joined (w :: ws) ++ [nl].
Proof.
  revert w. induction ws as [|a ws IH]; intros w; auto. cbn [glue]. change (joined (w :: glue (a :: ws)) = joined (w :: a :: ws) ++ [nl]).
  assert (G : exists b l, glue (a :: ws) = b :: l) by (destruct ws; cbn [glue]; eauto). destruct G as (b & l & G). specialize (IH a). rewrite G in IH |- *.
  change (w ++ [sp] ++ joined (b :: l) = (w ++ [sp] ++ joined (a :: ws)) ++ [nl]). rewrite IH. now rewrite <- !app_assoc.
Qed.
Lemma joined_app ws w : ws <> [] -> joined (ws ++ [w]) = joined ws ++ sp :: w.
Proof.
  induction ws as [|a ws IH]; intros H; [congruence|]. destruct ws as [|b ws]; auto. 
  change (a ++ [sp] ++ joined ((b :: ws) ++ [w]) = (a ++ [sp] ++ joined (b :: ws)) ++ sp :: w). rewrite IH by discriminate. now rewrite <- !app_assoc.
Qed.
Definition tailed (k : option nat) (ws : list text) : list text := match k with None => ws | Some O => glue ws | Some (S _) => ws ++ [[nl]] end.
Definition the_tail (k : option nat) : text := match k with None => [] | Some k => spaces k ++ [nl] end.
Lemma hw_spaces n t ws : has_words t ws -> has_words (spaces n ++ t) ws.
Proof. induction n; auto. intros H. cbn [spaces repeat app]. apply hw_sep; [left; reflexivity|]. now apply IHn. Qed.
Lemma word_nl w : word w -> word (w ++ [nl]).
Proof. intros [_ H]. split. - now destruct w. - intros c I. apply in_app_or in I. destruct I as [I|[<-|[]]]; auto. intros [E|E]; discriminate. Qed.
Lemma line_words k : forall ws w ns, length ns = length ws -> Forall (fun n => (1 <= n)%nat) ns -> word w -> Forall word ws ->
  has_words (w ++ blocks (combine ns ws) ++ the_tail k) (tailed k (w :: ws)).
Proof.
  induction ws as [|a ws IH]; intros w ns L F W Ws.
  - destruct ns; [|discriminate]. cbn [combine blocks map concat app]. destruct k as [[|k]|]; cbn [the_tail tailed glue app].
    + replace (w ++ spaces 0 ++ [nl]) with ((w ++ [nl]) ++ []) by (now rewrite app_nil_r). apply hw_word; auto. now apply word_nl. constructor.
    + apply hw_word; auto. { right. exists sp, (spaces k ++ [nl]). split; auto. left. reflexivity. }
      rewrite spaces_S. cbn [app]. apply hw_sep; [left; reflexivity|]. apply hw_spaces. change [nl] with ([nl] ++ []) at 1. apply hw_word; auto; [|constructor]. split; [discriminate|]. intros c [<-|[]] [E|E]; discriminate.
    + apply hw_word; auto. constructor.
  - destruct ns as [|n ns]; [discriminate|]. inversion F; subst. inversion Ws; subst. rewrite blocks_cons, <- !app_assoc.
    assert (G : tailed k (w :: a :: ws) = w :: tailed k (a :: ws)) by (destruct k as [[|k]|]; reflexivity). rewrite G. destruct n as [|n]; [lia|].
    apply hw_word; auto. { right. exists sp, (spaces n ++ a ++ blocks (combine ns ws) ++ the_tail k). split; auto. left. reflexivity. }
    apply hw_spaces. apply IH; auto.
Qed.

Lemma joined_no c ws : (forall w, In w ws -> ~ In c w) -> c <> sp -> ~ In c (joined ws).
Proof.
  induction ws as [|a ws IH]; intros H N I; [exact I|]. destruct ws as [|b ws]; [apply (H a); cbn; auto|]. change (In c (a ++ [sp] ++ joined (b :: ws))) in I.
  apply in_app_or in I. destruct I as [I|I]; [apply (H a); cbn; auto|]. cbn in I. destruct I as [I|I]; [congruence|]. apply IH; auto. intros w K; apply H; cbn; auto.
Qed.
Lemma joined_last ws : ws <> [] -> Forall word ws -> forall c u, joined ws = u ++ [c] -> c <> sp.
Proof.
  induction ws as [|a ws IH]; intros N W c u E; [congruence|]. inversion W as [|? ? Wa Ws]; subst. destruct ws as [|b ws].
  - cbn [joined] in E. destruct Wa as [_ H]. intros ->. apply (H sp). rewrite E. apply in_or_app. cbn. auto. left. reflexivity.
  - change (a ++ [sp] ++ joined (b :: ws) = u ++ [c]) in E. assert (X : exists d v, joined (b :: ws) = v ++ [d]).
    { destruct (joined (b :: ws)) as [|e t] eqn:J. - inversion Ws as [|? ? [Hb _] _]; subst. exfalso. destruct b; [congruence|]. destruct ws; discriminate. - destruct (exists_last (l := e :: t)) as (v & d & ->); [discriminate|]. eauto. }
    destruct X as (d & v & X). rewrite X in E. assert (d = c). { rewrite !app_assoc in E. apply app_inj_tail in E. tauto. } subst d. apply (IH ltac:(discriminate) Ws c v X).
Qed.

(** ** The newline goes *)
Lemma rep_nl t : ~ In nl t -> replace (String nl "") "" (t ++ [nl]) = t /\ replace (String nl "") "" t = t.
Proof.
  intros H. unfold replace. change (text_of (String nl "")) with [nl]. change (text_of "") with (@nil ascii). induction t as [|c t IH]. - split; reflexivity.
  - assert (E : forall u, starts_with [nl] (c :: u) = false). { intros u. cbn [starts_with]. destruct (Ascii.eqb nl c) eqn:D; auto. apply Ascii.eqb_eq in D. exfalso. apply H. cbn. auto. }
    destruct IH as [I1 I2]; [intros K; apply H; cbn; auto|]. cbn [app replace_from]. rewrite !E. now rewrite I1, I2.
Qed.
Lemma rep_spnl t : ~ In nl t ->
  replace (String sp (String nl "")) "" (t ++ [sp; nl]) = t /\ replace (String sp (String nl "")) "" t = t /\
  ((forall c u, t = u ++ [c] -> c <> sp) -> replace (String sp (String nl "")) "" (t ++ [nl]) = t ++ [nl]).
Proof.
  intros H. unfold replace. change (text_of (String sp (String nl ""))) with [sp; nl]. change (text_of "") with (@nil ascii). induction t as [|c t IH]. - repeat split; reflexivity.
  - assert (E : forall u, match u with d :: _ => d <> nl | [] => True end -> starts_with [sp; nl] (c :: u) = false).
    { intros u U. cbn [starts_with]. destruct (Ascii.eqb sp c); auto. destruct u as [|d u]; auto. destruct (Ascii.eqb nl d) eqn:D; auto. apply Ascii.eqb_eq in D. congruence. }
    destruct IH as (I1 & I2 & I3); [intros K; apply H; cbn; auto|]. cbn [app replace_from]. repeat split.
    + rewrite E. now rewrite I1. destruct t as [|d t]; cbn; [discriminate|]. intros ->. apply H. cbn. auto.
    + rewrite E. now rewrite I2. destruct t as [|d t]; auto. intros ->. apply H. cbn. auto.
    + intros L. destruct t as [|d t].
      * cbn [app starts_with]. destruct (Ascii.eqb sp c) eqn:D; [apply Ascii.eqb_eq in D; exfalso; apply (L c []); auto|]. reflexivity.
      * rewrite E by (cbn; intros ->; apply H; cbn; auto). f_equal. apply I3. intros e u Q. apply (L e (c :: u)). now rewrite Q.
Qed.

Lemma plain_298 : plain w298. Proof. split; [discriminate|]. intros c I. cbn in I. destruct I as [<-|[<-|[<-|[]]]]; repeat split; discriminate. Qed.
Lemma plain_dash : plain dash. Proof. split; [discriminate|]. intros c I. cbn in I. destruct I as [<-|[]]; repeat split; discriminate. Qed.
Lemma plain_read w : plain w -> plain (read_word w).
Proof.
  intros H. unfold read_word. destruct (list_eq_dec ascii_dec w w298); auto. split; [discriminate|]. intros c I. cbn in I.
  repeat (destruct I as [<-|I]; [repeat split; discriminate|]). destruct I.
Qed.
Lemma read_dash w : read_word w = dash <-> w = dash.
Proof. unfold read_word. destruct (list_eq_dec ascii_dec w w298) as [->|]; [split; discriminate|tauto]. Qed.
Lemma no_twice_read ws : no_twice dash ws -> no_twice dash (map read_word ws).
Proof.
  induction ws as [|a ws IH]; auto. intros H. cbn [map no_twice] in *. destruct H as [H1 H2]. split; auto.
  destruct ws as [|b ws]; cbn [map]; rewrite !read_dash; auto.
Qed.
Lemma keep_read ws : keep dash (map read_word ws) = meaning ws.
Proof.
  unfold keep, meaning. induction ws as [|a ws IH]; auto. cbn [map filter]. rewrite IH.
  destruct (tdec (read_word a) dash) as [E|E], (list_eq_dec ascii_dec a dash) as [E'|E']; auto; exfalso; rewrite read_dash in E; auto.
Qed.
Lemma squeeze_spec t : (forall c, In c t -> c <> tab) -> good_first t = true -> good_last t = true -> squeeze t = joined (words t).
Proof. intros T F L. unfold squeeze. destruct (loop_total (length t) t (le_n _)) as [r E]. rewrite E. now apply loop_spec in E. Qed.
Lemma in_blocks c ns ws : In c (blocks (combine ns ws)) -> c = sp \/ exists w, In w ws /\ In c w.
Proof.
  revert ns. induction ws as [|a ws IH]; intros ns I. - destruct ns; destruct I. - destruct ns as [|n ns]; [destruct I|]. rewrite blocks_cons in I. apply in_app_or in I.
    destruct I as [I|I]; [left; now apply repeat_spec in I|]. apply in_app_or in I. destruct I as [I|I]; [right; exists a; cbn; auto|]. destruct (IH _ I) as [->|(w & A & B)]; auto. right. exists w. cbn. auto.
Qed.
Lemma line_tail tail : tail_ok tail -> exists k, tail = the_tail k.
Proof. intros [->|[k ->]]; [exists None|exists (Some k)]; reflexivity. Qed.
Lemma good_last_app t c : sepb c = false -> good_last (t ++ [c]) = true.
Proof. intros H. unfold good_last. rewrite rev_app_distr. cbn. now rewrite H. Qed.
Lemma good_last_word t w : word w -> good_last (t ++ w) = true.
Proof.
  intros [N H]. destruct (exists_last N) as (u & c & ->). rewrite app_assoc. apply good_last_app. destruct (sepb c) eqn:E; auto. apply sepb_iff in E. exfalso. apply (H c); auto. apply in_or_app. cbn. auto.
Qed.
Lemma blocks_last ws : forall ns w, length ns = length ws -> word w -> Forall word ws -> good_last (w ++ blocks (combine ns ws)) = true.
Proof.
  induction ws as [|a ws IH]; intros ns w L W Ws.
  - destruct ns; [|discriminate]. cbn [combine blocks map concat]. rewrite app_nil_r. now apply (good_last_word []).
  - destruct ns as [|n ns]; [discriminate|]. inversion Ws; subst. rewrite blocks_cons. assert (G := IH ns a ltac:(cbn in L; lia) H1 H2).
    rewrite app_assoc. unfold good_last in *. rewrite rev_app_distr. destruct (rev (a ++ blocks (combine ns ws))) eqn:R; auto.
    exfalso. destruct H1 as [N _]. apply (f_equal (@rev ascii)) in R. rewrite rev_involutive in R. destruct a; [congruence|discriminate].
Qed.

Lemma replace_pat s t (x : text) : replace_from (text_of s) (text_of t) 0 x = replace s t x. Proof. reflexivity. Qed.
Lemma strings_of_line w ws t : data_line w ws t -> fs_strings t = w :: meaning ws.
Proof.
  intros (W & Ws & D & T & ns & tail & L & F & TL & ->). fold (tail_ok tail) in TL.
  assert (F' : Forall (fun n => (1 <= n)%nat) (tl ns)) by (destruct ns; auto; now inversion F).
  assert (Z : forall (a p : text) (l : list text), hd_error l = Some a -> hd_error ns = Some 0%nat -> a <> p). { intros a p l _ E. destruct ns; [discriminate|]. injection E as ->. inversion F; subst. lia. }
  unfold fs_strings.
  assert (E1 : replace " 298 " " 298.15 " (w ++ blocks (combine ns ws) ++ tail) = w ++ blocks (combine ns (map read_word ws)) ++ tail).
  { unfold replace. change (text_of " 298 ") with (pat w298). change (text_of " 298.15 ") with (sp :: text_of "298.15" ++ [sp]). rewrite rep_word by (intros c; now apply plain_no_sp).
    rewrite swap_blocks; auto. apply plain_298. intros a H. now apply (Z a _ ws). }
  rewrite E1. clear E1.
  assert (E2 : exists ns', length ns' = length (meaning ws) /\ Forall (fun n => (1 <= n)%nat) ns' /\ replace " - " " " (w ++ blocks (combine ns (map read_word ws)) ++ tail) = w ++ blocks (combine ns' (meaning ws)) ++ tail).
  { unfold replace. change (text_of " - ") with (pat dash). change (text_of " ") with [sp]. rewrite rep_word by (intros c; now apply plain_no_sp).
    destruct (drop_blocks dash tail plain_dash TL (map read_word ws) ns) as (ns' & L' & T' & H' & E); auto.
    - now rewrite map_length. - rewrite Forall_map. eapply Forall_impl; [|exact Ws]. intros a. apply plain_read. - now apply no_twice_read. - intros a H. now apply (Z a _ (map read_word ws)).
    - rewrite keep_read in *. exists ns'. repeat split; auto. { destruct ns' as [|k ns']; auto. cbn [tl] in T'. constructor; auto. destruct k; [|lia]. exfalso. apply H'; auto. destruct ns as [|n ns]; [discriminate|]. intros [=]. subst. inversion F; subst. lia. }
      now rewrite E. }
  destruct E2 as (ns' & L' & N' & E2). rewrite E2. clear E2.
  assert (MP : Forall plain (meaning ws)).
  { rewrite Forall_forall in *. intros a I. unfold meaning in I. apply in_map_iff in I. destruct I as (b & <- & I). apply filter_In in I. apply plain_read. apply Ws. tauto. }
  assert (MW : Forall word (meaning ws)) by (eapply Forall_impl; [apply plain_word|exact MP]). apply plain_word in W as WW.
  destruct (line_tail tail TL) as [k ->].
  assert (J : squeeze (w ++ blocks (combine ns' (meaning ws)) ++ the_tail k) = joined (tailed k (w :: meaning ws))).
  { rewrite squeeze_spec.
    - f_equal. symmetry. apply words_unique. now apply line_words.
    - intros c I. apply in_app_or in I. destruct I as [I|I]. { destruct W as [_ W]. now apply W. } apply in_app_or in I. destruct I as [I|I].
      + apply in_blocks in I. destruct I as [->|(a & A & B)]; [discriminate|]. rewrite Forall_forall in MP. destruct (MP a A) as [_ M]. now apply M.
      + destruct k as [k|]; [|destruct I]. cbn [the_tail] in I. apply in_app_or in I. destruct I as [I|[<-|[]]]; [|discriminate]. apply repeat_spec in I. subst. discriminate.
    - destruct w as [|c w]; [destruct W; congruence|]. cbn. destruct (sepb c) eqn:E; auto. apply sepb_iff in E. exfalso. destruct WW as [_ WW]. apply (WW c); cbn; auto.
    - destruct k as [k|]; cbn [the_tail]. + rewrite !app_assoc. now apply good_last_app. + rewrite app_nil_r. now apply blocks_last. }
  rewrite J. clear J.
  assert (NL : ~ In nl (joined (w :: meaning ws))).
  { apply joined_no; [|discriminate]. intros a I K. assert (PA : plain a). { destruct I as [<-|I]; auto. rewrite Forall_forall in MP. auto. } destruct PA as [_ PA]. apply (PA nl K). reflexivity. }
  assert (LS : forall c u, joined (w :: meaning ws) = u ++ [c] -> c <> sp). { apply joined_last; [discriminate|]. now constructor. }
  destruct (rep_spnl _ NL) as (S1 & S2 & S3). specialize (S3 LS). destruct (rep_nl _ NL) as [N1 N2].
  assert (X : replace (String nl "") "" (replace (String sp (String nl "")) "" (joined (tailed k (w :: meaning ws)))) = joined (w :: meaning ws)).
  { destruct k as [[|k]|]; cbn [tailed].
    - rewrite joined_glue, S3. exact N1.
    - rewrite joined_app by discriminate. change (joined (w :: meaning ws) ++ sp :: [nl]) with (joined (w :: meaning ws) ++ [sp; nl]). rewrite S1. exact N2.
    - rewrite S2. exact N2. }
  rewrite X. apply split_joined; [|discriminate]. intros a [<-|I]; auto. rewrite Forall_forall in MW. auto.
Qed.

(** ** Blank lines *)
Lemma double_spaces n : exists k, replace_double (spaces (S n) ++ [nl]) = spaces (S k) ++ [nl].
Proof.
  assert (G : forall q, (exists k, replace_double (spaces (S q) ++ [nl]) = spaces (S k) ++ [nl]) /\ (exists k, replace_double (spaces (S (S q)) ++ [nl]) = spaces (S k) ++ [nl])).
  { induction q as [|m [IH1 IH2]].
    - split; [exists 0%nat|exists 0%nat]; reflexivity.
    - split; auto. destruct IH1 as [k E]. exists (S k). rewrite !spaces_S in *. cbn [app] in *. change (replace_double (sp :: sp :: sp :: spaces m ++ [nl])) with (sp :: replace_double (sp :: spaces m ++ [nl])). now rewrite E. }
  exact (proj1 (G n)).
Qed.
Lemma no_double_spaces n : has_double (spaces (S n) ++ [nl]) = false -> n = 0%nat.
Proof. destruct n; auto. cbn. discriminate. Qed.
Lemma squeeze_blank m : forall n r, squeeze_loop m (spaces (S n) ++ [nl]) = Some r -> r = [sp; nl].
Proof.
  induction m as [|m IH]; intros n r H; cbn [squeeze_loop] in H; destruct (has_double (spaces (S n) ++ [nl])) eqn:E.
  - discriminate. - apply no_double_spaces in E. subst n. now injection H as <-.
  - destruct (double_spaces n) as [k K]. rewrite K in H. eauto. - apply no_double_spaces in E. subst n. now injection H as <-.
Qed.
Lemma strings_of_blank n : fs_strings (spaces n ++ [nl]) = [[]].
Proof.
  unfold fs_strings. assert (T : tail_ok (spaces n ++ [nl])) by (right; eauto).
  unfold replace at 3 4. change (text_of " 298 ") with (pat w298). change (text_of " - ") with (pat dash). rewrite (rep_tail w298 _ plain_298) by exact T. rewrite (rep_tail dash _ plain_dash) by exact T.
  destruct n as [|n]; [reflexivity|]. unfold squeeze. destruct (loop_total (length (spaces (S n) ++ [nl])) (spaces (S n) ++ [nl]) (le_n _)) as [r E]. rewrite E. apply squeeze_blank in E. subst r. reflexivity.
Qed.

(** * The file *)
Lemma mark_iff l : mark l = true <-> underscored l.
Proof.
  unfold mark, underscored. destruct l as [|c l]. - split; [discriminate|]. intros [l' H]. discriminate.
  - rewrite Ascii.eqb_eq. split; [intros ->; eauto|]. intros [l' [= -> _]]. reflexivity.
Qed.
Section File.
Context (float_of : text -> res Qc).
Lemma body_shows wss ls rest : shows wss ls -> Forall (fun ws => match ws with w :: _ => ~ underscored w | [] => True end) wss ->
  (rest = [] \/ exists m rest', rest = m :: rest' /\ underscored m) ->
  forall s, fs_body float_of (ls ++ rest) s = foldM (fs_line float_of) wss s.
Proof.
  intros H. induction H as [|n wss ls H IH|w ws wss l ls D H IH]; intros U R s.
  - cbn [app foldM]. destruct R as [->|(m & rest' & -> & M)]; auto. cbn [fs_body]. apply mark_iff in M. now rewrite M.
  - cbn [app fs_body]. assert (M : mark (spaces n ++ ["010"%char]) = false) by (destruct n; reflexivity). rewrite M. change "010"%char with nl. rewrite strings_of_blank.
    cbn [M_Factsage.fs_line length Nat.ltb Nat.leb bind]. auto.
  - inversion U as [|? ? U1 U2]; subst. cbn [app fs_body foldM]. assert (M : mark l = false).
    { apply not_true_is_false. rewrite mark_iff. intros [l' E]. destruct D as (W & _ & _ & _ & ns & tail & _ & _ & _ & D). rewrite D in E. destruct w as [|c w]; [destruct W; congruence|].
      injection E as -> _. apply U1. exists w. reflexivity. }
    rewrite M, (strings_of_line w ws l D). destruct (fs_line float_of s (w :: meaning ws)); cbn [bind]; auto.
Qed.
Lemma skip_lines pre m ls : Forall (fun l => ~ underscored l) pre -> underscored m -> fs_skip (pre ++ m :: ls) = ls.
Proof.
  induction pre as [|l pre IH]; intros F M; cbn [app fs_skip]. - apply mark_iff in M. now rewrite M.
  - inversion F; subst. destruct (mark l) eqn:E; [apply mark_iff in E; tauto|]. auto.
Qed.
End File.

(** * The lowest record *)
Lemma least_spec ks k : least ks = Ok k -> In k ks /\ forall q, In q ks -> (k <= q)%Qc.
Proof.
  revert k. induction ks as [|a ks IH]; intros k H; [discriminate|]. cbn [least] in H. destruct (least ks) as [m|e] eqn:E; injection H as <-.
  - destruct (IH m eq_refl) as [I L]. destruct (Qclt_le_dec m a) as [C|C]; split; cbn; auto; intros q [<-|Q]; auto using Qclt_le_weak, Qcle_refl. eapply Qcle_trans; eauto.
  - destruct ks as [|b ks]; [|cbn [least] in E; destruct (least ks); discriminate]. split; cbn; auto. intros q [<-|[]]. apply Qcle_refl.
Qed.
Lemma least_ok k ks : exists m, least (k :: ks) = Ok m.
Proof. cbn [least]. destruct (least ks); eauto. Qed.
Lemma first_ok kp : fp_records (snd kp) <> [] -> NoDup (map fst (fp_records (snd kp))) ->
  exists p', fs_first (snd kp) = Ok p' /\ anchored_phase kp (fst kp, p').
Proof.
  destruct kp as [k p]. cbn [fst snd]. intros NE ND. unfold fs_first. destruct (fp_records p) as [|r0 rs0] eqn:E; [congruence|]. cbn [map].
  destruct (least_ok (fst r0) (map fst rs0)) as [m L]. rewrite L. cbn [bind]. change (fst r0 :: map fst rs0) with (map fst (r0 :: rs0)) in *. rewrite <- E in *. clear E NE r0 rs0.
  destruct (least_spec _ _ L) as [I LE]. apply in_map_iff in I. destruct I as ([m' r] & M & I). cbn [fst] in M. subst m'. apply in_split in I. destruct I as (pre & suf & E).
  rewrite E in *. rewrite map_app in ND. cbn [map fst] in ND. assert (NI : ~ In m (map fst pre)) by (apply NoDup_remove_2 in ND; rewrite in_app_iff in ND; tauto).
  assert (NS : ~ In m (map fst suf)) by (apply NoDup_remove_2 in ND; rewrite in_app_iff in ND; tauto).
  rewrite (dget_old M_Factsage.qdec) by auto. cbn [bind]. rewrite (dput_old M_Factsage.qdec) by auto. eexists. split; [reflexivity|].
  unfold anchored_phase. cbn [fst snd fp_symbol fp_DHref fp_Sref fp_records]. rewrite E. do 4 (split; [reflexivity|]).
  assert (LEin : forall q, In q (pre ++ (m, r) :: suf) -> (m <= fst q)%Qc). { intros q Q. apply LE. now apply in_map. }
  unfold anchored_records.
  assert (SAME : forall l, (forall q, In q l -> In q (pre ++ (m, r) :: suf) /\ fst q <> m) -> Forall2 (fun r1 r' : Qc * fs_record =>
     fst r' = fst r1 /\ fr_Tmax (snd r') = fr_Tmax (snd r1) /\ fr_terms (snd r') = fr_terms (snd r1) /\
     ((forall q, In q (pre ++ (m, r) :: suf) -> (fst r1 <= fst q)%Qc) -> fr_Tmin (snd r') = Q2Qc (29815 # 100)) /\
     ((exists q, In q (pre ++ (m, r) :: suf) /\ (fst q < fst r1)%Qc) -> fr_Tmin (snd r') = fr_Tmin (snd r1))) l l).
  { induction l as [|x l IH]; intros H; constructor; [|apply IH; intros; apply H; cbn; auto]. repeat split; auto. intros MIN. exfalso.
    destruct (H x) as [Hx N]; [cbn; auto|]. apply N. apply Qcle_antisym; auto. apply (MIN (m, r)). apply in_or_app. cbn. auto. }
  apply Forall2_app; [apply SAME|constructor; [|apply SAME]].
  - intros q Q. split; [apply in_or_app; auto|]. intros <-. apply NI. now apply in_map.
  - cbn [fst snd fr_Tmin fr_Tmax fr_terms]. repeat split; auto. intros (q & Q & LT). exfalso. apply (Qclt_not_le _ _ LT). auto.
  - intros q Q. split; [apply in_or_app; cbn; auto|]. intros <-. apply NS. now apply in_map.
Qed.
Lemma firsts_ok vs : Forall (fun kp => fp_records (snd kp) <> [] /\ NoDup (map fst (fp_records (snd kp)))) vs ->
  exists vs', mapM (fun kp => do p <- fs_first (snd kp); Ok (fst kp, p)) vs = Ok vs' /\ Forall2 anchored_phase vs vs'.
Proof.
  induction vs as [|v vs IH]; intros F. - exists []. split; [reflexivity|constructor].
  - inversion F as [|? ? [A B] F']; subst. destruct (first_ok v A B) as (p' & E & H). destruct (IH F') as (vs' & E' & H'). exists ((fst v, p') :: vs'). cbn [mapM]. rewrite E. cbn [bind]. rewrite E'. split; [reflexivity|]. now constructor.
Qed.

Section Whole.
Context (float_of : text -> res Qc).
Lemma lines_first ps : Forall (fun p => ~ underscored (ph_sym p)) ps -> Forall (fun ws => match ws with w :: _ => ~ underscored w | [] => True end) (listing ps).
Proof.
  intros F. unfold listing. apply Forall_concat. rewrite Forall_map. eapply Forall_impl; [|exact F]. intros p H. cbn beta in *. unfold phase_lines, record_lines. 
  apply Forall_app. split.
  - constructor; [exact H|]. rewrite Forall_map. apply Forall_forall. intros r _. exact H.
  - apply Forall_concat. rewrite Forall_map. apply Forall_forall. intros rc _. constructor; [exact H|]. rewrite Forall_map. apply Forall_forall. intros r _. exact H.
Qed.
Lemma header_split a formula more : ~ In " "%char a -> ~ In " "%char formula -> exists l, split_sp (a ++ " "%char :: formula ++ " "%char :: more) = a :: formula :: l.
Proof.
  intros A F. exists (split_sp more). change " "%char with sp. rewrite split_word by (intros c I ->; auto). rewrite split_word by (intros c I ->; auto). reflexivity.
Qed.
Theorem reads_listing formula ps vs lines : factsage_file formula (listing ps) lines -> Forall2 (phase_is float_of) ps vs -> NoDup (map ph_sym ps) ->
  Forall (fun p => ~ underscored (ph_sym p)) ps -> (forall p, hd_error ps = Some p -> ph_sym p <> text_of "zz") -> changing (text_of "0") (numbers ps) ->
  exists vs', read_factsage float_of lines = Ok (formula, vs') /\ Forall2 anchored_phase vs vs'.
Proof.
  intros (a & more & pre & mk & ls & rest & A & FM & FU & MK & SH & R & ->) V ND U Z C. cbn zeta in *. unfold read_factsage.
  destruct (header_split a formula more A FM) as [l ->]. 
  set (header := a ++ " "%char :: formula ++ " "%char :: more) in *. change (header :: pre ++ mk :: ls ++ rest) with ((header :: pre) ++ mk :: ls ++ rest).
  rewrite skip_lines by auto. rewrite (body_shows float_of (listing ps) ls rest SH (lines_first ps U) R).
  destruct (listing_ok float_of ps vs [] (text_of "zz") (text_of "0") None V) as (s' & E & S' & _); auto.
  { destruct ps as [|p ps]; auto. }
  rewrite E. cbn [bind]. rewrite S'. cbn [app]. destruct (firsts_ok vs) as (vs' & E' & H').
  - clear - V. induction V as [|p v ps vs H V IH]; constructor; auto. destruct H as (_ & _ & _ & _ & H & D). split; auto. intros N. rewrite N in H. inversion H.
  - rewrite E'. cbn [bind]. eauto.
Qed.
End Whole.

(** * What was read is anchored *)
From Verif Require Import M_Thermochem Spec_Thermo.
From Coq Require Import Reals Qreals Permutation.
Lemma Qclt_R a b : (a < b)%Qc -> (Q2R (this a) < Q2R (this b))%R.
Proof. intros H. apply Qlt_Rlt. exact H. Qed.
Lemma chain_above k rs : chain k rs -> forall q, In q rs -> (k < fst q)%Qc.
Proof.
  revert k. induction rs as [|r rs IH]; intros k C q I; [destruct I|]. cbn [chain] in C. destruct C as (_ & L & C). destruct I as [<-|I]; auto. eapply Qclt_trans; eauto.
Qed.
Lemma chain_contiguous rs0 : forall rs rs' k, chain k rs -> (exists q, In q rs0 /\ fst q = k) -> (forall r, In r rs -> fr_Tmax (snd r) = fst r) ->
  Forall2 (fun r r' => fst r' = fst r /\ fr_Tmax (snd r') = fr_Tmax (snd r) /\ fr_terms (snd r') = fr_terms (snd r) /\
    ((forall q, In q rs0 -> (fst r <= fst q)%Qc) -> fr_Tmin (snd r') = Q2Qc (29815 # 100)) /\
    ((exists q, In q rs0 /\ (fst q < fst r)%Qc) -> fr_Tmin (snd r') = fr_Tmin (snd r))) rs rs' ->
  (forall r, In r rs -> In r rs0) ->
  contiguous (Q2R (this k)) (map (fun kr => (Q2R (this (fst kr)), cp_of_fs (snd kr))) rs').
Proof.
  induction rs as [|r rs IH]; intros rs' k C K M F S; inversion F as [|? r' ? rs1 (F1 & F2 & F3 & F4 & F5) FF]; subst; cbn [map contiguous]; auto.
  cbn [chain] in C. destruct C as (C1 & C2 & C3). assert (T : fr_Tmin (snd r') = k). { rewrite F5; auto. destruct K as (q & Q & <-). eauto. }
  cbn [fst snd cp_of_fs cr_Tmin cr_Tmax]. rewrite T, F2, (M r) by (cbn; auto). rewrite F1. repeat split; auto.
  - now apply Qclt_R.
  - apply IH; auto. + exists r. split; auto. apply S. cbn. auto. + intros; apply M; cbn; auto. + intros; apply S; cbn; auto.
Qed.
Lemma following_regular v v' : anchored_phase v v' -> following (fp_records (snd v)) -> (forall r, In r (fp_records (snd v)) -> fr_Tmax (snd r) = fst r) ->
  regular (phase_of_fs (snd v')).
Proof.
  intros (_ & _ & _ & _ & F) C M. unfold anchored_records in F. destruct (fp_records (snd v)) as [|r rs] eqn:E; [destruct C|]. cbn [following] in C. destruct C as [C1 C2].
  inversion F as [|? r' ? rs' (F1 & F2 & F3 & F4 & F5) FF E1 E2]; subst. split; [reflexivity|].
  eexists. split; [apply Permutation_refl|]. cbn [phase_of_fs ph_records]. rewrite <- E2. cbn [map]. split; [discriminate|]. cbn [contiguous fst snd cp_of_fs cr_Tmin cr_Tmax].
  assert (T : fr_Tmin (snd r') = Q2Qc (29815 # 100)). { apply F4. intros q [<-|Q]; [apply Qcle_refl|]. apply Qclt_le_weak. now apply (chain_above _ _ C2). }
  assert (TR : Q2R (this (Q2Qc (29815 # 100))) = T_ref). { unfold T_ref. rewrite (Qeq_eqR _ (29815 # 100)) by apply Qred_correct. unfold Q2R. cbn [Qnum Qden]. reflexivity. }
  rewrite T, TR, F2, (M r) by (cbn; auto). rewrite F1. repeat split; auto.
  - rewrite <- TR. now apply Qclt_R.
  - apply (chain_contiguous (r :: rs) rs rs'); auto. + exists r. cbn. auto. + intros; apply M; cbn; auto. + cbn. auto.
Qed.

(** * A number that does not change *)
Section Unchanged.
Context (float_of : text -> res Qc).
Lemma unchanged_line p s more h sr : ph_sym p <> st_phase s -> rec_no (ph_rec p) = st_record s -> float_of (ph_H p) = Ok h -> float_of (ph_S p) = Ok sr ->
  foldM (fs_line float_of) (phase_lines p ++ more) s = Err (match st_Tmax s with Some _ => KeyError | None => NameError end).
Proof.
  intros N R H S. unfold phase_lines. unfold record_lines at 1. cbn [app foldM]. unfold M_Factsage.fs_line at 1.
  set (ss := row_line (ph_sym p) [ph_H p; ph_S p] (ph_rec p) (rec_row (ph_rec p))).
  assert (LL : (length ss <? 2)%nat = false) by (apply Nat.ltb_ge; subst ss; cbn [row_line length]; lia). rewrite LL.
  assert (N2 : number float_of ss 2 = Ok h) by exact H. assert (N3 : number float_of ss 3 = Ok sr) by exact S.
  unfold ss at 1. cbn [row_line]. destruct (tdec (ph_sym p) (st_phase s)) as [|_]; [congruence|]. cbn [negb]. rewrite N2, N3. cbn [bind].
  destruct (tdec (rec_no (ph_rec p)) (st_record s)) as [_|]; [|congruence]. cbn [negb]. unfold old_record. rewrite N2, N3. cbn [bind].
  destruct (st_Tmax s); reflexivity.
Qed.
Lemma listing_app ps qs : listing (ps ++ qs) = listing ps ++ listing qs.
Proof. unfold listing. now rewrite map_app, concat_app. Qed.
Theorem repeated_number formula ps p more vs h sr lines : factsage_file formula (listing (ps ++ p :: more)) lines -> Forall2 (phase_is float_of) ps vs ->
  NoDup (map ph_sym (ps ++ [p])) -> Forall (fun p => ~ underscored (ph_sym p)) (ps ++ p :: more) -> (forall q, hd_error (ps ++ [p]) = Some q -> ph_sym q <> text_of "zz") ->
  changing (text_of "0") (numbers ps) -> rec_no (ph_rec p) = last (numbers ps) (text_of "0") -> float_of (ph_H p) = Ok h -> float_of (ph_S p) = Ok sr ->
  read_factsage float_of lines = Err (match ps with [] => NameError | _ => KeyError end).
Proof.
  intros (a & mo & pre & mk & ls & rest & A & FM & FU & MK & SH & R & ->) V ND U Z C Q H S. cbn zeta in *. unfold read_factsage.
  destruct (header_split a formula mo A FM) as [l ->].
  set (header := a ++ " "%char :: formula ++ " "%char :: mo) in *. change (header :: pre ++ mk :: ls ++ rest) with ((header :: pre) ++ mk :: ls ++ rest).
  rewrite skip_lines by auto. rewrite (body_shows float_of _ ls rest SH (lines_first _ U) R).
  rewrite map_app in ND. cbn [map] in ND.
  destruct (listing_ok float_of ps vs [] (text_of "zz") (text_of "0") None V) as (s' & E & S' & P' & R' & T'); auto.
  { cbn [map app]. apply NoDup_remove_1 in ND. now rewrite app_nil_r in ND. }
  { destruct ps as [|q ps]; auto. }
  rewrite listing_app, foldM_app, E. cbn [bind]. change (listing (p :: more)) with (phase_lines p ++ listing more).
  assert (NP : ph_sym p <> st_phase s').
  { rewrite P'. destruct ps as [|q ps]; [apply Z; reflexivity|]. intros X. apply NoDup_remove_2 in ND. apply ND. rewrite app_nil_r. rewrite X. cbn [map]. rewrite last_default.
    clear. generalize (ph_sym q). induction ps as [|q' ps IH]; intros t; [cbn; auto|]. cbn [map]. rewrite last_default. right. apply (IH (ph_sym q')). }
  rewrite (unchanged_line p s' (listing more) h sr NP) by congruence. cbn [bind]. destruct ps as [|q ps].
  - cbn [listing map concat foldM] in E. injection E as <-. reflexivity.
  - destruct (st_Tmax s'); [reflexivity|]. exfalso. apply T'; auto. right. discriminate.
Qed.
End Unchanged.
