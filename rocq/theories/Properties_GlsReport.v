(** C100: the report on a general ledger structure, in every format.
    [structure_report int_of float_of description g format output] is what a call does, where
    [description] gives the description of each account object and Python's int() and
    float() of a text are arguments. *)
From Verif Require Import Prelude M_Stoichiometry M_Text M_Accounts M_Ledger M_Csv M_Tables M_Print M_Json M_Tabulate M_Latex M_Render M_GlsReport Spec_Accounts Spec_Ledger Spec_Text Spec_Tables Spec_Print Spec_Tabulate Spec_Latex Spec_Structure Spec_GlsReport P_Accounts P_Text P_File P_Tables P_General P_Tabulate P_Draw P_Draw2 P_Draw3 P_Draw4 P_Draw5 P_Latex P_GlsReport Properties_Csv Properties_Ledger Properties_Latex.
From Coq Require Import Permutation Reals Lra Lia.
Local Open Scope string_scope.
Local Open Scope list_scope.

(** The table lists the accounts of C53 in the order of C53, each with its type, its number,
    its name and its description. *)
Theorem C100_table : forall description g rows, gls_table description g = Ok rows -> exists l, listing_of g l /\ Forall2 (told description) l rows.
Proof. exact table_listing. Qed.
Print Assumptions C100_table.
(** In every format it fails exactly as C53 says, whatever the descriptions are. *)
Theorem C100_fails : forall int_of float_of description g e f o, structure_report int_of float_of description g f o = Err e <-> gls_report g = Err e.
Proof.
  intros int_of float_of description g e f o. unfold structure_report. pose proof (table_fails description g) as H. destruct (gls_table description g) as [rows|x]; cbn [bind].
  - split; [discriminate|]. intros E. apply H in E. discriminate. - split; [intros [= <-]; now apply H|]. intros E. apply H in E. congruence.
Qed.
Print Assumptions C100_fails.

(** The number shown above an account, if any, is that of an account. *)
Lemma listed_in above a l : listed above a l -> Forall (fun x => (snd x = a /\ fst x = above) \/ (below a (snd x) /\ exists b k, (b = a \/ below a b) /\ a_number b = Some k /\ fst x = (k ++ "/")%string)) l.
Proof.
  revert above l. induction a as [i n num ty pp p ks IH] using acct_ind'. intros above l H. inversion H as [? k sorted rss N (PM & _) F]; subst. constructor; [left; auto|]. set (a := Acct i n num ty pp p ks) in *.
  assert (G : Forall (fun b => In b ks /\ forall above l, listed above b l -> Forall (fun x => (snd x = b /\ fst x = above) \/ (below b (snd x) /\ exists c k, (c = b \/ below b c) /\ a_number c = Some k /\ fst x = (k ++ "/")%string)) l) sorted).
  { rewrite Forall_forall in *. intros b I. apply (Permutation_in _ PM) in I. split; auto. }
  clear -F G N. induction F as [|b r s rss L F IHF]; cbn [concat]; [constructor|]. inversion G as [|? ? [I HB] G2]; subst. apply Forall_app. split; auto. specialize (HB _ _ L). rewrite Forall_forall in *. intros x J. right.
  destruct (HB x J) as [[E1 E2]|(B & c & k' & C & NC & E)].
  - rewrite E1. split; [now apply below_kid|]. exists a, k. auto.
  - split; [eapply below_deep; eauto|]. exists c, k'. split; [right|auto]. destruct C as [->|C]; [now apply below_kid|eapply below_deep; eauto].
Qed.
Lemma listing_in g l x : listing_of g l -> In x l -> in_structure g (snd x) /\ (fst x = "" \/ exists b k, in_structure g b /\ a_number b = Some k /\ fst x = (k ++ "/")%string).
Proof.
  intros (i & b & ri & rb & (PI & _) & (PB & _) & FI & FB & ->) I.
  assert (G : forall c s rss, Permutation s (filter (begins c) (g_accounts g)) -> Forall2 (listed "") s rss -> In x (concat rss) -> in_structure g (snd x) /\ (fst x = "" \/ exists b k, in_structure g b /\ a_number b = Some k /\ fst x = (k ++ "/")%string)).
  { clear. intros c s rss P F J. assert (T : Forall (fun t => In t (g_accounts g)) s) by (apply Forall_forall; intros t K; apply (Permutation_in _ P), filter_In in K; tauto). clear P. induction F as [|t r s rss L F IH]; cbn [concat] in J; [destruct J|]. inversion T; subst. apply in_app_or in J. destruct J as [J|J]; auto.
    pose proof (listed_in _ _ _ L) as H. rewrite Forall_forall in H. destruct (H x J) as [[-> ->]|(B & b & k & C & N & ->)].
    - split; [exists t; auto|auto]. - split; [exists t; auto|]. right. exists b, k. split; [exists t; auto|auto]. }
  apply in_app_or in I. destruct I; eauto.
Qed.
Lemma listing_top g l t c : (c = "I"%char \/ c = "B"%char) -> listing_of g l -> In t (g_accounts g) -> begins c t = true -> In ("", t) l.
Proof.
  intros CC (i & b & ri & rb & (PI & _) & (PB & _) & FI & FB & ->) I B.
  assert (G : forall s rss, Permutation s (filter (begins c) (g_accounts g)) -> Forall2 (listed "") s rss -> In ("", t) (concat rss)).
  { intros s rss P F. assert (J : In t s) by (apply (Permutation_in _ (Permutation_sym P)), filter_In; auto). clear -F J. induction F as [|u r s rss L F IH]; [destruct J|]. cbn [concat]. apply in_or_app. destruct J as [->|J]; auto. left. inversion L; subst. now left. }
  apply in_or_app. destruct CC as [-> | ->]; eauto.
Qed.

(** * Where the report goes *)
(** Returned (str), printed (printout, and the others without output path), written to a
    file with the output path; matplotlib and png do nothing. *)
Theorem C100_where : forall int_of float_of description g rows, gls_table description g = Ok rows -> exists drawing source csv,
  let rp := structure_report int_of float_of description g in
  (forall o, rp Str o = Ok (mkeff (Some drawing) [] None)) /\ (forall o, rp Printout o = Ok (mkeff None (drawing ++ ["010"%char]) None)) /\
  (forall f ext t, (f, ext, t) = (Txt, ".txt", drawing) \/ (f, ext, t) = (Latex, ".tex", source) \/ (f, ext, t) = (Csv, ".csv", csv) ->
     rp f None = Ok (mkeff None (t ++ ["010"%char]) None) /\ forall p, rp f (Some p) = Ok (mkeff None [] (Some (p ++ text_of ext, t)))) /\
  forall f o, f = Matplotlib \/ f = Png -> rp f o = Ok (mkeff None [] None).
Proof.
  intros int_of float_of description g rows H. exists (draw_cells int_of float_of structure_headers rows), (latex_cells int_of float_of structure_headers rows), (render_csv (structure_headers :: map (map cell_text) rows)). unfold structure_report. rewrite H. cbn [bind].
  split; [reflexivity|]. split; [reflexivity|]. split.
  - intros f ext t [E|[E|E]]; injection E as -> -> ->; split; reflexivity.
  - intros f o [-> | ->]; [reflexivity|destruct o; reflexivity].
Qed.
Print Assumptions C100_where.
Lemma text_of_app a b : text_of (a ++ b)%string = text_of a ++ text_of b.
Proof. unfold text_of. induction a as [|c a IH]; cbn [String.append list_ascii_of_string app]; [reflexivity|now rewrite IH]. Qed.
(** As csv, it reads back. *)
Definition no_cr (t : text) : Prop := ~ In cr t.
Theorem C100_csv : forall int_of float_of description g rows, gls_table description g = Ok rows ->
  (forall a, in_structure g a -> no_cr (text_of (a_name a)) /\ (forall k, a_number a = Some k -> no_cr (text_of k)) /\ (forall d, description (a_id a) = Some d -> no_cr d)) ->
  exists t, csv_read t = (map text_of ["Type"; "Number"; "Name"; "Description"] :: map (map or_empty) rows, None) /\
    structure_report int_of float_of description g Csv None = Ok (mkeff None (t ++ ["010"%char]) None).
Proof.
  intros int_of float_of description g rows H P. exists (render_csv (structure_headers :: map (map cell_text) rows)). split; [|unfold structure_report; rewrite H; reflexivity].
  apply C71_round_trip. intros r f [<-|I] J.
  - cbn in J. repeat (destruct J as [<-|J]; [cbn; intros X; repeat (destruct X as [X|X]; [discriminate|]); exact X|]). destruct J.
  - apply in_map_iff in I. destruct I as (r0 & <- & I). destruct (table_listing _ _ _ H) as (l & L & F).
    assert (X : exists x, In x l /\ told description x r0). { clear -F I. induction F as [|x r l rows T F IH]; [destruct I|]. destruct I as [<-|I]; [exists x; split; [now left|auto]|]. destruct (IH I) as (y & J & T'). exists y. split; [now right|auto]. }
    destruct X as (x & IX & w & k & W & N & ->). destruct (listing_in g l x L IX) as [S A]. destruct (P _ S) as (P1 & P2 & P3). cbn [map cell_text] in J. destruct J as [<-|[<-|[<-|[<-|[]]]]].
    + unfold type_word in W. destruct (a_type (snd x)); subst w; cbn; intros X; repeat (destruct X as [X|X]; [discriminate|]); exact X.
    + rewrite text_of_app. intros X. apply in_app_or in X. destruct X as [X|X]; [|exact (P2 k N X)]. destruct A as [E|(b & kb & SB & NB & E)]; rewrite E in X; [exact X|]. rewrite text_of_app in X. apply in_app_or in X. destruct (P _ SB) as (_ & Q & _). destruct X as [X|X]; [exact (Q kb NB X)|]. cbn in X. destruct X as [X|[]]. discriminate.
    + exact P1. + destruct (description (a_id (snd x))) as [d|] eqn:D; [now apply P3|intros []].
Qed.
Print Assumptions C100_csv.

(** * What the drawn report shows *)
(** B10, which is an asset, is in every chart of accounts. *)
Definition has_b10 (g : gls) : Prop := exists t, In t (g_accounts g) /\ a_number t = Some "B10" /\ a_type t = Asset.
Lemma update_keeps i f a : (forall a, a_number (f a) = a_number a /\ a_type (f a) = a_type a) -> a_number (update_acct i f a) = a_number a /\ a_type (update_acct i f a) = a_type a.
Proof. intros H. destruct a as [i0 n num ty pp p ks]. cbn [update_acct]. destruct (Nat.eqb i0 i); [apply (H (Acct i0 n num ty pp p ks))|auto]. Qed.
Lemma update_b10 i f g n : (forall a, a_number (f a) = a_number a /\ a_type (f a) = a_type a) -> has_b10 g -> has_b10 (mkgls (g_accounts (update_gls i f g)) n).
Proof. intros H (t & I & N & T). exists (update_acct i f t). split; [cbn [g_accounts update_gls]; now apply in_map|]. destruct (update_keeps i f t H) as [-> ->]. auto. Qed.
Lemma built_b10 ops : has_b10 (built ops).
Proof.
  assert (D : has_b10 default_gls). { exists (nth 7 (g_accounts default_gls) (Acct 0 "" None Asset "" "" [])). split; [apply nth_In; vm_compute; repeat constructor|]. split; vm_compute; reflexivity. }
  unfold built. revert D. generalize default_gls. induction ops as [|o ops IH]; intros g G; cbn [fold_left]; auto. apply IH. destruct o as [n num ty|i n num|i n|i n]; cbn [gls_step].
  - destruct G as (t & I & X). exists t. split; auto. cbn [create_top g_accounts]. apply in_or_app. now left.
  - apply update_b10; auto. now intros [].
  - apply (update_b10 i (rename n) g (g_next (update_gls i (rename n) g))); auto. now intros [].
  - apply (update_b10 i (remove_account n) g (g_next (update_gls i (remove_account n) g))); auto. now intros [].
Qed.
Lemma no_number c t : is_space c = false -> c <> "+"%char -> c <> "-"%char -> is_digit c = false -> ~ In c ["."; "i"; "I"; "n"; "N"]%char -> ~ begins_a_number (c :: t).
Proof.
  intros S P M D N (a & s & d & r & E & A & B & C). destruct a as [|x a].
  - destruct B as [-> | [-> | ->]]; cbn in E; injection E as E; subst; try congruence. destruct C; congruence.
  - cbn in E. injection E as E _. subst x. cbn in A. rewrite S in A. discriminate.
Qed.
(** The column is shown as it is if one of its texts is not a number, or if all are ints. *)
Definition as_it_is (int_of : text -> bool) (float_of : text -> option pyfloat) (col : list (option text)) : Prop :=
  (exists t, In (Some t) col /\ float_of t = None) \/ forall t, In (Some t) col -> int_of t = true.
Lemma as_it_is_shown int_of float_of col c : (forall t, int_of t = true -> float_of t <> None) -> as_it_is int_of float_of col ->
  show_cell float_of (cells_type int_of float_of col) c = or_empty c.
Proof.
  intros RI A. destruct c as [t|]; [|reflexivity]. cbn [show_cell or_empty]. unfold format_cell. destruct (Z.eqb_spec (cells_type int_of float_of col) 2) as [E|_]; [|reflexivity]. exfalso. revert E.
  unfold cells_type. set (l := flat_map _ col). unfold column_type. destruct A as [(u & I & F)|A].
  - assert (J : In u l) by (unfold l; apply in_flat_map; exists (Some u); split; auto; now left). destruct (column_from int_of float_of l 1) as [B C]; [lia|]. specialize (C u J).
    assert (X : cell_type int_of float_of u = 4%Z). { unfold cell_type. destruct (int_of u) eqn:E; [exfalso; now apply (RI u)|]. now rewrite F. } rewrite X in C. lia.
  - assert (B : forall u, In u l -> int_of u = true). { intros u J. unfold l in J. apply in_flat_map in J. destruct J as ([v|] & I & K); [|destruct K]. destruct K as [->|[]]. auto. }
    clear -B. assert (G : forall l, (forall u, In u l -> int_of u = true) -> fold_left (fun a s => Z.max a (cell_type int_of float_of s)) l 1%Z = 1%Z).
    { clear. induction l as [|u l IH]; intros B; cbn [fold_left]; auto. assert (X : cell_type int_of float_of u = 1%Z) by (unfold cell_type; now rewrite (B u (or_introl eq_refl))). rewrite X. change (Z.max 1 1) with 1%Z. apply IH. intros v I. apply B. now right. }
    rewrite G; auto. lia.
Qed.
Lemma told_of_row {A B} (P : A -> B -> Prop) l rows r : Forall2 P l rows -> In r rows -> exists x, In x l /\ P x r.
Proof. induction 1 as [|x r' l rows T F IH]; [intros []|]. intros [<-|I]; [exists x; split; [now left|auto]|]. destruct (IH I) as (y & J & T'). exists y. split; [now right|auto]. Qed.
Lemma row_of_told {A B} (P : A -> B -> Prop) l rows x : Forall2 P l rows -> In x l -> exists r, In r rows /\ P x r.
Proof. induction 1 as [|y r l rows T F IH]; [intros []|]. intros [<-|I]; [exists r; split; [now left|auto]|]. destruct (IH I) as (r' & J & T'). exists r'. split; [now right|auto]. Qed.
(** All texts of the structure have no white space but blanks. *)
Definition tidy_structure (description : nat -> option text) (g : gls) : Prop :=
  forall a, in_structure g a -> tidy (text_of (a_name a)) /\ (forall k, a_number a = Some k -> tidy (text_of k)) /\ forall d, description (a_id a) = Some d -> tidy d.
Lemma rows_tidy description g rows : gls_table description g = Ok rows -> tidy_structure description g -> Forall (fun r => length r = length structure_headers /\ Forall tidy_cell r) rows.
Proof.
  intros H P. destruct (table_listing _ _ _ H) as (l & L & F). apply Forall_forall. intros r I. destruct (told_of_row _ _ _ _ F I) as (x & J & w & k & W & N & ->). destruct (listing_in g l x L J) as [S A]. destruct (P _ S) as (P1 & P2 & P3). split; [reflexivity|].
  constructor; [|constructor; [|constructor; [exact P1|constructor; [|constructor]]]]; cbn [tidy_cell].
  - unfold type_word in W. destruct (a_type (snd x)); subst w; apply tidy_check; reflexivity.
  - rewrite text_of_app. apply tidy_app; auto. destruct A as [->|(b & kb & SB & NB & ->)]; [intros c []|]. rewrite text_of_app. destruct (P b SB) as (_ & Q & _). apply tidy_app; [exact (Q kb NB)|]. apply tidy_check. reflexivity.
  - destruct (description (a_id (snd x))) as [d|] eqn:D; cbn [tidy_cell]; auto.
Qed.
(** The report as text and as LaTeX source shows the table of C100_table with the same cells:
    its columns Type and Number, and the others unless all their texts are numbers and
    not all of them ints. *)
Theorem C100_drawn : forall ops int_of float_of description rows o, gls_table description (built ops) = Ok rows ->
  (forall t, int_of t = true -> float_of t <> None) -> reads_no_words float_of -> tidy_structure description (built ops) ->
  let headers := map text_of ["Type"; "Number"; "Name"; "Description"] in
  exists t source letters cells,
    structure_report int_of float_of description (built ops) Str o = Ok (mkeff (Some t) [] None) /\ shows_table t headers cells /\
    structure_report int_of float_of description (built ops) Latex o = Ok (latex_out o source) /\ tex_table letters headers cells source /\
    Forall2 (fun r c => length c = 4%nat /\ forall j, (j < 4)%nat -> (j = 0 \/ j = 1 \/ as_it_is int_of float_of (map (fun r => nth j r None) rows))%nat -> nth j c [] = strip (or_empty (nth j r None))) rows cells.
Proof.
  intros ops int_of float_of description rows o H RI RW P headers. pose proof (rows_tidy _ _ _ H P) as TR. destruct (table_listing _ _ _ H) as (l & L & F). destruct (built_b10 ops) as (b & IB & NB & TB).
  assert (JB : In ("", b) l). { apply (listing_top (built ops) l b "B"%char); auto. unfold begins. rewrite NB. reflexivity. }
  destruct (row_of_told _ _ _ _ F JB) as (rb & IR & w & k & W & N & ER). cbn [snd fst] in *. rewrite NB in N. injection N as <-. rewrite TB in W. cbn in W. subst w.
  assert (NR : rows <> []) by (intros X; rewrite X in IR; destruct IR).
  assert (TH : Forall tidy structure_headers) by (repeat constructor; apply tidy_check; reflexivity). assert (NH : structure_headers <> []) by discriminate.
  destruct (latex_shows_cells int_of float_of structure_headers rows NH TH TR NR) as (letters & TX & _). pose proof (draw_shows int_of float_of structure_headers rows NH TH TR) as SH.
  eexists _, _, letters, (map (shown_cells int_of float_of rows) rows). split; [unfold structure_report; rewrite H; reflexivity|]. split; [exact SH|]. split; [unfold structure_report; rewrite H; destruct o; reflexivity|]. split; [exact TX|].
  apply forall2_map. intros r I. rewrite Forall_forall in TR. destruct (TR r I) as [LR _]. cbn in LR. split; [now rewrite shown_length|]. intros j J C. rewrite shown_nth by (unfold gcell in *; lia). f_equal. apply as_it_is_shown; auto.
  unfold cell_column. assert (G : forall n t, nth n rb None = Some t -> ~ begins_a_number t -> as_it_is int_of float_of (map (fun r => nth n r None) rows)).
  { intros n t E B. left. exists t. split; [rewrite <- E; apply (in_map (fun r => nth n r None)), IR|]. destruct (float_of t) eqn:FE; auto. exfalso. apply B, RW. congruence. }
  destruct C as [-> | [-> | C]]; [eapply (G 0%nat)|eapply (G 1%nat)|exact C]; try (rewrite ER; reflexivity); apply no_number; try discriminate; try reflexivity; cbn; intros X; repeat (destruct X as [X|X]; [discriminate|]); exact X.
Qed.
Print Assumptions C100_drawn.
(** If every account has a description, the drawings are those of C94 and C99. *)
Theorem C100_same_drawing : forall int_of float_of description g rows table o, gls_table description g = Ok rows -> rows = map (map Some) table ->
  structure_report int_of float_of description g Str o = Ok (mkeff (Some (tabulate int_of float_of (map text_of ["Type"; "Number"; "Name"; "Description"] :: table))) [] None) /\
  structure_report int_of float_of description g Latex o = Ok (latex_out o (tabulate_latex int_of float_of (map text_of ["Type"; "Number"; "Name"; "Description"] :: table))).
Proof.
  intros int_of float_of description g rows table o H E. destruct (table_listing _ _ _ H) as (l & L & F).
  assert (LT : Forall (fun r => length r = length structure_headers) table).
  { apply Forall_forall. intros r I. assert (I' : In (map Some r) rows) by (rewrite E; now apply in_map). destruct (told_of_row _ _ _ _ F I') as (x & _ & w & k & _ & _ & X). rewrite <- (map_length (@Some text) r). change (list ascii) with text. rewrite X. reflexivity. }
  destruct (draw_some int_of float_of structure_headers table LT) as [D1 D2]. unfold structure_report. rewrite H, E. cbn [bind]. unfold structure_headers in *. rewrite D1, D2. split; [reflexivity|]. destruct o; reflexivity.
Qed.
Print Assumptions C100_same_drawing.
(** A description that is a number, where no other description is a word, is not shown as it
    is: 1.50 is shown as 1.5. *)
Definition only_sales (i : nat) : option text := if Nat.eqb i 1 then Some (text_of "1.50") else None.
Theorem C100_numbers_changed_refuted : forall int_of float_of, reads_numbers int_of float_of -> exists description rows t cells,
  gls_table description (built []) = Ok rows /\ structure_report int_of float_of description (built []) Str None = Ok (mkeff (Some t) [] None) /\
  shows_table t (map text_of ["Type"; "Number"; "Name"; "Description"]) cells /\
  exists r c, In (r, c) (combine rows cells) /\ nth 3 r None = Some (text_of "1.50") /\ nth 3 c [] = text_of "1.5".
Proof.
  intros int_of float_of RN. exists only_sales. assert (H : exists rows, gls_table only_sales (built []) = Ok rows) by (eexists; vm_compute; reflexivity). destruct H as [rows H].
  assert (K : forallb (fun r => Nat.eqb (length r) 4 && forallb (fun c => match c with Some t => tidyb t | None => true end) r) rows = true /\
    nth 3 rows [] = [Some (text_of "revenue"); Some (text_of "I10"); Some (text_of "Sales"); Some (text_of "1.50")] /\ flat_map (fun c => match c with Some s => [s] | None => [] end) (map (fun r => nth 3 r None) rows) = [text_of "1.50"] /\ (3 < length rows)%nat).
  { clear -H. vm_compute in H. injection H as <-. split; [vm_compute; reflexivity|]. split; [reflexivity|]. split; [vm_compute; reflexivity|]. cbn [length]. repeat constructor. }
  destruct K as (K1 & K2 & K3 & K4).
  assert (TR : Forall (fun r => length r = length structure_headers /\ Forall tidy_cell r) rows).
  { apply Forall_forall. intros r I. rewrite forallb_forall in K1. specialize (K1 r I). apply andb_prop in K1. destruct K1 as [A B]. apply Nat.eqb_eq in A. split; [exact A|]. rewrite forallb_forall in B. apply Forall_forall. intros c J. specialize (B c J). destruct c as [u|]; cbn [tidy_cell]; auto. now apply tidy_check. }
  exists rows, (draw_cells int_of float_of structure_headers rows), (map (shown_cells int_of float_of rows) rows). split; [exact H|]. split; [unfold structure_report; rewrite H; reflexivity|]. split; [apply draw_shows; [discriminate|repeat constructor; apply tidy_check; reflexivity|exact TR]|].
  exists (nth 3 rows []), (shown_cells int_of float_of rows (nth 3 rows [])). split; [|split].
  - assert (E : nth_error (combine rows (map (shown_cells int_of float_of rows) rows)) 3 = Some (nth 3 rows [], shown_cells int_of float_of rows (nth 3 rows []))). { clear -K4. destruct rows as [|r0 [|r1 [|r2 [|r3 rs]]]]; cbn [length] in K4; try lia. reflexivity. } eapply nth_error_In, E.
  - rewrite K2. reflexivity.
  - assert (L4 : (3 < length (nth 3 rows []))%nat) by (rewrite K2; cbn [length]; lia). rewrite (shown_nth int_of float_of rows (nth 3 rows []) 3 L4). rewrite K2. change (nth 3 _ None) with (Some (text_of "1.50")). unfold cells_type, cell_column. rewrite K3. cbn [show_cell].
    assert (A : amount_text false 150 (text_of "1.50")). { exists (text_of "1"), "5"%char, "0"%char. repeat split; try discriminate; try reflexivity; try (repeat constructor). }
    assert (B : (0 <= 150 < 10 ^ 300)%Z) by (split; [lia|reflexivity]). destruct RN as (_ & _ & R3). destruct (R3 _ _ _ B A) as (NI & s & FS & S0 & SB).
    assert (T : column_type int_of float_of [text_of "1.50"] = 2%Z) by (unfold column_type, cell_type; cbn [fold_left]; rewrite NI, FS; reflexivity). rewrite T. unfold format_cell. change (2 =? 2)%Z with true. cbv iota. rewrite FS.
    assert (V : (IZR 150000 * powerRZ 10 (-5) = 3 / 2)%R) by (unfold powerRZ; change (Pos.to_nat 5) with 5%nat; cbn [pow]; field).
    assert (S6 : six s = (150000, 0)%Z).
    { apply (six_near s 150000 (-5)); [lia|]. rewrite V. replace (IZR 150 / 100)%R with (3 / 2)%R in SB by lra. apply Rle_trans with (1 := SB). pose proof small_error as SE. replace (powerRZ 10 (-5)) with (/ 100000)%R by (unfold powerRZ; change (Pos.to_nat 5) with 5%nat; cbn [pow]; field). assert (0 < powerRZ 2 (-53))%R by (apply powerRZ_lt; lra). lra. }
    unfold format_g. destruct (Req_EM_T s 0) as [Z0|_]; [exfalso|].
    + rewrite Z0 in SB. pose proof small_error as SE. assert (0 < powerRZ 2 (-53))%R by (apply powerRZ_lt; lra). replace (0 - IZR 150 / 100)%R with (- (3 / 2))%R in SB by lra. rewrite Rabs_Ropp, Rabs_pos_eq in SB by lra. lra.
    + rewrite S6. vm_compute. reflexivity.
Qed.
Print Assumptions C100_numbers_changed_refuted.

(** A chart of accounts with one more account, where only that account has a description. *)
Definition with_till : gls := built [OCreate 17 "Till" (Some "0001")].
Definition till_description (i : nat) : option text := if Nat.eqb i (g_next default_gls) then Some (text_of "coins, notes") else None.
Example C100_case : exists rows, gls_table till_description with_till = Ok rows /\ length rows = 28%nat /\
  existsb (fun r => match r with [Some a; Some b; Some c; Some d] => (if list_eq_dec ascii_dec a (text_of "asset") then true else false) && (if list_eq_dec ascii_dec b (text_of "B60/0001") then true else false) && (if list_eq_dec ascii_dec c (text_of "Till") then true else false) && (if list_eq_dec ascii_dec d (text_of "coins, notes") then true else false) | _ => false end) rows = true /\
  forallb (forallb (fun c => match c with Some t => tidyb t && negb (existsb (Ascii.eqb cr) t) | None => true end)) rows = true.
Proof. eexists. split; [vm_compute; reflexivity|]. split; [vm_compute; reflexivity|]. split; vm_compute; reflexivity. Qed.
