(** Proofs for C100. *)
From Verif Require Import Prelude M_Stoichiometry M_Accounts M_Ledger M_Csv M_Tables M_Print M_Json M_Tabulate M_Latex M_Render M_GlsReport Spec_Accounts Spec_Ledger Spec_Text Spec_Tables Spec_Print Spec_Tabulate Spec_Latex Spec_Structure Spec_GlsReport P_Accounts P_Reports P_Structure P_Text P_File P_Tables P_Tabulate P_Draw P_Draw2 P_Draw3 P_Latex.
From Coq Require Import Permutation Sorted Lia.
Local Open Scope string_scope.
Local Open Scope list_scope.

(** * The rows of the table *)
Section Rows.
Variable description : nat -> option text.
Notation table_rows := (table_rows description).
Lemma table_rows_unfold prefix a : table_rows prefix a =
  match a_number a with
  | None => Err TypeError
  | Some k => do subs <- mapM (table_rows (k ++ "/")%string) (a_kids a);
      Ok (k, [Some (text_of (type_name (a_type a))); Some (text_of (prefix ++ k)%string); Some (text_of (a_name a)); description (a_id a)] :: concat (map snd (M_Ledger.sort_key subs)))
  end.
Proof.
  destruct a as [i n [k|] ty pp p ks]; reflexivity.
Qed.
Definition told_of (x : string * acct) : list (option text) :=
  [Some (text_of (type_name (a_type (snd x)))); Some (text_of (fst x ++ match a_number (snd x) with Some k => k | None => "" end)%string); Some (text_of (a_name (snd x))); description (a_id (snd x))].
Definition keyed2 (prefix : string) (a : acct) (p : string * list (list gcell)) : Prop :=
  a_number a = Some (fst p) /\ exists l, listed prefix a l /\ snd p = map told_of l.
Lemma insert_along2 prefix a p l ps : keyed2 prefix a p -> Forall2 (keyed2 prefix) l ps -> Forall2 (keyed2 prefix) (insert_acct a l) (M_Ledger.insert_key p ps).
Proof.
  intros K F. induction F as [|b q l ps Kb F IH]; cbn [insert_acct M_Ledger.insert_key]; [constructor; auto|]. destruct K as [N R]. destruct Kb as [Nb Rb]. rewrite N, Nb.
  destruct (str_leb (fst p) (fst q)); constructor; try (split; auto); auto. constructor; auto. split; auto.
Qed.
Lemma sort_along2 prefix l ps : Forall2 (keyed2 prefix) l ps -> Forall2 (keyed2 prefix) (sort_acct l) (M_Ledger.sort_key ps).
Proof. induction 1 as [|a p l ps K F IH]; cbn; [constructor|]. apply insert_along2; auto. Qed.
Lemma keyed2_numbered prefix l ps : Forall2 (keyed2 prefix) l ps -> Forall numbered l.
Proof. induction 1 as [|a p l ps [E _]]; constructor; auto. now exists (fst p). Qed.
Lemma keyed2_listed prefix l ps : Forall2 (keyed2 prefix) l ps -> exists rss, Forall2 (listed prefix) l rss /\ concat (map snd ps) = map told_of (concat rss).
Proof.
  induction 1 as [|a p l ps (_ & r & R & E) F (rss & A & B)]; [exists []; split; [constructor|reflexivity]|]. exists (r :: rss). split; [constructor; auto|]. cbn [map concat]. rewrite map_app, E, B. reflexivity.
Qed.
Lemma mapM_keyed2 prefix l : Forall (fun a => forall r, table_rows prefix a = Ok r -> keyed2 prefix a r) l -> forall ps, mapM (table_rows prefix) l = Ok ps -> Forall2 (keyed2 prefix) l ps.
Proof.
  induction 1 as [|a l H F IH]; intros ps E; cbn [mapM] in E; [injection E as <-; constructor|]. destruct (table_rows prefix a) as [r|] eqn:R; cbn [bind] in E; [|discriminate].
  destruct (mapM (table_rows prefix) l) as [rs|] eqn:M; cbn [bind] in E; [|discriminate]. injection E as <-. constructor; auto.
Qed.
Lemma table_rows_keyed a : forall prefix r, table_rows prefix a = Ok r -> keyed2 prefix a r.
Proof.
  induction a as [i n num ty pp p ks IH] using acct_ind'. intros prefix r. rewrite table_rows_unfold. cbn [a_number a_kids a_type a_name a_id]. destruct num as [k|]; [|discriminate].
  destruct (mapM (table_rows (k ++ "/")%string) ks) as [subs|] eqn:E; cbn [bind]; [|discriminate]. intros H. injection H as <-. split; [reflexivity|]. cbn [snd].
  assert (F : Forall2 (keyed2 (k ++ "/")%string) ks subs). { apply mapM_keyed2; auto. rewrite Forall_forall in *. intros a I r. now apply IH. }
  destruct (keyed2_listed _ _ _ (sort_along2 _ _ _ F)) as (rss & R & C). exists ((prefix, Acct i n (Some k) ty pp p ks) :: concat rss). split.
  - apply (listed_account prefix (Acct i n (Some k) ty pp p ks) k (sort_acct ks) rss); auto. apply sort_acct_by_number. eapply keyed2_numbered. exact F.
  - cbn [map]. rewrite C. reflexivity.
Qed.
Lemma listed_numbered above a l : listed above a l -> Forall (fun x => numbered (snd x)) l.
Proof.
  revert above l. induction a as [i n num ty pp p ks IH] using acct_ind'. intros above l H. inversion H as [? k sorted rss N (PM & _) F]; subst. constructor; [now exists k|].
  assert (G : Forall (fun a => forall above l, listed above a l -> Forall (fun x => numbered (snd x)) l) sorted).
  { rewrite Forall_forall in *. intros a I. apply IH. cbn [a_kids] in PM. eapply Permutation_in; eauto. }
  clear -F G. induction F as [|a r s rss L F IHF]; cbn [concat]; [constructor|]. inversion G; subst. apply Forall_app. split; eauto.
Qed.
Lemma told_ok x : numbered (snd x) -> told description x (told_of x).
Proof.
  intros [k N]. exists (type_name (a_type (snd x))), k. split; [destruct (a_type (snd x)); reflexivity|]. split; auto. unfold told_of. rewrite N. reflexivity.
Qed.
Theorem table_listing g rows : gls_table description g = Ok rows -> exists l, listing_of g l /\ Forall2 (told description) l rows.
Proof.
  unfold gls_table. destruct (existsb _ _); [discriminate|].
  destruct (mapM _ (filter (number_starts "I") _)) as [i|] eqn:Ei; cbn [bind]; [|discriminate].
  destruct (mapM _ (filter (number_starts "B") _)) as [b|] eqn:Eb; cbn [bind]; [|discriminate]. intros H. injection H as <-.
  assert (G : forall l ps, mapM (table_rows "") l = Ok ps -> by_number l (sort_acct l) /\ exists rss, Forall2 (listed "") (sort_acct l) rss /\ concat (map snd (M_Ledger.sort_key ps)) = map told_of (concat rss)).
  { intros l ps E. assert (F : Forall2 (keyed2 "") l ps). { apply mapM_keyed2; auto. rewrite Forall_forall. intros a _ r. apply table_rows_keyed. } split; [apply sort_acct_by_number; eapply keyed2_numbered; exact F|]. apply keyed2_listed, sort_along2, F. }
  rewrite (filter_ext _ _ (begins_starts "I")) in Ei. rewrite (filter_ext _ _ (begins_starts "B")) in Eb.
  destruct (G _ _ Ei) as (A1 & ri & A2 & A3). destruct (G _ _ Eb) as (B1 & rb & B2 & B3). rewrite A3, B3, <- map_app. exists (concat ri ++ concat rb). split.
  - do 4 eexists. split; [exact A1|]. split; [exact B1|]. split; [exact A2|]. split; [exact B2|]. reflexivity.
  - assert (N : forall s rss, Forall2 (listed "") s rss -> Forall (fun x => numbered (snd x)) (concat rss)).
    { induction 1 as [|a r s rss L F IHF]; cbn [concat]; [constructor|]. apply Forall_app. split; auto. eapply listed_numbered; eauto. }
    assert (NN : Forall (fun x => numbered (snd x)) (concat ri ++ concat rb)) by (apply Forall_app; split; eauto). clear - NN. induction NN; cbn [map]; constructor; auto. now apply told_ok.
Qed.
(** It fails as the table of three columns does. *)
Lemma rows_alike a : forall prefix, (do r <- table_rows prefix a; Ok (fst r)) = (do r <- gls_rows prefix a; Ok (fst r)).
Proof.
  induction a as [i n num ty pp p ks IH] using acct_ind'. intros prefix. rewrite table_rows_unfold, gls_rows_unfold. cbn [a_number a_kids a_type a_name]. destruct num as [k|]; [|reflexivity].
  assert (M : (do r <- mapM (table_rows (k ++ "/")%string) ks; Ok (map fst r)) = (do r <- mapM (gls_rows (k ++ "/")%string) ks; Ok (map fst r))).
  { induction ks as [|x ks IHk]; [reflexivity|]. inversion IH as [|? ? H1 H2]; subst. cbn [mapM]. specialize (H1 (k ++ "/")%string). specialize (IHk H2). destruct (table_rows (k ++ "/")%string x), (gls_rows (k ++ "/")%string x); cbn [bind] in *; try congruence.
    destruct (mapM (table_rows (k ++ "/")%string) ks), (mapM (gls_rows (k ++ "/")%string) ks); cbn [bind map] in *; congruence. }
  destruct (mapM (table_rows (k ++ "/")%string) ks), (mapM (gls_rows (k ++ "/")%string) ks); cbn [bind fst] in *; congruence.
Qed.
Lemma mapM_alike prefix l e : mapM (table_rows prefix) l = Err e <-> mapM (gls_rows prefix) l = Err e.
Proof.
  assert (G : (do r <- mapM (table_rows prefix) l; Ok tt) = (do r <- mapM (gls_rows prefix) l; Ok tt)).
  { induction l as [|x l IH]; [reflexivity|]. cbn [mapM]. pose proof (rows_alike x prefix) as H. destruct (table_rows prefix x), (gls_rows prefix x); cbn [bind] in *; try congruence.
    destruct (mapM (table_rows prefix) l), (mapM (gls_rows prefix) l); cbn [bind] in *; congruence. }
  destruct (mapM (table_rows prefix) l), (mapM (gls_rows prefix) l); cbn [bind] in G; split; congruence.
Qed.
Theorem table_fails g e : gls_table description g = Err e <-> gls_report g = Err e.
Proof.
  unfold gls_table, gls_report. destruct (existsb _ _); [split; intros [= <-]; reflexivity|]. pose proof (mapM_alike "" (filter (number_starts "I") (g_accounts g))) as A. pose proof (mapM_alike "" (filter (number_starts "B") (g_accounts g))) as B.
  destruct (mapM (table_rows "") (filter (number_starts "I") _)) as [i|x], (mapM (gls_rows "") (filter (number_starts "I") _)) as [i'|x']; cbn [bind].
  - destruct (mapM (table_rows "") (filter (number_starts "B") _)) as [b|y], (mapM (gls_rows "") (filter (number_starts "B") _)) as [b'|y']; cbn [bind].
    + split; discriminate. + destruct (B y') as [_ H]. specialize (H eq_refl). discriminate. + destruct (B y) as [H _]. specialize (H eq_refl). discriminate.
    + destruct (B y) as [H _]. specialize (H eq_refl). injection H as ->. split; intros [= <-]; reflexivity.
  - destruct (A x') as [_ H]. specialize (H eq_refl). discriminate.
  - destruct (A x) as [H _]. specialize (H eq_refl). discriminate.
  - destruct (A x) as [H _]. specialize (H eq_refl). injection H as ->. split; intros [= <-]; reflexivity.
Qed.
End Rows.

(** * Lines from columns *)
(** A column that is well made: wide enough for its header and its cells. *)
Definition column_made (cells : list (list text)) (j : nat) (h : text) (col : text * nat * list text) : Prop :=
  (0 < snd (fst col))%nat /\ fits (snd (fst col)) (strip h) (fst (fst col)) /\ Forall2 (fits (snd (fst col))) (map (fun r => nth j r []) cells) (snd col).
Lemma forall2_three {A B C} (P : A -> B * C -> Prop) : forall la lb lc, length la = length lb -> length lb = length lc ->
  (forall j a b c, nth_error la j = Some a -> nth_error lb j = Some b -> nth_error lc j = Some c -> P a (b, c)) -> Forall2 P la (combine lb lc).
Proof.
  induction la as [|a la IH]; intros [|b lb] [|c lc] L1 L2 H; try discriminate; cbn [combine]; constructor. - apply (H 0%nat); reflexivity. - apply IH; [now injection L1|now injection L2|]. intros j. apply (H (S j)).
Qed.
Section Lines.
Variables (headers : list text) (cells : list (list text)) (cols : list (text * nat * list text)).
Hypothesis NH : headers <> [].
Hypothesis LC : length cols = length headers.
Hypothesis LR : Forall (fun r => length r = length headers) cells.
Hypothesis MADE : forall j h col, nth_error headers j = Some h -> nth_error cols j = Some col -> column_made cells j h col.
Let ws := map (fun c : text * nat * list text => snd (fst c)) cols.
Lemma ws_some : ws <> []. Proof. unfold ws. destruct cols; [destruct headers; [congruence|discriminate]|discriminate]. Qed.
Lemma head_of j col : nth_error cols j = Some col -> exists h, nth_error headers j = Some h.
Proof. intros E. destruct (nth_error headers j) as [h|] eqn:Eh; [eauto|]. apply nth_error_None in Eh. assert (j < length cols)%nat by (apply nth_error_Some; congruence). lia. Qed.
Lemma row_cells i r j col c : nth_error cells i = Some r -> nth_error cols j = Some col -> nth_error r j = Some c -> fits (snd (fst col)) c (nth i (snd col) []).
Proof.
  intros Er Ec E. destruct (head_of j col Ec) as [h Eh]. destruct (MADE j h col Eh Ec) as (_ & _ & F). assert (L : (i < length (map (fun r : list text => nth j r []) cells))%nat) by (rewrite map_length; apply nth_error_Some; congruence).
  pose proof (forall2_nth _ _ _ ([] : text) ([] : text) i F L) as K. assert (X : nth i (map (fun r : list text => nth j r []) cells) [] = c) by (apply nth_error_nth; rewrite nth_error_map, Er; cbn [option_map]; f_equal; apply nth_error_nth, E). unfold text in *. rewrite X in K. exact K.
Qed.
Lemma header_fits j col c : nth_error cols j = Some col -> nth_error (map strip headers) j = Some c -> fits (snd (fst col)) c (fst (fst col)).
Proof. intros Ec E. destruct (head_of j col Ec) as [h Eh]. rewrite nth_error_map, Eh in E. injection E as <-. now destruct (MADE j h col Eh Ec) as (_ & F & _). Qed.
Lemma line_ok (cs : list text) (pick : text * nat * list text -> text) : length cs = length headers ->
  (forall j col c, nth_error cols j = Some col -> nth_error cs j = Some c -> fits (snd (fst col)) c (pick col)) ->
  in_columns ws cs (simple_row (map pick cols)) /\ one_line (simple_row (map pick cols)).
Proof.
  intros L H. apply row_spec; [|rewrite map_length; lia|apply ws_some]. apply forall2_three; unfold ws; rewrite ?map_length; try lia. intros j w c f Ew Ec Ef. rewrite nth_error_map in Ew, Ef. destruct (nth_error cols j) as [col|] eqn:E; [|discriminate]. injection Ew as <-. injection Ef as <-. cbn [fst snd]. eapply H; eauto.
Qed.
Lemma tex_ok (cs : list text) (pick : text * nat * list text -> text) : length cs = length headers ->
  (forall j col c, nth_error cols j = Some col -> nth_error cs j = Some c -> fits (snd (fst col)) c (pick col)) ->
  tex_row cs (latex_row (map pick cols)) /\ one_line (latex_row (map pick cols)).
Proof.
  intros L H. assert (F : Forall2 (fun f c => core f c /\ tidy f) (map pick cols) cs).
  { apply forall2_pointwise; [rewrite map_length; lia|]. intros j f c Ef Ec. rewrite nth_error_map in Ef. destruct (nth_error cols j) as [col|] eqn:E; [|discriminate]. injection Ef as <-. destruct (H j col c E Ec) as (_ & A & B). auto. }
  destruct (forall2_parts _ _ _ _ F) as [F1 F2]. apply row_shows; [exact F1|exact (forall2_left _ _ _ F2)|]. pose proof ws_some as W0. unfold ws in W0. intros E0. apply W0. apply map_eq_nil in E0. now rewrite E0.
Qed.
Lemma all_rows (P : list text -> text -> Prop) (g : nat -> text) : (forall i r, nth_error cells i = Some r -> P r (g i)) -> Forall2 P cells (map g (seq 0 (length cells))).
Proof.
  intros H. assert (G : forall rs k, (forall i r, nth_error rs i = Some r -> nth_error cells (k + i) = Some r) -> Forall2 P rs (map g (seq k (length rs)))).
  { induction rs as [|r rs IH]; intros k E; cbn [map length seq]; constructor. - apply H. rewrite <- (Nat.add_0_r k). now apply E. - apply IH. intros i r' E'. replace (S k + i)%nat with (k + S i)%nat by lia. now apply E. }
  apply G. auto.
Qed.
Lemma row_length i r : nth_error cells i = Some r -> length r = length headers.
Proof. intros E. rewrite Forall_forall in LR. apply LR. eapply nth_error_In; eauto. Qed.
Theorem lines_show : shows_table (join nl (simple_row (map (fun c => fst (fst c)) cols) :: simple_row (map (fun c => repeat "-"%char (snd (fst c))) cols) :: map (fun i => simple_row (map (fun c => nth i (snd c) []) cols)) (seq 0 (length cells)))) (map strip headers) cells.
Proof.
  assert (HD := line_ok (map strip headers) (fun c => fst (fst c)) ltac:(apply map_length) ltac:(intros; eapply header_fits; eauto)). cbn beta in HD.
  assert (DA : dashes ws (simple_row (map (fun w => repeat "-"%char w) ws)) /\ one_line (simple_row (map (fun w => repeat "-"%char w) ws))).
  { apply dashes_spec; [|apply ws_some]. apply Forall_forall. intros w I. unfold ws in I. apply in_map_iff in I. destruct I as (col & <- & I). apply In_nth_error in I. destruct I as [j E]. destruct (head_of j col E) as [h Eh]. now destruct (MADE j h col Eh E). }
  assert (RW : forall i r, nth_error cells i = Some r -> in_columns ws r (simple_row (map (fun c => nth i (snd c) []) cols)) /\ one_line (simple_row (map (fun c => nth i (snd c) []) cols))).
  { intros i r E. apply (line_ok r (fun c => nth i (snd c) [])); [eapply row_length; eauto|]. intros j col c Ec E2. eapply row_cells; eauto. }
  eexists ws, _, _, _. split; [|split; [exact (proj1 DA)|split; [exact (proj1 HD)|apply all_rows; intros i r E; apply (RW i r E)]]].
  replace (map (fun c : text * nat * list text => repeat "-"%char (snd (fst c))) cols) with (map (fun w => repeat "-"%char w) ws) by (unfold ws; now rewrite map_map). apply join_lines. constructor; [tauto|]. constructor; [tauto|].
  apply Forall_forall. intros l I. apply in_map_iff in I. destruct I as (i & <- & I). apply in_seq in I. destruct (nth_error cells i) as [r|] eqn:E; [apply (RW i r E)|apply nth_error_None in E; lia].
Qed.
Theorem lines_tex letters : length letters = length headers -> (forall l, In l letters -> l = "l"%char \/ l = "r"%char) ->
  tex_table letters (map strip headers) cells (join nl ((text_of "\begin{tabular}{" ++ letters ++ ["}"%char]) :: text_of "\hline" :: latex_row (map (fun c => fst (fst c)) cols) :: text_of "\hline" ::
    map (fun i => latex_row (map (fun c => nth i (snd c) []) cols)) (seq 0 (length cells)) ++ [text_of "\hline"; text_of "\end{tabular}"])).
Proof.
  intros LL LL2. assert (HD := tex_ok (map strip headers) (fun c => fst (fst c)) ltac:(apply map_length) ltac:(intros; eapply header_fits; eauto)). cbn beta in HD.
  assert (RW : forall i r, nth_error cells i = Some r -> tex_row r (latex_row (map (fun c => nth i (snd c) []) cols)) /\ one_line (latex_row (map (fun c => nth i (snd c) []) cols))).
  { intros i r E. apply (tex_ok r (fun c => nth i (snd c) [])); [eapply row_length; eauto|]. intros j col c Ec E2. eapply row_cells; eauto. }
  eexists _, _. split; [|split; [exact (proj1 HD)|split; [apply all_rows; intros i r E; exact (proj1 (RW i r E))|split; [rewrite map_length; exact LL|exact LL2]]]].
  apply join_lines. assert (OK : forall t, tidyb t = true -> one_line t) by (intros t E; now apply tidy_one_line, tidy_check). apply Forall_cons; [|apply Forall_cons; [apply OK; reflexivity|apply Forall_cons; [tauto|apply Forall_cons; [apply OK; reflexivity|]]]].
  + apply tidy_one_line. apply tidy_app; [apply tidy_check; reflexivity|]. apply tidy_app; [|apply tidy_check; reflexivity]. intros c I S. destruct (LL2 c I); subst; discriminate.
  + apply Forall_app. split; [|apply Forall_cons; [apply OK; reflexivity|apply Forall_cons; [apply OK; reflexivity|constructor]]]. apply Forall_forall. intros l I. apply in_map_iff in I. destruct I as (i & <- & I). apply in_seq in I. destruct (nth_error cells i) as [r|] eqn:E; [apply (RW i r E)|apply nth_error_None in E; lia].
Qed.
End Lines.

(** * Tables with cells that may be None *)
Section Cells.
Variable int_of : text -> bool.
Variable float_of : text -> option pyfloat.
Notation cells_type := (cells_type int_of float_of).
Notation show_cell := (show_cell float_of).
Notation printed_cells := (printed_cells int_of float_of).
Definition tidy_cell (c : gcell) : Prop := match c with Some t => tidy t | None => True end.
Lemma show_tidy ct c : tidy_cell c -> tidy (show_cell ct c).
Proof. destruct c as [t|]; cbn; [apply format_tidy|intros _ c []]. Qed.
Lemma printed_cells_spec header col : tidy header -> Forall tidy_cell col ->
  (0 < snd (fst (printed_cells header col)))%nat /\ fits (snd (fst (printed_cells header col))) (strip header) (fst (fst (printed_cells header col))) /\
  Forall2 (fits (snd (fst (printed_cells header col)))) (map (fun c => strip (show_cell (cells_type col) c)) col) (snd (printed_cells header col)).
Proof.
  intros TH TC. unfold M_GlsReport.printed_cells. destruct col as [|c0 col0]; cbv zeta.
  - cbn [fst snd map]. split; [lia|]. split; [|constructor]. split; [apply ljust_length; lia|]. split; [apply core_ljust, strip_core|now apply tidy_ljust].
  - cbn [fst snd]. set (col := c0 :: col0) in *. set (ct := cells_type col).
    destruct (align_spec int_of float_of ct (map (show_cell ct) col) (length header + 2)) as (W & LW & F).
    { apply Forall_forall. intros x I. apply in_map_iff in I. destruct I as (y & <- & I). rewrite Forall_forall in TC. apply show_tidy. auto. }
    set (cells := align_column int_of float_of ct (map (show_cell ct) col) (length header + 2)) in *.
    assert (E : Nat.max (length header + 2) (length (hd [] cells)) = W).
    { unfold col in F. cbn [map] in F. destruct cells as [|f fs]; inversion F as [|? ? ? ? (L & _) ?]; subst. cbn [hd]. lia. }
    rewrite E. split; [lia|]. split.
    + destruct (is_number ct); (split; [first [apply rjust_length|apply ljust_length]; lia|]; split; [first [apply core_rjust|apply core_ljust]; apply strip_core|first [apply tidy_rjust|apply tidy_ljust]; auto]).
    + clear E LW TC. clearbody cells ct col. clear - F. revert cells F. induction col as [|c col IH]; cbn [map]; intros cells F; inversion F; subst; constructor; auto.
Qed.
Lemma numbered_any {A} (names : list A) : forall k j n, nth_error names j = Some n -> nth_error (combine (seq k (length names)) names) j = Some ((k + j)%nat, n).
Proof.
  induction names as [|a names IH]; intros k j n H; [destruct j; discriminate|]. destruct j as [|j]; cbn [length seq combine nth_error] in *. - rewrite Nat.add_0_r. congruence.
  - rewrite (IH (S k) j n H). f_equal. f_equal. lia.
Qed.
Definition shown_cells (rows : list (list gcell)) (r : list gcell) : list text :=
  map (fun jc => strip (show_cell (cells_type (cell_column rows (fst jc))) (snd jc))) (combine (seq 0 (length r)) r).
Lemma shown_length rows r : length (shown_cells rows r) = length r.
Proof. unfold shown_cells. rewrite map_length, combine_length, seq_length. lia. Qed.
Lemma shown_nth rows r j : (j < length r)%nat -> nth j (shown_cells rows r) [] = strip (show_cell (cells_type (cell_column rows j)) (nth j r None)).
Proof.
  intros L. apply nth_error_nth. unfold shown_cells. destruct (nth_error r j) as [c|] eqn:E; [|apply nth_error_None in E; lia]. rewrite nth_error_map, (numbered_any r 0 j c E). cbn [option_map fst snd Nat.add]. do 3 f_equal. symmetry. now apply nth_error_nth.
Qed.
Section Table.
Variables (headers : list text) (rows : list (list gcell)).
Hypothesis NH : headers <> [].
Hypothesis TH : Forall tidy headers.
Hypothesis TR : Forall (fun r => length r = length headers /\ Forall tidy_cell r) rows.
Let cells := map (shown_cells rows) rows.
Let cols := cell_columns int_of float_of headers rows.
Lemma cols_length : length cols = length headers.
Proof. unfold cols, cell_columns. rewrite map_length, combine_length, seq_length. lia. Qed.
Lemma cells_length : Forall (fun r => length r = length headers) cells.
Proof. apply Forall_forall. intros r I. unfold cells in I. apply in_map_iff in I. destruct I as (x & <- & I). rewrite shown_length. rewrite Forall_forall in TR. now apply TR. Qed.
Lemma cols_made j h col : nth_error headers j = Some h -> nth_error cols j = Some col -> column_made cells j h col.
Proof.
  intros E Ec. unfold cols, cell_columns in Ec. rewrite nth_error_map, (numbered_nth headers 0 j h E) in Ec. cbn [option_map fst snd Nat.add] in Ec. injection Ec as <-. assert (LJ : (j < length headers)%nat) by (apply nth_error_Some; congruence).
  pose proof TH as TH'. rewrite Forall_forall in TH'. pose proof TR as TR'. rewrite Forall_forall in TR'.
  destruct (printed_cells_spec h (cell_column rows j) (TH' h (nth_error_In _ _ E))) as (A & B & C).
  { apply Forall_forall. intros x I. unfold cell_column in I. apply in_map_iff in I. destruct I as (r & <- & I). destruct (TR' r I) as [L T]. rewrite Forall_forall in T. apply T, nth_In. unfold gcell, text in *. lia. }
  split; [exact A|]. split; [exact B|]. eapply (eq_ind _ (fun x => Forall2 _ x _) C).
  unfold cells. rewrite map_map. unfold cell_column at 2. rewrite map_map. apply map_ext_in. intros r I. symmetry. apply (shown_nth rows r j). destruct (TR' r I). unfold gcell, text in *. lia.
Qed.
Theorem draw_shows : shows_table (draw_cells int_of float_of headers rows) (map strip headers) cells.
Proof.
  pose proof (lines_show headers cells cols NH cols_length cells_length cols_made) as H. unfold cells in H at 1. rewrite map_length in H. exact H.
Qed.
Theorem latex_shows_cells : rows <> [] -> exists letters, tex_table letters (map strip headers) cells (latex_cells int_of float_of headers rows) /\
  letters = map (fun j => latex_align (cells_type (cell_column rows j))) (seq 0 (length headers)).
Proof.
  intros N. eexists. split; [|reflexivity]. set (letters := map (fun j => latex_align (cells_type (cell_column rows j))) (seq 0 (length headers))).
  pose proof (lines_tex headers cells cols NH cols_length cells_length cols_made letters) as H. unfold cells in H at 2. rewrite map_length in H. unfold latex_cells. cbv zeta. fold cols.
  replace (match rows with [] => [] | _ => map (fun j => latex_align (cells_type (cell_column rows j))) (seq 0 (length headers)) end) with letters by (destruct rows; [congruence|reflexivity]). apply H.
  - unfold letters. now rewrite map_length, seq_length. - intros l I. unfold letters in I. apply in_map_iff in I. destruct I as (j & <- & _). unfold latex_align. destruct (is_number _); auto.
Qed.
End Table.
(** Without None, it is the drawing of C94 and C99. *)
Lemma cells_type_some col : cells_type (map Some col) = column_type int_of float_of col.
Proof. unfold M_GlsReport.cells_type. f_equal. induction col as [|c col IH]; [reflexivity|]. cbn [map flat_map app]. now rewrite IH. Qed.
Lemma printed_some h col : printed_cells h (map Some col) = printed_column int_of float_of h col.
Proof.
  destruct col as [|c col]; [reflexivity|]. unfold M_GlsReport.printed_cells, printed_column. change (map Some (c :: col)) with (Some c :: map Some col) at 1. cbv iota. rewrite (cells_type_some (c :: col)), map_map. reflexivity.
Qed.
Theorem draw_some headers rows : Forall (fun r => length r = length headers) rows ->
  draw_cells int_of float_of headers (map (map Some) rows) = tabulate int_of float_of (headers :: rows) /\
  latex_cells int_of float_of headers (map (map Some) rows) = tabulate_latex int_of float_of (headers :: rows).
Proof.
  intros L. assert (C : forall j, (j < length headers)%nat -> cell_column (map (map Some) rows) j = map Some (column rows j)).
  { intros j J. unfold cell_column, column. rewrite !map_map. apply map_ext_in. intros r I. rewrite Forall_forall in L. specialize (L r I). transitivity (nth j (map (@Some text) r) (Some [])); [apply nth_indep; rewrite map_length; unfold row, text in *; lia|apply (map_nth (@Some text))]. }
  assert (E : cell_columns int_of float_of headers (map (map Some) rows) = map (fun jh => printed_column int_of float_of (snd jh) (column rows (fst jh))) (combine (seq 0 (length headers)) headers)).
  { unfold cell_columns. apply map_ext_in. intros [j h] I. cbn [fst snd]. apply in_combine_l, in_seq in I. rewrite C by lia. apply printed_some. }
  split.
  - unfold draw_cells, tabulate. rewrite E, map_length. reflexivity.
  - unfold latex_cells, tabulate_latex. cbn [hd tl]. cbv zeta. rewrite E, map_length.
    assert (X : match map (map Some) rows with [] => [] | _ => map (fun j => latex_align (cells_type (cell_column (map (map Some) rows) j))) (seq 0 (length headers)) end = match rows with [] => [] | _ => map (fun j => latex_align (column_type int_of float_of (column rows j))) (seq 0 (length headers)) end).
    { destruct rows as [|r rows']; [reflexivity|]. cbn [map]. apply map_ext_in. intros j I. apply in_seq in I. change (map Some r :: map (map Some) rows') with (map (map (@Some text)) (r :: rows')). rewrite C by lia. f_equal. apply cells_type_some. }
    exact (f_equal (fun l => join nl ((text_of "\begin{tabular}{" ++ l ++ ["}"%char]) :: _)) X).
Qed.
End Cells.
