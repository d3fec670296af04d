(** LaTeX tables show the cells of the table, and can be read in one way only. *)
From Verif Require Import Prelude M_Stoichiometry M_Text M_Csv M_Tables M_Print M_Json M_Tabulate M_Latex Spec_Text Spec_Tables Spec_Print Spec_Tabulate Spec_Latex P_Text P_File P_Tables P_Print P_Print3 P_Tabulate P_Draw.
From Coq Require Import Lia.
Local Open Scope string_scope.
Local Open Scope list_scope.

(** * Escapes *)
Lemma escaped_none rules c : ~ In c (map fst rules) -> escaped rules c = [c].
Proof. induction rules as [|[d t] rules IH]; intros N; cbn [escaped]; auto. destruct (Ascii.eqb_spec c d) as [->|]; [exfalso; apply N; now left|]. apply IH. intros I. apply N. now right. Qed.
Lemma escaped_shows c s t : tex_shows s t -> tex_shows (escaped escape_rules c ++ s) (c :: t).
Proof.
  intros H. destruct (in_dec ascii_dec c special) as [I|N].
  - repeat (destruct I as [<-|I]; [first [apply ts_escaped; [cbn; tauto|exact H]|now apply ts_accent|now apply ts_tilde|now apply ts_backslash|now apply ts_less|now apply ts_greater]|]). destruct I.
  - rewrite escaped_none. + cbn [app]. now constructor. + intros I. apply N. cbn in *. tauto.
Qed.
Lemma escape_shows t : tex_shows (flat_map (escaped escape_rules) t) t.
Proof. induction t as [|c t IH]; cbn [flat_map]; [constructor|]. now apply escaped_shows. Qed.
Lemma escaped_tidy c : (is_space c = true -> c = " "%char) -> tidy (escaped escape_rules c).
Proof.
  intros T. destruct (in_dec ascii_dec c special) as [I|N].
  - repeat (destruct I as [<-|I]; [apply tidy_check; reflexivity|]). destruct I.
  - rewrite escaped_none. + intros d [<-|[]] S. auto. + intros I. apply N. cbn in *. tauto.
Qed.
Lemma escape_tidy t : tidy t -> tidy (flat_map (escaped escape_rules) t).
Proof. intros T c I. apply in_flat_map in I. destruct I as (d & I & J). apply (escaped_tidy d); auto. Qed.
Lemma core_padded f c : core f c -> core (padded_cell f) c.
Proof. intros C. apply (core_around [" "%char] f [" "%char] c C); reflexivity. Qed.
Lemma tidy_padded f : tidy f -> tidy (padded_cell f).
Proof. intros T. apply (tidy_app [" "%char] (f ++ [" "%char])); [|apply tidy_app; auto]; intros c [<-|[]]; auto. Qed.

(** * Rows *)
Lemma row_shows cs fs : Forall2 core fs cs -> Forall tidy fs -> fs <> [] -> tex_row cs (latex_row fs) /\ one_line (latex_row fs).
Proof.
  intros F T N. unfold latex_row.
  assert (E : rstrip (join ["&"%char] (map (fun c => flat_map (escaped escape_rules) (padded_cell c)) fs) ++ text_of "\\") = join ["&"%char] (map (fun c => flat_map (escaped escape_rules) (padded_cell c)) fs) ++ text_of "\\").
  { change (text_of "\\") with (["\"%char] ++ ["\"%char]). rewrite app_assoc. now apply rstrip_same. }
  rewrite E. clear E. split.
  - induction F as [|f c fs cs C F IH]; [congruence|]. inversion T as [|? ? T1 T2]; subst. destruct fs as [|f2 fs].
    + inversion F; subst. cbn [map join]. econstructor; [apply escape_shows|now apply core_padded].
    + change (join ["&"%char] (map (fun c => flat_map (escaped escape_rules) (padded_cell c)) (f :: f2 :: fs))) with (flat_map (escaped escape_rules) (padded_cell f) ++ "&"%char :: join ["&"%char] (map (fun c => flat_map (escaped escape_rules) (padded_cell c)) (f2 :: fs))). rewrite <- app_assoc. cbn [app].
      econstructor; [apply escape_shows|now apply core_padded|]. apply IH; auto. discriminate.
  - apply tidy_one_line. apply tidy_app; [|apply tidy_check; reflexivity]. clear F N cs. induction T as [|f fs T1 T2 IH]; [intros c []|]. destruct fs as [|f2 fs]; [cbn [map join]; now apply escape_tidy, tidy_padded|].
    change (join ["&"%char] (map (fun c => flat_map (escaped escape_rules) (padded_cell c)) (f :: f2 :: fs))) with (flat_map (escaped escape_rules) (padded_cell f) ++ "&"%char :: join ["&"%char] (map (fun c => flat_map (escaped escape_rules) (padded_cell c)) (f2 :: fs))).
    apply tidy_app; [now apply escape_tidy, tidy_padded|]. intros c [<-|I]; [discriminate|now apply IH].
Qed.

(** * Reading back *)
Definition ends (r : text) : Prop := exists u, r = "&"%char :: u \/ r = text_of "\\" ++ u.
Lemma shows_split s t : tex_shows s t -> forall s' t' r r', tex_shows s' t' -> ends r -> ends r' -> s ++ r = s' ++ r' -> t = t' /\ r = r'.
Proof.
  assert (SP : forall c, In c special -> ~ ~ In c special) by tauto.
  induction 1 as [|c s t N H IH|c s t I H IH|s t H IH|s t H IH|s t H IH|s t H IH|s t H IH]; intros s' t' r r' H' E E' EQ.
  - inversion H' as [|c' s0 t0 N' K|c' s0 t0 I' K|s0 t0 K|s0 t0 K|s0 t0 K|s0 t0 K|s0 t0 K]; subst; cbn [app text_of list_ascii_of_string] in EQ; [auto| | | | | | |]; exfalso; destruct E as (u & [-> | ->]); cbn [app text_of list_ascii_of_string] in EQ; try discriminate;
      try (injection EQ as <- _; apply N'; cbn; tauto). injection EQ as <- _. repeat (destruct I' as [I'|I']; [discriminate|]); destruct I'.
  - inversion H' as [|c' s0 t0 N' K|c' s0 t0 I' K|s0 t0 K|s0 t0 K|s0 t0 K|s0 t0 K|s0 t0 K]; subst; cbn [app text_of list_ascii_of_string] in EQ;
      try (exfalso; injection EQ as -> _; apply N; cbn; tauto).
    + exfalso. destruct E' as (u & [-> | ->]); cbn [app text_of list_ascii_of_string] in EQ; injection EQ as -> _; apply N; cbn; tauto.
    + injection EQ as -> EQ. destruct (IH _ _ _ _ K E E' EQ) as [-> ->]. auto.
  - inversion H' as [|c' s0 t0 N' K|c' s0 t0 I' K|s0 t0 K|s0 t0 K|s0 t0 K|s0 t0 K|s0 t0 K]; subst; cbn [app text_of list_ascii_of_string] in EQ;
      try (exfalso; injection EQ as <- _; apply N'; cbn; tauto).
    + exfalso. destruct E' as (u & [-> | ->]); cbn [app text_of list_ascii_of_string] in EQ; [discriminate|]. injection EQ as -> _. repeat (destruct I as [I|I]; [discriminate|]); destruct I.
    + injection EQ as -> EQ. destruct (IH _ _ _ _ K E E' EQ) as [-> ->]. auto.
    + exfalso. injection EQ as -> _. repeat (destruct I as [I|I]; [discriminate|]); destruct I.
    + exfalso. injection EQ as -> _. repeat (destruct I as [I|I]; [discriminate|]); destruct I.
    + exfalso. injection EQ as -> _. repeat (destruct I as [I|I]; [discriminate|]); destruct I.
    + exfalso. injection EQ as -> _. repeat (destruct I as [I|I]; [discriminate|]); destruct I.
    + exfalso. injection EQ as -> _. repeat (destruct I as [I|I]; [discriminate|]); destruct I.
  - inversion H' as [|c' s0 t0 N' K|c' s0 t0 I' K|s0 t0 K|s0 t0 K|s0 t0 K|s0 t0 K|s0 t0 K]; subst; cbn [app text_of list_ascii_of_string] in EQ; try discriminate;
      try (exfalso; injection EQ as <- _; apply N'; cbn; tauto); try (exfalso; injection EQ as <- _; repeat (destruct I' as [I'|I']; [discriminate|]); destruct I').
    + exfalso. destruct E' as (u & [-> | ->]); discriminate. + injection EQ as EQ. destruct (IH _ _ _ _ K E E' EQ) as [-> ->]. auto.
  - inversion H' as [|c' s0 t0 N' K|c' s0 t0 I' K|s0 t0 K|s0 t0 K|s0 t0 K|s0 t0 K|s0 t0 K]; subst; cbn [app text_of list_ascii_of_string] in EQ; try discriminate;
      try (exfalso; injection EQ as <- _; apply N'; cbn; tauto); try (exfalso; injection EQ as <- _; repeat (destruct I' as [I'|I']; [discriminate|]); destruct I').
    + exfalso. destruct E' as (u & [-> | ->]); discriminate. + injection EQ as EQ. destruct (IH _ _ _ _ K E E' EQ) as [-> ->]. auto.
  - inversion H' as [|c' s0 t0 N' K|c' s0 t0 I' K|s0 t0 K|s0 t0 K|s0 t0 K|s0 t0 K|s0 t0 K]; subst; cbn [app text_of list_ascii_of_string] in EQ; try discriminate;
      try (exfalso; injection EQ as <- _; apply N'; cbn; tauto); try (exfalso; injection EQ as <- _; repeat (destruct I' as [I'|I']; [discriminate|]); destruct I').
    + exfalso. destruct E' as (u & [-> | ->]); discriminate. + injection EQ as EQ. destruct (IH _ _ _ _ K E E' EQ) as [-> ->]. auto.
  - inversion H' as [|c' s0 t0 N' K|c' s0 t0 I' K|s0 t0 K|s0 t0 K|s0 t0 K|s0 t0 K|s0 t0 K]; subst; cbn [app text_of list_ascii_of_string] in EQ; try discriminate;
      try (exfalso; injection EQ as <- _; apply N'; cbn; tauto); try (exfalso; injection EQ as <- _; repeat (destruct I' as [I'|I']; [discriminate|]); destruct I').
    + exfalso. destruct E' as (u & [-> | ->]); discriminate. + injection EQ as EQ. destruct (IH _ _ _ _ K E E' EQ) as [-> ->]. auto.
  - inversion H' as [|c' s0 t0 N' K|c' s0 t0 I' K|s0 t0 K|s0 t0 K|s0 t0 K|s0 t0 K|s0 t0 K]; subst; cbn [app text_of list_ascii_of_string] in EQ; try discriminate;
      try (exfalso; injection EQ as <- _; apply N'; cbn; tauto); try (exfalso; injection EQ as <- _; repeat (destruct I' as [I'|I']; [discriminate|]); destruct I').
    + exfalso. destruct E' as (u & [-> | ->]); discriminate. + injection EQ as EQ. destruct (IH _ _ _ _ K E E' EQ) as [-> ->]. auto.
Qed.
Lemma row_unique cs l : tex_row cs l -> forall cs', tex_row cs' l -> cs = cs'.
Proof.
  assert (E1 : ends (text_of "\\")) by (exists []; right; reflexivity). assert (E2 : forall r, ends ("&"%char :: r)) by (intros r; exists r; now left).
  induction 1 as [s t c S C|s t c cs r S C R IH]; intros cs' H'; inversion H' as [s' t' c' S' C' EC EQ|s' t' c' cs1 r' S' C' R' EC EQ]; subst.
  - destruct (shows_split _ _ S' _ _ _ _ S E1 E1 EQ) as [-> _]. f_equal. eapply core_unique; eauto.
  - destruct (shows_split _ _ S' _ _ _ _ S (E2 _) E1 EQ) as [_ X]. discriminate.
  - destruct (shows_split _ _ S' _ _ _ _ S E1 (E2 _) EQ) as [_ X]. discriminate.
  - destruct (shows_split _ _ S' _ _ _ _ S (E2 _) (E2 _) EQ) as [-> X]. injection X as ->. f_equal; [eapply core_unique; eauto|auto].
Qed.
Theorem table_unique al h cs al' h' cs' t : tex_table al h cs t -> tex_table al' h' cs' t -> al = al' /\ h = h' /\ cs = cs'.
Proof.
  intros (hl & ls & L & H & F & _) (hl' & ls' & L' & H' & F' & _). pose proof (lines_unique _ _ _ L L') as E. injection E as EA EH EL. apply app_inv_tail in EA. subst al' hl'. apply app_inv_tail in EL. subst ls'.
  split; auto. split; [eapply row_unique; eauto|]. clear - F F'. revert cs' F'. induction F; intros cs' F'; inversion F'; subst; auto. f_equal; [eapply row_unique; eauto|auto].
Qed.

(** * The table *)
Section S.
Variable int_of : text -> bool.
Variable float_of : text -> option pyfloat.
Lemma forall2_pointwise {X Y} (P : X -> Y -> Prop) l : forall l', length l = length l' -> (forall j x y, nth_error l j = Some x -> nth_error l' j = Some y -> P x y) -> Forall2 P l l'.
Proof.
  induction l as [|x l IH]; intros [|y l'] L H; try discriminate; constructor. - apply (H 0%nat); reflexivity. - apply IH; [now injection L|]. intros j. apply (H (S j)).
Qed.
Lemma forall2_parts {X Y} (P Q : X -> Y -> Prop) l l' : Forall2 (fun x y => P x y /\ Q x y) l l' -> Forall2 P l l' /\ Forall2 Q l l'.
Proof. induction 1 as [|x y l l' [A B] F [IH1 IH2]]; split; constructor; auto. Qed.
Lemma forall2_left {X Y} (P : X -> Prop) l (l' : list Y) : Forall2 (fun x _ => P x) l l' -> Forall P l.
Proof. induction 1; constructor; auto. Qed.
Lemma forall2_seq_l {X Y} (P : X -> Y -> Prop) (f : X -> X) (g : nat -> Y) : forall (l : list X) k, (forall i x, nth_error l i = Some x -> P (f x) (g (k + i)%nat)) -> Forall2 P (map f l) (map g (seq k (length l))).
Proof.
  induction l as [|x l IH]; intros k H; cbn [length seq map]; constructor. - rewrite <- (Nat.add_0_r k). now apply H. - apply IH. intros i y E. replace (S k + i)%nat with (k + S i)%nat by lia. now apply H.
Qed.
Definition letters_of (headers : list text) (rows : list row) : list ascii := map (fun j => latex_align (column_type int_of float_of (column rows j))) (seq 0 (length headers)).
Theorem latex_shows (headers : list text) (rows : list row) : headers <> [] -> rows <> [] -> Forall tidy headers -> Forall (fun r => length r = length headers /\ Forall tidy r) rows ->
  tex_table (letters_of headers rows) (map strip headers) (map (shown_row int_of float_of rows) rows) (tabulate_latex int_of float_of (headers :: rows)).
Proof.
  intros N NR TH TR. unfold tabulate_latex. cbn [hd tl]. cbv zeta. replace (match rows with [] => [] | _ => map (fun j => latex_align (column_type int_of float_of (column rows j))) (seq 0 (length headers)) end) with (letters_of headers rows) by (destruct rows; [congruence|reflexivity]).
  set (cols := map (fun jh : nat * text => printed_column int_of float_of (snd jh) (column rows (fst jh))) (combine (seq 0 (length headers)) headers)).
  assert (LC : length cols = length headers). { unfold cols. rewrite map_length, combine_length, seq_length. lia. }
  assert (PC : forall j c, nth_error cols j = Some c -> exists h, nth_error headers j = Some h /\ c = printed_column int_of float_of h (column rows j)).
  { intros j c E. destruct (nth_error headers j) as [h|] eqn:Eh; [|apply nth_error_None in Eh; assert (j < length cols)%nat by (apply nth_error_Some; congruence); lia]. exists h. split; auto. unfold cols in E. rewrite nth_error_map, (numbered_nth headers 0 j h Eh) in E. now injection E as <-. }
  assert (TC : forall j, (j < length headers)%nat -> Forall tidy (column rows j)).
  { intros j L. apply Forall_forall. intros x I. unfold column in I. apply in_map_iff in I. destruct I as (r & <- & I). rewrite Forall_forall in TR. destruct (TR r I) as [E T]. rewrite Forall_forall in T. apply T, nth_In. unfold row, text in *. rewrite E. exact L. }
  assert (PS : forall j h, nth_error headers j = Some h -> _) by (intros j h E; rewrite Forall_forall in TH; exact (printed_spec int_of float_of h (column rows j) (TH h (nth_error_In _ _ E)) (TC j (proj1 (nth_error_Some headers j) ltac:(congruence))))).
  assert (NC : cols <> []) by (destruct cols; [destruct headers; [congruence|discriminate]|discriminate]).
  assert (HD : tex_row (map strip headers) (latex_row (map (fun c => fst (fst c)) cols)) /\ one_line (latex_row (map (fun c => fst (fst c)) cols))).
  { assert (F : Forall2 (fun f c => core f c /\ tidy f) (map (fun c => fst (fst c)) cols) (map strip headers)).
    { apply forall2_pointwise; [rewrite !map_length; exact LC|]. intros j f c E E2. rewrite nth_error_map in E, E2. destruct (nth_error cols j) as [col|] eqn:Ec; [|discriminate]. destruct (PC j col Ec) as (h & Eh & ->). rewrite Eh in E2. cbn [option_map] in E, E2. injection E as <-. injection E2 as <-. destruct (PS j h Eh) as (_ & (_ & A & B) & _). auto. }
    destruct (forall2_parts _ _ _ _ F) as [F1 F2]. apply row_shows; [exact F1|exact (forall2_left _ _ _ F2)|]. destruct cols; [congruence|discriminate]. }
  assert (RW : forall i r, nth_error rows i = Some r -> tex_row (shown_row int_of float_of rows r) (latex_row (map (fun c => nth i (snd c) []) cols)) /\ one_line (latex_row (map (fun c => nth i (snd c) []) cols))).
  { intros i r E. assert (IR : In r rows) by (eapply nth_error_In; eauto). pose proof TR as TR'. rewrite Forall_forall in TR'. destruct (TR' r IR) as [LR T].
    assert (F : Forall2 (fun f c => core f c /\ tidy f) (map (fun c : text * nat * list text => nth i (snd c) ([] : text)) cols) (shown_row int_of float_of rows r)).
    { apply forall2_pointwise; [unfold shown_row; rewrite !map_length, combine_length, seq_length; unfold row, text in *; lia|]. intros j f c Ef Ec. rewrite nth_error_map in Ef. unfold text in *. destruct (nth_error cols j) as [col|] eqn:Ecol; [|discriminate Ef]. destruct (PC j col Ecol) as (h & Eh & ->). cbn [option_map] in Ef. match type of Ef with Some ?x = Some _ => assert (EX : x = f) by congruence; clear Ef; subst f end. destruct (PS j h Eh) as (_ & _ & F).
      assert (LR0 : (i < length rows)%nat) by (apply (proj1 (nth_error_Some rows i)); rewrite E; discriminate). assert (LI : (i < length (column rows j))%nat) by (unfold column; rewrite map_length; exact LR0).
      pose proof (forall2_nth _ _ _ ([] : text) ([] : text) i F LI) as K. cbn beta in K. destruct K as (_ & K1 & K2). split; [|exact K2].
      replace c with (strip (format_cell float_of (column_type int_of float_of (column rows j)) (nth i (column rows j) []))); [exact K1|].
      assert (LJ : (j < length headers)%nat) by (apply nth_error_Some; rewrite Eh; discriminate).
      unfold shown_row in Ec. destruct (nth_error r j) as [x|] eqn:Er; [|apply nth_error_None in Er; unfold row, text in *; lia]. rewrite nth_error_map, (numbered_nth r 0 j x Er) in Ec. cbn [option_map fst snd] in Ec. injection Ec as <-. do 2 f_equal.
      unfold column. etransitivity; [apply (nth_map' (fun r : row => nth j r []) [] [] rows i LR0)|]. cbn beta. transitivity (nth j r []); [f_equal; exact (nth_error_nth rows i [] E)|]. apply nth_error_nth, Er. }
    destruct (forall2_parts _ _ _ _ F) as [F1 F2]. apply row_shows; [exact F1|exact (forall2_left _ _ _ F2)|]. destruct cols; [congruence|discriminate]. }
  assert (LL : forall l, In l (letters_of headers rows) -> l = "l"%char \/ l = "r"%char) by (intros l I; unfold letters_of in I; apply in_map_iff in I; destruct I as (j & <- & _); unfold latex_align; destruct (is_number _); auto).
  exists (latex_row (map (fun c => fst (fst c)) cols)), (map (fun i => latex_row (map (fun c => nth i (snd c) []) cols)) (seq 0 (length rows))). split; [|split; [tauto|split; [|split; [unfold letters_of; rewrite !map_length; apply seq_length|exact LL]]]].
  - cbn [app]. apply join_lines. assert (OK : forall t, tidyb t = true -> one_line t) by (intros t E; now apply tidy_one_line, tidy_check). apply Forall_cons; [|apply Forall_cons; [apply OK; reflexivity|apply Forall_cons; [tauto|apply Forall_cons; [apply OK; reflexivity|]]]].
    + apply tidy_one_line. apply tidy_app; [apply tidy_check; reflexivity|]. apply tidy_app; [|apply tidy_check; reflexivity]. intros c I S. destruct (LL c I); subst; discriminate.
    + apply Forall_app. split; [|apply Forall_cons; [apply OK; reflexivity|apply Forall_cons; [apply OK; reflexivity|constructor]]]. apply Forall_forall. intros l I. apply in_map_iff in I. destruct I as (i & <- & I). apply in_seq in I. destruct (nth_error rows i) as [r|] eqn:E; [apply (RW i r E)|apply nth_error_None in E; lia].
  - clear - RW.
    assert (G : forall rs k, (forall i r, nth_error rs i = Some r -> nth_error rows (k + i) = Some r) -> Forall2 tex_row (map (shown_row int_of float_of rows) rs) (map (fun i => latex_row (map (fun c : text * nat * list text => nth i (snd c) []) cols)) (seq k (length rs)))).
    { induction rs as [|r rs IH]; intros k H; cbn [map length seq]; constructor. - assert (E : nth_error rows k = Some r) by (rewrite <- (Nat.add_0_r k); now apply H). exact (proj1 (RW k r E)). - apply IH. intros i r' E. replace (S k + i)%nat with (k + S i)%nat by lia. now apply H. }
    apply G. auto.
Qed.
End S.
