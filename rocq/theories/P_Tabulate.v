(** Proofs about the drawn tables. *)
From Verif Require Import Prelude M_Stoichiometry M_Text M_Csv M_Tables M_Print M_Json M_Tabulate Spec_Text Spec_Tables Spec_Print Spec_Tabulate P_Text P_File P_Tables P_Print P_General.
From Coq Require Import Lia.
Local Open Scope string_scope.
Local Open Scope list_scope.

(** * Fields *)
Lemma spaces_space k : forallb is_space (spaces k) = true.
Proof. unfold spaces. induction k; cbn [repeat forallb]; auto. Qed.
Lemma core_around l t r s : core t s -> forallb is_space l = true -> forallb is_space r = true -> core (l ++ t ++ r) s.
Proof. intros (l' & r' & -> & L & R & A & B) HL HR. exists (l ++ l'), (r' ++ r). rewrite !forallb_app, L, R, HL, HR. repeat split; auto. now rewrite <- !app_assoc. Qed.
Lemma core_self t s : core t s -> core s s.
Proof. intros (l & r & _ & _ & _ & A & B). exists [], []. rewrite app_nil_r. repeat split; auto. Qed.
Lemma core_ljust n t s : core t s -> core (ljust n t) s.
Proof. intros C. unfold ljust. apply (core_around [] t (spaces (n - length t)) s); auto using spaces_space. Qed.
Lemma core_rjust n t s : core t s -> core (rjust n t) s.
Proof. intros C. unfold rjust. replace (spaces (n - length t) ++ t) with (spaces (n - length t) ++ t ++ []) by now rewrite app_nil_r. apply core_around; auto using spaces_space. Qed.
Lemma core_fill t s k : core t s -> core (t ++ spaces k) s.
Proof. intros C. apply (core_around [] t (spaces k) s); auto using spaces_space. Qed.
Lemma core_unique t s s' : core t s -> core t s' -> s = s'.
Proof. intros A B. apply core_strip in A, B. congruence. Qed.
Lemma ljust_length n t : (length t <= n)%nat -> length (ljust n t) = n.
Proof. intros L. unfold ljust, spaces. rewrite app_length, repeat_length. lia. Qed.
Lemma rjust_length n t : (length t <= n)%nat -> length (rjust n t) = n.
Proof. intros L. unfold rjust, spaces. rewrite app_length, repeat_length. lia. Qed.
Lemma widest_ge l : forall w, (w <= widest l w)%nat /\ forall t, In t l -> (length t <= widest l w)%nat.
Proof.
  unfold widest. induction l as [|t l IH]; intros w; cbn [map fold_left]; [split; [lia|intros t []]|].
  destruct (IH (Nat.max w (length t))) as [A B]. split; [lia|]. intros u [->|I]; [lia|auto].
Qed.
(** ** Blanks only *)
Lemma tidy_spaces k : tidy (spaces k). Proof. intros c I _. now apply repeat_spec in I. Qed.
Lemma tidy_app a b : tidy a -> tidy b -> tidy (a ++ b). Proof. intros A B c I. apply in_app_or in I. destruct I; auto. Qed.
Lemma tidy_ljust n t : tidy t -> tidy (ljust n t). Proof. intros T. apply tidy_app; auto using tidy_spaces. Qed.
Lemma tidy_rjust n t : tidy t -> tidy (rjust n t). Proof. intros T. apply tidy_app; auto using tidy_spaces. Qed.
Lemma tidy_core t s : core t s -> tidy t -> tidy s.
Proof. intros (l & r & -> & _) T c I. apply T. apply in_or_app. right. apply in_or_app. auto. Qed.
Lemma tidy_no_space t : no_space t -> tidy t. Proof. intros N c I S. rewrite (N c I) in S. discriminate. Qed.
Lemma tidy_one_line t : tidy t -> one_line t.
Proof. intros T c I. split; intros ->; discriminate (T _ I eq_refl). Qed.
Lemma blank_list r : forallb is_space r = true -> tidy r -> r = repeat " "%char (length r).
Proof. induction r as [|c r IH]; auto. cbn [forallb length repeat]. intros H T. apply andb_prop in H. destruct H as [A B]. f_equal; [apply T; cbn; auto|apply IH; auto]. intros d I. apply T. now right. Qed.
Lemma rstrip_spec t : exists r, t = rstrip t ++ r /\ forallb is_space r = true /\ forall c u, rstrip t = u ++ [c] -> is_space c = false.
Proof.
  unfold rstrip. destruct (lstrip_spec (rev t)) as (l & E & S & F). exists (rev l). split; [|split].
  - rewrite <- rev_app_distr, <- E. now rewrite rev_involutive. - now rewrite forallb_rev.
  - intros c u H. apply (F c (rev u)). rewrite <- (rev_involutive (lstrip (rev t))), H, rev_app_distr. reflexivity.
Qed.
Lemma rstrip_blanks t : tidy t -> exists k, t = rstrip t ++ repeat " "%char k.
Proof. intros T. destruct (rstrip_spec t) as (r & E & S & _). exists (length r). rewrite <- (blank_list r S); auto. intros c I. apply T. rewrite E. apply in_or_app. auto. Qed.
Lemma rstrip_tidy t : tidy t -> tidy (rstrip t).
Proof. intros T. destruct (rstrip_spec t) as (r & E & _). intros c I. apply T. rewrite E. apply in_or_app. auto. Qed.
Lemma rstrip_same t c : is_space c = false -> rstrip (t ++ [c]) = t ++ [c].
Proof. intros N. unfold rstrip. rewrite rev_app_distr. cbn [rev app lstrip]. rewrite N. cbn [rev]. now rewrite rev_involutive. Qed.

(** * A column *)
Section S.
Variable int_of : text -> bool.
Variable float_of : text -> option pyfloat.
Notation column_type := (column_type int_of float_of).
Notation format_cell := (format_cell float_of).
Notation printed_column := (printed_column int_of float_of).
Notation align_column := (align_column int_of float_of).

Definition fits (w : nat) (s f : text) : Prop := length f = w /\ core f s /\ tidy f.
Lemma format_tidy ct c : tidy c -> tidy (format_cell ct c).
Proof. intros T. unfold M_Tabulate.format_cell. destruct (ct =? 2)%Z; auto. destruct (float_of c); auto. apply tidy_no_space, format_g_no_space. Qed.
Lemma forall2_map {X Y} (P : X -> Y -> Prop) (g : X -> Y) l : (forall c, In c l -> P c (g c)) -> Forall2 P l (map g l).
Proof. induction l as [|c l IH]; intros H; cbn [map]; constructor; [apply H; now left|apply IH; intros; apply H; now right]. Qed.
Lemma align_spec ct col w : Forall tidy col -> exists W, (w <= W)%nat /\ Forall2 (fun c f => fits W (strip c) f) col (align_column ct col w).
Proof.
  intros T. rewrite Forall_forall in T. unfold M_Tabulate.align_column. destruct (is_number ct); cbv zeta; rewrite ?map_map.
  - set (m := maxZ (-1) (map (afterpoint int_of float_of) col)). set (g := fun s : text => s ++ spaces (Z.to_nat (m - afterpoint int_of float_of s))). exists (widest (map g col) w). destruct (widest_ge (map g col) w) as [A B]. split; auto.
    apply forall2_map. intros c I. split; [apply rjust_length; apply B; exact (in_map g col c I)|]. split; [apply core_rjust, core_fill, strip_core|apply tidy_rjust, tidy_app; auto using tidy_spaces].
  - exists (widest (map strip col) w). destruct (widest_ge (map strip col) w) as [A B]. split; auto.
    apply forall2_map. intros c I. split; [apply ljust_length; apply B; exact (in_map strip col c I)|]. split; [apply core_ljust; eapply core_self, strip_core|apply tidy_ljust; eapply tidy_core; [apply strip_core|auto]].
Qed.
Lemma printed_spec header col : tidy header -> Forall tidy col ->
  (0 < snd (fst (printed_column header col)))%nat /\ fits (snd (fst (printed_column header col))) (strip header) (fst (fst (printed_column header col))) /\
  Forall2 (fun c f => fits (snd (fst (printed_column header col))) (strip (format_cell (column_type col) c)) f) col (snd (printed_column header col)).
Proof.
  intros TH TC. unfold M_Tabulate.printed_column. destruct col as [|c0 col0]; cbv zeta.
  - cbn [fst snd]. split; [lia|]. split; [|constructor]. split; [apply ljust_length; lia|]. split; [apply core_ljust, strip_core|now apply tidy_ljust].
  - cbn [fst snd]. set (col := c0 :: col0) in *. set (ct := column_type col).
    destruct (align_spec ct (map (format_cell ct) col) (length header + 2)) as (W & LW & F).
    { apply Forall_forall. intros x I. apply in_map_iff in I. destruct I as (y & <- & I). rewrite Forall_forall in TC. apply format_tidy. auto. }
    set (cells := align_column ct (map (format_cell ct) col) (length header + 2)) in *.
    assert (E : Nat.max (length header + 2) (length (hd [] cells)) = W).
    { unfold col in F. cbn [map] in F. destruct cells as [|f fs]; inversion F as [|? ? ? ? (L & _) ?]; subst. cbn [hd]. lia. }
    rewrite E. split; [lia|]. split.
    + destruct (is_number ct); (split; [first [apply rjust_length|apply ljust_length]; lia|]; split; [first [apply core_rjust|apply core_ljust]; apply strip_core|first [apply tidy_rjust|apply tidy_ljust]; auto]).
    + clear E LW TC. clearbody cells ct col. clear - F. revert cells F. induction col as [|c col IH]; cbn [map]; intros cells F; inversion F; subst; constructor; auto.
Qed.

(** * A line *)
Lemma laid_join ws : forall cs fs, Forall2 (fun w (sf : text * text) => fits w (fst sf) (snd sf)) ws (combine cs fs) -> length cs = length fs -> ws <> [] -> laid_out ws cs (join (spaces 2) fs).
Proof.
  induction ws as [|w ws IH]; [congruence|]. intros cs fs F L _. destruct cs as [|c cs], fs as [|f fs]; cbn [combine length] in *; try (inversion F; fail); try discriminate.
  inversion F as [|? ? ? ? (A & B & _) F2]; subst. cbn [fst snd] in *. destruct ws as [|w2 ws].
  - inversion F2 as [K|]. destruct cs, fs; cbn [combine length] in *; try discriminate. cbn [join]. now constructor.
  - destruct fs as [|f2 fs]; [destruct cs; inversion F2|]. change (join (spaces 2) (f :: f2 :: fs)) with (f ++ spaces 2 ++ join (spaces 2) (f2 :: fs)). cbn [spaces repeat app]. constructor; auto. apply IH; auto. discriminate.
Qed.
Lemma join_tidy fs : Forall tidy fs -> tidy (join (spaces 2) fs).
Proof.
  induction fs as [|f fs IH]; [intros _ c []|]. intros F. inversion F; subst. destruct fs as [|g fs]; [exact H1|].
  change (join (spaces 2) (f :: g :: fs)) with (f ++ spaces 2 ++ join (spaces 2) (g :: fs)). apply tidy_app; auto. apply tidy_app; auto using tidy_spaces.
Qed.
Lemma row_spec ws cs fs : Forall2 (fun w (sf : text * text) => fits w (fst sf) (snd sf)) ws (combine cs fs) -> length cs = length fs -> ws <> [] -> in_columns ws cs (simple_row fs) /\ one_line (simple_row fs).
Proof.
  intros F L N. assert (T : Forall tidy fs). { clear N. revert cs fs F L. induction ws as [|w ws IH]; intros [|c cs] [|f fs] F L; cbn [combine length] in *; try discriminate; inversion F as [|? ? ? ? (_ & _ & T)]; subst; constructor; eauto. }
  pose proof (join_tidy fs T) as TJ. unfold simple_row. split; [|apply tidy_one_line, rstrip_tidy, TJ].
  destruct (rstrip_blanks _ TJ) as [k K]. exists k. rewrite <- K. now apply laid_join.
Qed.
Lemma dashes_spec ws : Forall (fun w => (0 < w)%nat) ws -> ws <> [] -> dashes ws (simple_row (map (fun w => repeat "-"%char w) ws)) /\ one_line (simple_row (map (fun w => repeat "-"%char w) ws)).
Proof.
  intros F N. assert (E : dashes ws (join (spaces 2) (map (fun w => repeat "-"%char w) ws)) /\ exists t, join (spaces 2) (map (fun w => repeat "-"%char w) ws) = t ++ ["-"%char]).
  { induction F as [|w ws P F IH]; [congruence|]. destruct ws as [|w2 ws].
    - cbn [map join]. split; [now constructor|]. destruct w as [|w]; [lia|]. exists (repeat "-"%char w). clear. induction w; auto. cbn [repeat app] in *. f_equal. apply IHw.
    - destruct IH as [A [t E]]; [discriminate|]. change (join (spaces 2) (map (fun w => repeat "-"%char w) (w :: w2 :: ws))) with (repeat "-"%char w ++ " "%char :: " "%char :: join (spaces 2) (map (fun w => repeat "-"%char w) (w2 :: ws))). split; [now constructor|]. exists (repeat "-"%char w ++ " "%char :: " "%char :: t). rewrite E, <- app_assoc. reflexivity. }
  destruct E as [D [t E]]. unfold simple_row. rewrite E, rstrip_same by reflexivity. rewrite <- E. split; auto. apply tidy_one_line, join_tidy. apply Forall_forall. intros x I. apply in_map_iff in I. destruct I as (w & <- & _). intros c J. apply repeat_spec in J. subst. discriminate.
Qed.
Lemma join_lines l ls : Forall one_line (l :: ls) -> lines_are (join nl (l :: ls) ++ ["010"%char]) (l :: ls).
Proof.
  revert l. induction ls as [|m ls IH]; intros l F; inversion F; subst.
  - cbn [join]. constructor; auto. constructor.
  - change (join nl (l :: m :: ls)) with (l ++ nl ++ join nl (m :: ls)). rewrite <- app_assoc. cbn [nl app]. constructor; auto.
Qed.

(** * The table *)
(** The cells as they are shown: numbers in a column of numbers are formatted. *)
Definition shown_row (rows : list row) (r : row) : list text :=
  map (fun jc => strip (format_cell (column_type (column rows (fst jc))) (snd jc))) (combine (seq 0 (length r)) r).
Lemma forall2_nth {X Y} (P : X -> Y -> Prop) l l' d d' i : Forall2 P l l' -> (i < length l)%nat -> P (nth i l d) (nth i l' d').
Proof. intros F. revert i. induction F as [|x y l l' H F IH]; intros i L; cbn [length] in L; [lia|]. destruct i; cbn [nth]; auto. apply IH. lia. Qed.
Definition columns_of (headers : list text) (rows : list row) : list (text * nat * list text) := map (fun jh => printed_column (snd jh) (column rows (fst jh))) (combine (seq 0 (length headers)) headers).
Definition lines_of (headers : list text) (rows : list row) : list text := map (fun i => simple_row (map (fun c => nth i (snd c) []) (columns_of headers rows))) (seq 0 (length rows)).
Theorem tabulate_parts (headers : list text) (rows : list row) : headers <> [] -> Forall tidy headers -> Forall (fun r => length r = length headers /\ Forall tidy r) rows ->
  exists h d, lines_are (tabulate int_of float_of (headers :: rows) ++ ["010"%char]) (h :: d :: lines_of headers rows) /\ dashes (map (fun c => snd (fst c)) (columns_of headers rows)) d /\
    in_columns (map (fun c => snd (fst c)) (columns_of headers rows)) (map strip headers) h /\ Forall2 (in_columns (map (fun c => snd (fst c)) (columns_of headers rows))) (map (shown_row rows) rows) (lines_of headers rows).
Proof.
  intros N TH TR. unfold tabulate, lines_of. fold (columns_of headers rows). unfold columns_of. set (cols := map _ (combine _ headers)).
  assert (PC : forall j h, nth_error headers j = Some h -> nth_error cols j = Some (printed_column h (column rows j))).
  { intros j h E. unfold cols. rewrite nth_error_map, (numbered_nth headers 0 j h E). reflexivity. }
  assert (LC : length cols = length headers). { unfold cols. rewrite map_length, combine_length, seq_length. lia. }
  assert (TC : forall j, (j < length headers)%nat -> Forall tidy (column rows j)).
  { intros j L. apply Forall_forall. intros x I. unfold column in I. apply in_map_iff in I. destruct I as (r & <- & I). rewrite Forall_forall in TR. destruct (TR r I) as [E T]. rewrite Forall_forall in T. apply T, nth_In. unfold row, text in *. rewrite E. exact L. }
  pose (ws := map (fun c : text * nat * list text => snd (fst c)) cols).
  assert (NW : ws <> []). { unfold ws. destruct cols; [destruct headers; [congruence|discriminate]|discriminate]. }
  (* lines of cells *)
  assert (LINE : forall (cs : list text) (pick : text * nat * list text -> text), length cs = length headers ->
    (forall j h c, nth_error headers j = Some h -> nth_error cs j = Some c -> fits (snd (fst (printed_column h (column rows j)))) c (pick (printed_column h (column rows j)))) ->
    in_columns ws cs (simple_row (map pick cols)) /\ one_line (simple_row (map pick cols))).
  { intros cs pick LCS H. apply row_spec; [|rewrite map_length; lia|exact NW]. unfold ws. clear NW N. clearbody cols. 
    assert (G : forall j col c, nth_error cols j = Some col -> nth_error cs j = Some c -> fits (snd (fst col)) c (pick col)).
    { intros j col c EC E. destruct (nth_error headers j) as [h|] eqn:Eh; [|apply nth_error_None in Eh; assert (QQ : (j < length cols)%nat) by (apply nth_error_Some; congruence); clear - QQ LC Eh; lia].
      rewrite (PC j h Eh) in EC. injection EC as <-. eapply H; eauto. }
    assert (LL : length cs = length cols) by lia. clear - G LL. revert cs G LL. induction cols as [|col cols IH]; intros [|c cs] G LL; cbn [length map combine] in *; try discriminate; constructor.
    - cbn [fst snd]. apply (G 0%nat); reflexivity. - apply IH; auto. intros j. apply (G (S j)). }
  exists (simple_row (map (fun c => fst (fst c)) cols)), (simple_row (map (fun w => repeat "-"%char w) ws)). fold ws.
  assert (HD : in_columns ws (map strip headers) (simple_row (map (fun c => fst (fst c)) cols)) /\ one_line (simple_row (map (fun c => fst (fst c)) cols))).
  { apply LINE; [apply map_length|]. intros j h c E E2. rewrite nth_error_map, E in E2. cbn in E2. injection E2 as <-. rewrite Forall_forall in TH. apply printed_spec; [apply TH; eapply nth_error_In; eauto|apply TC; apply nth_error_Some; congruence]. }
  assert (DA : dashes ws (simple_row (map (fun w => repeat "-"%char w) ws)) /\ one_line (simple_row (map (fun w => repeat "-"%char w) ws))).
  { apply dashes_spec; auto. unfold ws. apply Forall_forall. intros w I. apply in_map_iff in I. destruct I as (col & <- & I). unfold cols in I. apply in_map_iff in I. destruct I as ([j h] & <- & I). cbn [fst snd]. pose proof (in_combine_l _ _ _ _ I) as IL. apply in_combine_r in I. rewrite Forall_forall in TH. apply in_seq in IL. apply printed_spec; [auto|apply TC; lia]. }
  assert (RW : forall i r, nth_error rows i = Some r -> in_columns ws (shown_row rows r) (simple_row (map (fun c => nth i (snd c) []) cols)) /\ one_line (simple_row (map (fun c => nth i (snd c) []) cols))).
  { intros i r E. assert (IR : In r rows) by (eapply nth_error_In; eauto). pose proof TR as TR'. rewrite Forall_forall in TR'. destruct (TR' r IR) as [LR T]. apply LINE.
    - unfold shown_row. rewrite map_length, combine_length, seq_length. lia.
    - intros j h c Eh Ec. assert (LJ : (j < length headers)%nat) by (apply nth_error_Some; rewrite Eh; discriminate). rewrite Forall_forall in TH. destruct (printed_spec h (column rows j) (TH h (nth_error_In _ _ Eh)) (TC j LJ)) as (_ & _ & F).
      assert (LR0 : (i < length rows)%nat) by (apply (proj1 (nth_error_Some rows i)); rewrite E; discriminate). assert (LI : (i < length (column rows j))%nat) by (unfold column; rewrite map_length; exact LR0).
      pose proof (forall2_nth _ _ _ [] [] i F LI) as K. cbn beta in K. replace c with (strip (format_cell (column_type (column rows j)) (nth i (column rows j) []))); [exact K|].
      unfold shown_row in Ec. destruct (nth_error r j) as [x|] eqn:Er; [|apply nth_error_None in Er; lia]. rewrite nth_error_map, (numbered_nth r 0 j x Er) in Ec. cbn [option_map fst snd] in Ec. injection Ec as <-. do 2 f_equal.
      unfold column. etransitivity; [apply (nth_map' (fun r : row => nth j r []) [] [] rows i LR0)|]. cbn beta. transitivity (nth j r []); [f_equal; exact (nth_error_nth rows i [] E)|]. apply nth_error_nth, Er. }
  split.
  - replace (map (fun c : text * nat * list text => repeat "-"%char (snd (fst c))) cols) with (map (fun w => repeat "-"%char w) ws) by (unfold ws; now rewrite map_map). apply join_lines. constructor; [tauto|]. constructor; [tauto|].
    apply Forall_forall. intros l I. apply in_map_iff in I. destruct I as (i & <- & I). apply in_seq in I. destruct (nth_error rows i) as [r|] eqn:E; [apply (RW i r E)|apply nth_error_None in E; lia].
  - split; [tauto|]. split; [tauto|]. clear - RW.
    assert (G : forall rs k, (forall i r, nth_error rs i = Some r -> nth_error rows (k + i) = Some r) -> Forall2 (in_columns ws) (map (shown_row rows) rs) (map (fun i => simple_row (map (fun c : text * nat * list text => nth i (snd c) []) cols)) (seq k (length rs)))).
    { induction rs as [|r rs IH]; intros k H; cbn [map length seq]; constructor. - apply RW. rewrite <- (Nat.add_0_r k). now apply H. - apply IH. intros i r' E. replace (S k + i)%nat with (k + S i)%nat by lia. now apply H. }
    apply G. auto.
Qed.
Theorem tabulate_shows (headers : list text) (rows : list row) : headers <> [] -> Forall tidy headers -> Forall (fun r => length r = length headers /\ Forall tidy r) rows ->
  shows_table (tabulate int_of float_of (headers :: rows)) (map strip headers) (map (shown_row rows) rows).
Proof. intros N TH TR. destruct (tabulate_parts headers rows N TH TR) as (h & d & A). exists (map (fun c => snd (fst c)) (columns_of headers rows)), h, d, (lines_of headers rows). exact A. Qed.
End S.

(** * A drawn table shows one table only *)
Lemma dashes_text ws d : dashes ws d -> d <> [] /\ exists w ws', ws = w :: ws' /\ (0 < w)%nat.
Proof. intros D. destruct D as [w P|w ws t P D]; (split; [destruct w; [lia|discriminate]|]; eauto). Qed.
Lemma run_unique w : forall w' (t t' : text), repeat "-"%char w ++ " "%char :: t = repeat "-"%char w' ++ " "%char :: t' -> w = w' /\ t = t'.
Proof. induction w as [|w IH]; intros [|w'] t t' E; cbn [repeat app] in E; try discriminate; injection E; auto. intros E2. apply IH in E2. intuition lia. Qed.
Lemma run_end w : forall w' (t : text), repeat "-"%char w <> repeat "-"%char w' ++ " "%char :: t.
Proof. induction w as [|w IH]; intros [|w'] t E; cbn [repeat app] in E; try discriminate. injection E. apply IH. Qed.
Lemma dashes_unique ws d : dashes ws d -> forall ws', dashes ws' d -> ws = ws'.
Proof.
  induction 1 as [w P|w ws t P D IH]; intros ws' D'.
  - remember (repeat "-"%char w) as d eqn:E. destruct D' as [w' P'|w' ws' t' P' D']; [|symmetry in E; now apply run_end in E]. apply (f_equal (@length ascii)) in E. rewrite !repeat_length in E. now subst.
  - remember (repeat "-"%char w ++ " "%char :: " "%char :: t) as d eqn:E. destruct D' as [w' P'|w' ws' t' P' D']; [now apply run_end in E|]. apply run_unique in E. destruct E as [-> E]. injection E as ->. f_equal. auto.
Qed.
Lemma laid_length ws cs t : laid_out ws cs t -> length t = (fold_right (fun w n => w + 2 + n) 0 ws - 2)%nat.
Proof. induction 1 as [w c f L C|w c f ws cs t L C D IH]; cbn [fold_right]; [lia|]. rewrite app_length. cbn [length]. rewrite IH, L. destruct D; cbn [fold_right]; lia. Qed.
Lemma laid_unique ws cs t : laid_out ws cs t -> forall cs', laid_out ws cs' t -> cs = cs'.
Proof.
  induction 1 as [w c f L C|w c f ws cs t L C D IH]; intros cs' D'.
  - inversion D' as [w' c' f' L' C' |? ? ? ? ? ? ? ? D2]; subst; [f_equal; eapply core_unique; eauto|inversion D2].
  - inversion D' as [w' c' f' L' C' K1 K2 K3|w' c' f' ws' cs'' t' L' C' D2 K1 K2 K3]; subst; [inversion D|].
    destruct (app_inj_len f' (" "%char :: " "%char :: t') f (" "%char :: " "%char :: t) ltac:(congruence) K3) as [-> E]. injection E as ->. f_equal; [eapply core_unique; eauto|auto].
Qed.
Lemma in_columns_unique ws cs cs' l : in_columns ws cs l -> in_columns ws cs' l -> cs = cs'.
Proof.
  intros [k A] [k' B]. pose proof (laid_length _ _ _ A) as LA. pose proof (laid_length _ _ _ B) as LB. rewrite app_length, repeat_length in LA, LB. replace k' with k in B by lia. eapply laid_unique; eauto.
Qed.
Theorem shows_unique t h cs h' cs' : shows_table t h cs -> shows_table t h' cs' -> h = h' /\ cs = cs'.
Proof.
  intros (ws & a & d & ls & L & D & A & F) (ws' & a' & d' & ls' & L' & D' & A' & F'). pose proof (lines_unique _ _ _ L L') as E. injection E as <- <- <-. pose proof (dashes_unique _ _ D _ D') as <-. split; [eapply in_columns_unique; eauto|].
  clear - F F'. revert cs' F'. induction F as [|c l cs ls H F IH]; intros cs' F'; inversion F' as [|c' ? cs'' ? H' F2]; subst; auto. f_equal; [eapply in_columns_unique; eauto|auto].
Qed.
