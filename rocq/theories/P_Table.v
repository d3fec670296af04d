(** Proofs about the table reader of [M_Text]. *)
From Verif Require Import Prelude M_Stoichiometry M_Text Spec_Text P_Text P_Convert.
Local Open Scope list_scope.

Notation tdec := (list_eq_dec ascii_dec).

Lemma empty_assays_distinct names : NoDup names -> empty_assays names = map (fun n => (n, [])) names.
Proof.
  unfold empty_assays. intros N.
  assert (G : forall ns pre, NoDup (pre ++ ns) -> fold_left set_empty ns (map (fun n => (n, [])) pre) = map (fun n : text => (n, @nil Qc)) (pre ++ ns)).
  { induction ns as [|n ns IH]; intros pre P; cbn [fold_left]; [now rewrite app_nil_r|].
    unfold set_empty at 2. replace (existsb _ _) with false.
    - change [(n, @nil Qc)] with (map (fun n : text => (n, @nil Qc)) [n]). rewrite <- map_app. rewrite IH; rewrite <- app_assoc; auto.
    - symmetry. apply not_true_is_false. intros H. apply existsb_exists in H. destruct H as (kv & I & E). apply in_map_iff in I. destruct I as (n' & <- & I). cbn [fst] in E.
      destruct (tdec n' n); [|discriminate]. subst. apply NoDup_remove_2 in P. apply P. apply in_or_app. auto. }
  apply (G names []). exact N.
Qed.
Lemma append_at dpre n c dsuf x : ~ In n (map fst dpre) -> ~ In n (map fst dsuf) -> append_to (dpre ++ (n, c) :: dsuf) n x = dpre ++ (n, c ++ [x]) :: dsuf.
Proof.
  intros A B. unfold append_to. rewrite map_app. cbn [map fst snd]. destruct (tdec n n); [|congruence].
  assert (G : forall d : adict, ~ In n (map fst d) -> map (fun kv => if tdec (fst kv) n then (fst kv, snd kv ++ [x]) else kv) d = d).
  { intros d H. apply map_id_in. intros [k v] I. cbn [fst snd]. destruct (tdec k n); auto. subst. exfalso. apply H. apply in_map_iff. exists (n, v). auto. }
  now rewrite !G.
Qed.
Fixpoint zipapp (d : adict) (xs : list Qc) : adict :=
  match d, xs with kv :: d', x :: xs' => (fst kv, snd kv ++ [x]) :: zipapp d' xs' | _, _ => d end.
Lemma zipapp_keys d xs : map fst (zipapp d xs) = map fst d.
Proof. revert xs. induction d as [|kv d IH]; intros [|x xs]; cbn; auto. now rewrite IH. Qed.
Lemma Forall2_len {A B} (R : A -> B -> Prop) l l' : Forall2 R l l' -> length l = length l'.
Proof. induction 1; cbn; congruence. Qed.
Section R.
Context {C : Type} (float_of : text -> res Qc) (read_first : text -> res C).
Lemma cells_spec names strings : NoDup names -> (length names < length strings)%nat ->
  forall dsuf dpre, map fst (dpre ++ dsuf) = names ->
  foldM (fun d' j => match nth_error names j with None => Err IndexError | Some n => match nth_error strings (S j) with None => Err IndexError | Some w => do x <- float_of w; Ok (append_to d' n x) end end)
    (seq (length dpre) (length dsuf)) (dpre ++ dsuf) =
  do xs <- mapM float_of (firstn (length dsuf) (skipn (S (length dpre)) strings)); Ok (dpre ++ zipapp dsuf xs).
Proof.
  intros N L. induction dsuf as [|[n c] dsuf IH]; intros dpre K.
  - cbn. reflexivity.
  - cbn [length seq foldM]. assert (Kn : nth_error names (length dpre) = Some n).
    { rewrite <- K, map_app. cbn [map fst]. rewrite nth_error_app2; rewrite map_length; [|lia]. now rewrite Nat.sub_diag. }
    rewrite Kn. assert (Ls : (S (length dpre) < length strings)%nat). { assert ((length dpre < length names)%nat) by (apply nth_error_Some; congruence). lia. }
    destruct (nth_error strings (S (length dpre))) as [w|] eqn:W; [|apply nth_error_None in W; lia].
    assert (Sk : skipn (S (length dpre)) strings = w :: skipn (S (S (length dpre))) strings).
    { clear - W. revert W. generalize (S (length dpre)). intros k. revert strings. induction k as [|k IH]; intros [|s l] W; cbn in W; try discriminate.
      - injection W as ->. reflexivity. - cbn [skipn]. rewrite (IH l W). reflexivity. }
    rewrite Sk. cbn [firstn mapM]. destruct (float_of w) as [x|e]; cbn [bind]; [|reflexivity].
    assert (ND : ~ In n (map fst dpre) /\ ~ In n (map fst dsuf)).
    { rewrite <- K, map_app in N. cbn [map fst] in N. apply NoDup_remove_2 in N. rewrite in_app_iff in N. tauto. }
    rewrite append_at by tauto. replace (dpre ++ (n, c ++ [x]) :: dsuf) with ((dpre ++ [(n, c ++ [x])]) ++ dsuf) by (rewrite <- app_assoc; reflexivity).
    replace (S (length dpre)) with (length (dpre ++ [(n, c ++ [x])])) by (rewrite app_length; cbn; lia). rewrite IH.
    + destruct (mapM float_of _) as [xs|e]; cbn [bind]; [|reflexivity]. rewrite <- app_assoc. reflexivity.
    + rewrite <- K, !map_app. cbn [map fst app]. now rewrite <- app_assoc.
Qed.
Lemma read_cells_spec names strings d : NoDup names -> (length names < length strings)%nat -> map fst d = names ->
  read_cells float_of names strings d = do xs <- mapM float_of (firstn (length names) (tl strings)); Ok (zipapp d xs).
Proof.
  intros N L K. pose proof (cells_spec names strings N L d [] K) as H. cbn [app length] in H. unfold read_cells. rewrite H. replace (length names) with (length d) by (rewrite <- K; now rewrite map_length). destruct strings; reflexivity.
Qed.

Definition step names (s : list C * adict) (line : text) : res (list C * adict) :=
  let strings := split_sp line in
  if (length strings <? length names + 1)%nat then Ok s else
  match strings with [] => Err IndexError | w :: _ => do c <- read_first w; do d' <- read_cells float_of names strings (snd s); Ok (fst s ++ [c], d') end.
(** Column [j] of the cells. *)
Definition column (cells : list (C * list Qc)) (j : nat) : list Qc := map (fun cell => nth j (snd cell) 0%Qc) cells.
Lemma zipapp_nth d xs j k v : nth_error (zipapp d xs) j = Some (k, v) -> length xs = length d -> exists v', nth_error d j = Some (k, v') /\ v = v' ++ [nth j xs 0%Qc].
Proof.
  revert xs j. induction d as [|[k' v'] d IH]; intros [|x xs] j H L; try discriminate; cbn [zipapp] in H.
  - destruct j; discriminate.
  - destruct j as [|j]; cbn [nth_error nth fst snd] in *. + injection H as <- <-. eauto. + apply IH in H; [|cbn in L; lia]. destruct H as (v'' & A & B). eauto.
Qed.
Lemma rows_fwd names lines : NoDup names -> forall cs d cs' d', map fst d = names -> foldM (step names) lines (cs, d) = Ok (cs', d') ->
  exists cells, table_of float_of read_first (length names) (map split_sp lines) cells /\ cs' = cs ++ map fst cells /\ map fst d' = names /\
    forall j n col, nth_error d' j = Some (n, col) -> exists col0, nth_error d j = Some (n, col0) /\ col = col0 ++ column cells j.
Proof.
  intros N. induction lines as [|line lines IH]; intros cs d cs' d' K H; cbn [foldM] in H.
  - injection H as <- <-. exists []. cbn [map]. rewrite app_nil_r. repeat split; auto. constructor. intros j n col E. exists col. rewrite app_nil_r. auto.
  - unfold step in H at 1. cbn zeta in H. cbn [map]. destruct (split_sp line) as [|w ws] eqn:S.
    + replace (length [] <? length names + 1)%nat with true in H by (symmetry; apply Nat.ltb_lt; cbn; lia). cbn [bind] in H.
      destruct (IH _ _ _ _ K H) as (cells & T & A & B & D). exists cells. repeat split; auto. apply to_short; auto. cbn; lia.
    + destruct (length (w :: ws) <? length names + 1)%nat eqn:Lb; cbn [bind] in H.
      * apply Nat.ltb_lt in Lb. destruct (IH _ _ _ _ K H) as (cells & T & A & B & D). exists cells. repeat split; auto. apply to_short; auto. lia.
      * apply Nat.ltb_ge in Lb. cbn [length] in Lb. destruct (read_first w) as [c|] eqn:R; cbn [bind] in H; [|discriminate]. cbn [fst snd] in H.
        rewrite read_cells_spec in H by (auto; cbn; lia). cbn [tl] in H. destruct (mapM float_of _) as [xs|] eqn:X; cbn [bind] in H; [|discriminate].
        apply mapM_Forall2 in X. destruct (IH _ _ _ _ (eq_trans (zipapp_keys d xs) K) H) as (cells & T & A & B & D).
        exists ((c, xs) :: cells). split; [apply to_full; auto; lia|]. split; [rewrite A, <- app_assoc; reflexivity|]. split; auto.
        intros j n col E. destruct (D j n col E) as (col1 & E1 & ->). assert (Lx : length xs = length d).
        { apply Forall2_len in X. rewrite <- X, firstn_length. rewrite <- K at 1. rewrite map_length. rewrite <- K, map_length in Lb. lia. }
        destruct (zipapp_nth _ _ _ _ _ E1 Lx) as (col0 & E0 & ->). exists col0. split; auto. rewrite <- app_assoc. reflexivity.
Qed.
Lemma rows_bwd names lines cells : NoDup names -> table_of float_of read_first (length names) (map split_sp lines) cells ->
  forall cs d, map fst d = names -> exists s, foldM (step names) lines (cs, d) = Ok s.
Proof.
  intros N. revert cells. induction lines as [|line lines IH]; intros cells T cs d K; cbn [foldM map] in *; [eauto|].
  unfold step at 1. cbn zeta. inversion T; subst.
  - replace (length (split_sp line) <? length (map fst d) + 1)%nat with true by (symmetry; apply Nat.ltb_lt; lia). cbn [bind]. eapply IH; eauto.
  - replace (length (w :: ws) <? length (map fst d) + 1)%nat with false by (symmetry; apply Nat.ltb_ge; cbn; lia). rewrite H2. cbn [bind].
    rewrite read_cells_spec by (auto; cbn; lia). cbn [tl snd fst]. apply mapM_Forall2 in H3. rewrite H3. cbn [bind]. eapply IH; eauto. now rewrite zipapp_keys.
Qed.
Lemma read_table_ok header lines cs d : NoDup (assay_names (prepared header)) -> read_table float_of read_first (header :: lines) = Ok (cs, d) ->
  exists cells, table_of float_of read_first (length (assay_names (prepared header))) (map (fun l => split_sp (prepared l)) lines) cells /\
    cs = map fst cells /\ map fst d = assay_names (prepared header) /\ forall j n col, nth_error d j = Some (n, col) -> col = column cells j.
Proof.
  intros N H. unfold read_table in H. cbn [prepare_lines map] in H. unfold read_rows in H. change (foldM _ ?l ?s) with (foldM (step (assay_names (prepared header))) l s) in H.
  rewrite empty_assays_distinct in H by auto. apply rows_fwd in H; auto; [|rewrite map_map; cbn [fst]; apply map_id].
  destruct H as (cells & T & A & B & D). unfold prepare_lines in T. rewrite map_map in T. exists cells. repeat split; auto. intros j n col E.
  destruct (D j n col E) as (col0 & E0 & ->). rewrite nth_error_map in E0. destruct (nth_error (assay_names (prepared header)) j); cbn [option_map] in E0; [|discriminate]. inversion E0. reflexivity.
Qed.
Lemma read_table_total header lines cells : NoDup (assay_names (prepared header)) ->
  table_of float_of read_first (length (assay_names (prepared header))) (map (fun l => split_sp (prepared l)) lines) cells -> exists r, read_table float_of read_first (header :: lines) = Ok r.
Proof.
  intros N T. unfold read_table. cbn [prepare_lines map]. unfold read_rows. change (foldM _ ?l ?s) with (foldM (step (assay_names (prepared header))) l s).
  rewrite empty_assays_distinct by auto. eapply rows_bwd; eauto. - unfold prepare_lines. rewrite map_map. eauto. - rewrite map_map; cbn [fst]; apply map_id.
Qed.
End R.

(** split(' ') of a prepared line gives its words. *)
Lemma split_word w t : (forall c, In c w -> c <> sp) -> split_sp (w ++ sp :: t) = w :: split_sp t.
Proof.
  induction w as [|c w IH]; intros H; cbn [app split_sp]. - reflexivity.
  - destruct (Ascii.eqb c sp) eqn:E; [apply Ascii.eqb_eq in E; exfalso; apply (H c); cbn; auto|]. rewrite IH by (intros; apply H; cbn; auto). reflexivity.
Qed.
Lemma split_last w : (forall c, In c w -> c <> sp) -> split_sp w = [w].
Proof.
  induction w as [|c w IH]; intros H; cbn [split_sp]; auto.
  destruct (Ascii.eqb c sp) eqn:E; [apply Ascii.eqb_eq in E; exfalso; apply (H c); cbn; auto|]. rewrite IH by (intros; apply H; cbn; auto). reflexivity.
Qed.
Lemma words_are_words t w : In w (words t) -> word w.
Proof.
  pose proof (words_ok t) as H. induction H as [|c t' ws S _ IH|w' t' ws W S _ IH]; cbn; [tauto|auto|]. intros [<-|]; auto.
Qed.
Lemma split_joined ws : (forall w, In w ws -> word w) -> ws <> [] -> split_sp (joined ws) = ws.
Proof.
  induction ws as [|w ws IH]; intros H N; [congruence|]. assert (Hw : forall c, In c w -> c <> sp). { intros c I ->. destruct (H w) as [_ K]; [cbn; auto|]. apply (K sp); auto. left. reflexivity. }
  cbn [joined]. destruct ws as [|w' ws]. - now apply split_last.
  - change ([" "%char] ++ joined (w' :: ws)) with (sp :: joined (w' :: ws)). rewrite split_word by auto. rewrite IH; auto. intros; apply H; cbn in *; tauto. discriminate.
Qed.
Lemma split_prepared t ws : has_words (strip t) ws -> ws <> [] -> split_sp (prepared t) = ws.
Proof. intros H N. rewrite prepared_spec. apply words_unique in H. subst. apply split_joined; auto. intros w. apply words_are_words. Qed.
