(** Proofs about the readers of material files. *)
From Verif Require Import Prelude M_Stoichiometry M_Text Spec_Text P_Text P_Convert P_Table Spec_File.
Local Open Scope list_scope.

Lemma core_strip t s : core t s -> strip t = s.
Proof.
  intros (l & r & E & Bl & Br & F & L). rewrite E. unfold strip.
  assert (Sl : forall a b, forallb is_space a = true -> (forall c u, b = c :: u -> is_space c = false) -> b <> [] -> lstrip (a ++ b) = b).
  { intros a b. induction a as [|c a IH]; cbn [app forallb]; intros A B Nb. - destruct b as [|d b]; [congruence|]. cbn [lstrip]. now rewrite (B d b eq_refl).
    - apply andb_true_iff in A. destruct A as [A1 A2]. cbn [lstrip]. rewrite A1. auto. }
  assert (Z : forall a, forallb is_space a = true -> lstrip a = []).
  { induction a as [|c a IH]; auto. cbn [forallb lstrip]. intros A. apply andb_true_iff in A. destruct A as [A1 A2]. rewrite A1. auto. }
  destruct (list_eq_dec ascii_dec s []) as [->|Ns].
  - cbn [app]. rewrite (Z (l ++ r)) by (rewrite forallb_app, Bl, Br; reflexivity). reflexivity.
  - rewrite Sl; auto.
    + rewrite rev_app_distr, Sl; [now rewrite rev_involutive|now rewrite forallb_rev| |].
      * intros c u H. apply (L c (rev u)). apply (f_equal (@rev ascii)) in H. rewrite rev_involutive in H. exact H.
      * intros H. apply Ns. apply (f_equal (@rev ascii)) in H. now rewrite rev_involutive in H.
    + intros c u H. destruct s as [|d s]; [congruence|]. injection H as -> _. apply (F c s). reflexivity.
    + destruct s; [congruence|discriminate].
Qed.
Lemma says_prepared t ws : says t ws -> prepared t = joined ws.
Proof. intros (s & C & W). rewrite prepared_spec, (core_strip t s C). now rewrite <- (words_unique s ws W). Qed.
Lemma says_split t ws : says t ws -> split_sp (prepared t) = match ws with [] => [[]] | _ => ws end.
Proof.
  intros H. destruct ws as [|w ws]. - rewrite (says_prepared _ _ H). reflexivity.
  - destruct H as (s & C & W). apply split_prepared; [|discriminate]. now rewrite (core_strip t s C).
Qed.
Lemma says_word t ws w : says t ws -> In w ws -> word w.
Proof. intros (s & _ & W) I. rewrite (words_unique s ws W) in I. eapply words_are_words; eauto. Qed.
Lemma says_names header h names : says header (h :: names) -> assay_names (prepared header) = names.
Proof. intros H. unfold assay_names. now rewrite (says_split _ _ H). Qed.

Lemma table_lines {C} (f : text -> res Qc) (g : text -> res C) n lines rows cells : (0 < n)%nat -> Forall2 says lines rows -> table_of f g n rows cells ->
  table_of f g n (map (fun l => split_sp (prepared l)) lines) cells.
Proof.
  intros N F T. revert lines F. induction T as [|ws rows cells L T IH|w ws rows c xs cells L R X T IH]; intros lines F; inversion F; subst; cbn [map].
  - constructor. - rewrite (says_split _ _ H2). apply to_short; auto. destruct ws; cbn in *; lia.
  - rewrite (says_split _ _ H2). apply to_full; auto.
Qed.
Lemma table_fun {C} (f : text -> res Qc) (g : text -> res C) n rows cells : table_of f g n rows cells -> forall cells', table_of f g n rows cells' -> cells = cells'.
Proof.
  induction 1 as [|ws rows cells L T IH|w ws rows c xs cells L R X T IH]; intros cells' T'; inversion T'; subst; auto; cbn [length] in *; try lia.
  match goal with |- (?c, ?x) :: ?l = (?c', ?x') :: ?l' => assert (x = x') end.
  { match goal with Y : Forall2 _ _ ?x' |- ?x = ?x' => clear - X Y; revert Y; generalize x' as ys end. intros ys. revert ys. induction X; intros ys Y; inversion Y; subst; auto. f_equal; [congruence|auto]. }
  f_equal; auto. congruence.
Qed.

Definition columns {C} (names : list text) (cells : list (C * list Qc)) : adict := map (fun jn => (snd jn, col cells (fst jn))) (combine (seq 0 (length names)) names).
Lemma numbered_nth (names : list text) : forall k j n, nth_error names j = Some n -> nth_error (combine (seq k (length names)) names) j = Some ((k + j)%nat, n).
Proof.
  induction names as [|a names IH]; intros k j n H; [destruct j; discriminate|]. destruct j as [|j]; cbn [length seq combine nth_error] in *. - rewrite Nat.add_0_r. congruence.
  - rewrite (IH (S k) j n H). f_equal. f_equal. lia.
Qed.
Lemma columns_nth {C} names (cells : list (C * list Qc)) j n : nth_error names j = Some n -> nth_error (columns names cells) j = Some (n, col cells j).
Proof. intros H. unfold columns. rewrite nth_error_map, (numbered_nth names 0 j n H). reflexivity. Qed.
Lemma columns_keys {C} names (cells : list (C * list Qc)) : map fst (columns names cells) = names.
Proof.
  unfold columns. rewrite map_map. cbn [fst]. generalize 0%nat. induction names as [|a names IH]; intros k; cbn [length seq combine map]; auto. cbn [snd]. f_equal. apply IH.
Qed.
Lemma ext_nth {A} (l l' : list A) : (forall j, nth_error l j = nth_error l' j) -> l = l'.
Proof. revert l'. induction l as [|a l IH]; intros [|b l'] H; auto. - specialize (H 0%nat). discriminate. - specialize (H 0%nat). discriminate. - f_equal. + specialize (H 0%nat). cbn in H. congruence. + apply IH. intros j. apply (H (S j)). Qed.
Section Rows.
Context {C : Type} (f : text -> res Qc) (g : text -> res C).
Lemma rows_exact names lines cells : NoDup names -> table_of f g (length names) (map split_sp lines) cells ->
  read_rows f g names lines (empty_assays names) = Ok (map fst cells, columns names cells).
Proof.
  intros N T. unfold read_rows. change (foldM _ ?l ?s) with (foldM (step f g names) l s). rewrite empty_assays_distinct by auto.
  assert (K : map fst (map (fun n : text => (n, @nil Qc)) names) = names) by (rewrite map_map; cbn [fst]; apply map_id).
  destruct (rows_bwd f g names lines cells N T [] (map (fun n => (n, [])) names) K) as [[cs d] E]. unfold adict in *. rewrite E.
  destruct (rows_fwd f g names lines N _ _ _ _ K E) as (cells' & T' & A & B & D). assert (cells' = cells) by (eapply table_fun; eauto). subst cells'. cbn [app] in A. subst cs. do 2 f_equal.
  apply ext_nth. intros j. destruct (nth_error d j) as [[n c]|] eqn:J.
  - destruct (D j n c J) as (c0 & E0 & ->). rewrite nth_error_map in E0. destruct (nth_error names j) as [n'|] eqn:Nj; cbn [option_map] in E0; [|discriminate]. injection E0 as <- <-.
    symmetry. cbn [app]. now apply columns_nth.
  - symmetry. apply nth_error_None. apply nth_error_None in J. rewrite <- (map_length fst), columns_keys. rewrite <- B, map_length. exact J.
Qed.
Lemma table_exact header h names lines rows cells : says header (h :: names) -> NoDup names -> names <> [] -> Forall2 says lines rows ->
  table_of f g (length names) rows cells -> read_table f g (header :: lines) = Ok (map fst cells, columns names cells).
Proof.
  intros H N NE F T. unfold read_table. cbn [prepare_lines map]. rewrite (says_names _ _ _ H). apply rows_exact; auto. unfold prepare_lines. rewrite map_map.
  eapply table_lines; eauto. destruct names; [congruence|cbn; lia].
Qed.
End Rows.

Lemma str_inj a b : str_of a = str_of b -> a = b.
Proof. intros H. apply (f_equal text_of) in H. now rewrite !str_text in H. Qed.
Lemma str_eqb_neq a b : a <> b -> String.eqb (str_of a) (str_of b) = false.
Proof. intros H. apply String.eqb_neq. intros E. apply H. now apply str_inj. Qed.
(** Finding an entry by name. *)
Fixpoint find_by {A} (n : string) (l : list (string * A)) : option A :=
  match l with [] => None | (k, v) :: l' => if String.eqb k n then Some v else find_by n l' end.
Lemma find_by_nth {A B} (h : A -> B) (d : list (text * A)) : NoDup (map fst d) -> forall j n v, nth_error d j = Some (n, v) ->
  find_by (str_of n) (map (fun kv => (str_of (fst kv), h (snd kv))) d) = Some (h v).
Proof.
  induction d as [|[k a] d IH]; intros N j n v H; [destruct j; discriminate|]. cbn [map fst snd find_by] in *. inversion N as [|? ? N1 N2]; subst. destruct j as [|j]; cbn [nth_error] in H.
  - injection H as -> ->. now rewrite String.eqb_refl.
  - rewrite str_eqb_neq; [now apply (IH N2 j)|]. intros ->. apply N1. apply in_map_iff. exists (n, v). split; auto. eapply nth_error_In; eauto.
Qed.

From Verif Require Import P_Stoich Spec_Stoich M_Float.
From Verif Require M_Chem M_Psd M_Slurry M_ThermoMat.
From Coq Require Import Permutation.

(** * The sorted list of elements *)
Lemma leb_ltb x y : String.leb x y = true -> x <> y -> String.ltb x y = true.
Proof. unfold String.leb, String.ltb. destruct (String.compare x y) eqn:E; auto. apply String.compare_eq_iff in E. congruence. Qed.
Lemma nleb_ltb x y : String.leb x y = false -> String.ltb y x = true.
Proof. unfold String.leb, String.ltb. rewrite (String.compare_antisym y x). destruct (String.compare x y); auto; discriminate. Qed.
Lemma insert_perm x l : Permutation (x :: l) (M_Chem.insert_sorted x l).
Proof. induction l as [|y l IH]; cbn [M_Chem.insert_sorted]; auto. destruct (String.leb x y); auto. rewrite perm_swap. now constructor. Qed.
Lemma sorted_perm l : Permutation l (M_Chem.sorted l).
Proof. induction l as [|x l IH]; cbn; auto. rewrite <- insert_perm. now constructor. Qed.
Lemma insert_increasing x l : in_order l -> ~ In x l -> in_order (M_Chem.insert_sorted x l).
Proof.
  induction l as [|y l IH]; intros I N; cbn [M_Chem.insert_sorted]; [constructor|]. destruct (String.leb x y) eqn:E.
  - constructor; auto. apply leb_ltb; auto. intros ->. apply N. cbn. auto.
  - apply nleb_ltb in E. assert (IL : in_order (M_Chem.insert_sorted x l)). { apply IH; [|intros H; apply N; cbn; auto]. inversion I; subst; auto. constructor. }
    destruct l as [|z l]; cbn [M_Chem.insert_sorted] in *; [constructor; auto|]. destruct (String.leb x z); constructor; auto. inversion I; subst; auto.
Qed.
Lemma sorted_increasing l : NoDup l -> in_order (M_Chem.sorted l).
Proof.
  induction 1 as [|x l N D IH]; cbn; [constructor|]. apply insert_increasing; auto. intros I. apply N. eapply Permutation_in; [symmetry; apply sorted_perm|exact I].
Qed.
Lemma element_list cs els : M_Chem.create_element_list cs = Ok els -> in_order els /\ NoDup els /\
  forall s, In s els <-> exists c f, In c cs /\ gen_compound (text_of c) f /\ In s (symbols f).
Proof.
  unfold M_Chem.create_element_list. destruct (elements cs) as [e|] eqn:E; cbn [bind]; [|discriminate]. intros [= <-]. destruct (elements_spec cs e E) as [N S].
  split; [now apply sorted_increasing|]. split; [eapply Permutation_NoDup; [apply sorted_perm|exact N]|]. intros s. rewrite <- S.
  split; apply Permutation_in; [symmetry|]; apply sorted_perm.
Qed.
Lemma element_list_defined cs : (forall c, In c cs -> exists f, gen_compound (text_of c) f /\ all_known f) -> exists els, M_Chem.create_element_list cs = Ok els.
Proof. intros H. unfold M_Chem.create_element_list. destruct (elements_total cs H) as [e ->]. cbn [bind]. eauto. Qed.

(** * chem and psd *)
Lemma chem_file float_of id header h names lines rows cells els : says header (h :: names) -> NoDup names -> names <> [] -> Forall2 says lines rows ->
  table_of float_of (fun w => Ok (str_of w)) (length names) rows cells -> M_Chem.create_element_list (map fst cells) = Ok els ->
  exists m, M_Chem.read_material float_of id (header :: lines) = Ok m /\ M_Chem.m_id m = id /\ M_Chem.m_compounds m = map fst cells /\ M_Chem.m_elements m = els /\
    map fst (M_Chem.m_assays m) = map str_of names /\
    forall j n, nth_error names j = Some n -> M_Chem.find_assay (str_of n) (M_Chem.m_assays m) = Ok (map M_Chem.NFloat (col cells j)).
Proof.
  intros H N NE F T E. unfold M_Chem.read_material. rewrite (table_exact float_of _ header h names lines rows cells H N NE F T). cbn [bind fst snd]. rewrite E. cbn [bind].
  eexists. split; [reflexivity|]. cbn [M_Chem.m_id M_Chem.m_compounds M_Chem.m_elements M_Chem.m_assays]. do 3 (split; auto). split.
  - rewrite map_map. cbn [fst]. rewrite <- (map_map fst str_of). now rewrite columns_keys.
  - intros j n J. apply (columns_nth names cells) in J. pose proof (find_by_nth (map M_Chem.NFloat) (columns names cells) ltac:(now rewrite columns_keys) j n _ J) as X.
    revert X. generalize (map (fun kv : text * list Qc => (str_of (fst kv), map M_Chem.NFloat (snd kv))) (columns names cells)) as l. induction l as [|[k v] l IH]; cbn [find_by M_Chem.find_assay]; [discriminate|].
    destruct (String.eqb k (str_of n)); [congruence|auto].
Qed.
Lemma psd_file float_of id header h names lines rows cells : says header (h :: names) -> NoDup names -> names <> [] -> Forall2 says lines rows ->
  table_of float_of float_of (length names) rows cells ->
  exists m, M_Psd.read_material float_of id (header :: lines) = Ok m /\ M_Psd.ps_id m = id /\ M_Psd.ps_classes m = map fst cells /\
    map fst (M_Psd.ps_assays m) = map str_of names /\
    forall j n, nth_error names j = Some n -> M_Psd.find_assay (str_of n) (M_Psd.ps_assays m) = Ok (map Fin (col cells j)).
Proof.
  intros H N NE F T. unfold M_Psd.read_material. rewrite (table_exact float_of _ header h names lines rows cells H N NE F T). cbn [bind fst snd].
  eexists. split; [reflexivity|]. cbn [M_Psd.ps_id M_Psd.ps_classes M_Psd.ps_assays]. do 2 (split; auto). split.
  - rewrite map_map. cbn [fst]. rewrite <- (map_map fst str_of). now rewrite columns_keys.
  - intros j n J. apply (columns_nth names cells) in J. pose proof (find_by_nth (map Fin) (columns names cells) ltac:(now rewrite columns_keys) j n _ J) as X.
    revert X. generalize (map (fun kv : text * list Qc => (str_of (fst kv), map Fin (snd kv))) (columns names cells)) as l. induction l as [|[k v] l IH]; cbn [find_by M_Psd.find_assay]; [discriminate|].
    destruct (String.eqb k (str_of n)); [congruence|auto].
Qed.

Lemma combine_app {A B} (a1 a2 : list A) (b1 b2 : list B) : length a1 = length b1 -> combine (a1 ++ a2) (b1 ++ b2) = combine a1 b1 ++ combine a2 b2.
Proof. revert b1. induction a1 as [|x a1 IH]; intros [|y b1] H; try discriminate; auto. cbn [app combine]. f_equal. apply IH. cbn in H. lia. Qed.
(** * slurry *)
Section Slurry.
Context (float_of : text -> res Qc).
Notation nput := M_Slurry.ndict_put.
Lemma nput_new d k v : ~ In k (map fst d) -> nput d k v = d ++ [(k, v)].
Proof.
  intros H. unfold nput. replace (existsb _ d) with false; auto. symmetry. apply not_true_is_false. intros E. apply existsb_exists in E. destruct E as (e & I & E). apply String.eqb_eq in E. subst. apply H. now apply in_map.
Qed.
Lemma nput_at pre k v0 v suf : ~ In k (map fst pre) -> ~ In k (map fst suf) -> nput (pre ++ (k, v0) :: suf) k v = pre ++ (k, v) :: suf.
Proof.
  intros A B. unfold nput. replace (existsb _ _) with true. 2:{ symmetry. apply existsb_exists. exists (k, v0). split; [apply in_or_app; cbn; auto|]. apply String.eqb_refl. }
  rewrite map_app. cbn [map fst]. rewrite String.eqb_refl.
  assert (G : forall d : list (string * fl), ~ In k (map fst d) -> map (fun e => if String.eqb (fst e) k then (k, v) else e) d = d).
  { intros d H. apply map_id_in. intros e I. destruct (String.eqb (fst e) k) eqn:E; auto. apply String.eqb_eq in E. subst. exfalso. apply H. now apply in_map. }
  now rewrite !G.
Qed.
Lemma NoDup_str names : NoDup names -> NoDup (map str_of names).
Proof. intros N. induction N as [|x l H N IH]; constructor; auto. intros I. apply in_map_iff in I. destruct I as (y & E & I). apply str_inj in E. now subst. Qed.
Lemma init_dict v names : NoDup names -> fold_left (fun d n => nput d (str_of n) (Fin v)) names [] = map (fun n => (str_of n, Fin v)) names.
Proof.
  intros N. assert (G : forall ns pre, NoDup (pre ++ ns) -> fold_left (fun d n => nput d (str_of n) (Fin v)) ns (map (fun n => (str_of n, Fin v)) pre) = map (fun n => (str_of n, Fin v)) (pre ++ ns)).
  { induction ns as [|n ns IH]; intros pre P; cbn [fold_left]; [now rewrite app_nil_r|]. rewrite nput_new.
    - change [(str_of n, Fin v)] with (map (fun n => (str_of n, Fin v)) [n]). rewrite <- map_app. rewrite IH; rewrite <- app_assoc; auto.
    - rewrite map_map. cbn [fst]. intros I. apply in_map_iff in I. destruct I as (y & E & I). apply str_inj in E. subst. apply NoDup_remove_2 in P. apply P. apply in_or_app. auto. }
  apply (G names []). exact N.
Qed.
Lemma line_fold names strings v : NoDup names -> forall suf pre xs ys, names = pre ++ suf -> length xs = length pre -> length ys = length suf ->
  Forall2 (fun t x => float_of t = Ok x) (firstn (length suf) (skipn (S (length pre)) strings)) ys ->
  (length names < length strings)%nat ->
  foldM (fun d' j =>
        match nth_error names j with
        | None => Err IndexError
        | Some n =>
          match nth_error strings (S j) with
          | None => Err IndexError
          | Some t => do x <- float_of t; Ok (nput d' (str_of n) (Fin x))
          end
        end) (seq (length pre) (length suf)) (combine (map str_of pre) (map Fin xs) ++ map (fun n => (str_of n, Fin v)) suf) =
    Ok (combine (map str_of (pre ++ suf)) (map Fin (xs ++ ys))).
Proof.
  intros N. induction suf as [|n suf IH]; intros pre xs ys E Lx Ly F L.
  - destruct ys; [|discriminate]. cbn [length seq foldM map]. now rewrite !app_nil_r.
  - destruct ys as [|y ys]; [discriminate|]. cbn [length seq foldM]. assert (Kn : nth_error names (length pre) = Some n) by (rewrite E, nth_error_app2, Nat.sub_diag by lia; reflexivity).
    rewrite Kn. assert (Ls : (S (length pre) < length strings)%nat). { rewrite E, app_length in L. cbn in L. lia. }
    destruct (nth_error strings (S (length pre))) as [w|] eqn:W; [|apply nth_error_None in W; lia].
    assert (Sk : skipn (S (length pre)) strings = w :: skipn (S (S (length pre))) strings).
    { clear - W. revert W. generalize (S (length pre)). intros k. revert strings. induction k as [|k IH]; intros [|s l] W; cbn in W; try discriminate.
      - injection W as ->. reflexivity. - cbn [skipn]. rewrite (IH l W). reflexivity. }
    rewrite Sk in F. cbn [length firstn] in F. inversion F as [|? ? ? ? Fy F']; subst. rewrite Fy. cbn [bind map].
    assert (NN : ~ In n pre /\ ~ In n suf) by (apply NoDup_remove_2 in N; rewrite in_app_iff in N; tauto).
    assert (SI : forall l, ~ In n l -> ~ In (str_of n) (map str_of l)). { intros l H I. apply in_map_iff in I. destruct I as (z & Z & I). apply str_inj in Z. now subst. }
    rewrite nput_at.
    + replace (combine (map str_of pre) (map Fin xs) ++ (str_of n, Fin y) :: map (fun n => (str_of n, Fin v)) suf) with (combine (map str_of (pre ++ [n])) (map Fin (xs ++ [y])) ++ map (fun n => (str_of n, Fin v)) suf).
      2:{ rewrite !map_app. cbn [map]. rewrite combine_app by (rewrite !map_length; auto). now rewrite <- app_assoc. }
      replace (S (length pre)) with (length (pre ++ [n])) by (rewrite app_length; cbn; lia).
      rewrite (IH (pre ++ [n]) (xs ++ [y]) ys); rewrite <- ?app_assoc; auto. rewrite !app_length. cbn. lia. rewrite app_length; cbn [length]; replace (S (length pre + 1)) with (S (S (length pre))) by lia; auto.
    + intros I. apply in_map_iff in I. destruct I as ([a b] & Q & I). cbn [fst] in Q. subst a. apply in_combine_l in I. revert I. apply SI. tauto.
    + rewrite map_map. cbn [fst]. apply SI. tauto.
Qed.
Lemma read_line_ok word names line ws xs v : NoDup names -> says line (text_of word :: ws) -> numbers_of float_of (length names) ws xs ->
  M_Slurry.read_line float_of word names (prepared line) (map (fun n => (str_of n, Fin v)) names) = Ok (combine (map str_of names) (map Fin xs)).
Proof.
  intros N S [L F]. unfold M_Slurry.read_line. rewrite (says_split _ _ S). rewrite text_str, String.eqb_refl. cbn [negb]. rewrite map_length.
  assert (Lx : length xs = length names). { apply Forall2_len in F. rewrite <- F, firstn_length. lia. }
  apply (line_fold names (text_of word :: ws) v N names [] [] xs); auto. cbn [length]. lia.
Qed.
Lemma read_line_wrong word names line w ws d : says line (w :: ws) -> w <> text_of word -> M_Slurry.read_line float_of word names (prepared line) d = Err PyException.
Proof.
  intros S N. unfold M_Slurry.read_line. rewrite (says_split _ _ S). replace (String.eqb (str_of w) word) with false; auto. symmetry. apply String.eqb_neq. intros E. apply N. subst word. now rewrite str_text.
Qed.
Lemma nget_nth names xs j n : NoDup names -> length xs = length names -> nth_error names j = Some n -> M_Slurry.ndict_get (combine (map str_of names) (map Fin xs)) (str_of n) = Ok (Fin (nth j xs 0%Qc)).
Proof.
  revert xs j. induction names as [|a names IH]; intros [|x xs] j N L H; try discriminate; [destruct j; discriminate|]. cbn [map combine M_Slurry.ndict_get]. inversion N; subst. destruct j as [|j]; cbn [nth_error nth] in *.
  - injection H as ->. now rewrite String.eqb_refl.
  - rewrite str_eqb_neq; [apply IH; auto|]. intros ->. apply nth_error_In in H. tauto.
Qed.
Lemma slurry_file id header h names l1 dw ds l2 hw hs lines rows cells : says header (h :: names) -> NoDup names -> names <> [] ->
  says l1 (text_of "solid_density" :: dw) -> numbers_of float_of (length names) dw ds -> says l2 (text_of "H2O" :: hw) -> numbers_of float_of (length names) hw hs ->
  Forall2 says lines rows -> table_of float_of float_of (length names) rows cells ->
  exists m, M_Slurry.read_material float_of id (header :: l1 :: l2 :: lines) = Ok m /\ M_Slurry.sl_id m = id /\ M_Slurry.sl_classes m = map fst cells /\
    map fst (M_Slurry.sl_assays m) = map str_of names /\
    forall j n, nth_error names j = Some n -> M_Slurry.find_assay (str_of n) (M_Slurry.sl_assays m) = Ok (map Fin (col cells j)) /\
      M_Slurry.ndict_get (M_Slurry.sl_densities m) (str_of n) = Ok (Fin (nth j ds 0%Qc)) /\ M_Slurry.ndict_get (M_Slurry.sl_water m) (str_of n) = Ok (Fin (nth j hs 0%Qc)).
Proof.
  intros H N NE S1 D S2 W F T. unfold M_Slurry.read_material. cbn [prepare_lines map]. rewrite (says_names _ _ _ H). rewrite !init_dict by auto.
  rewrite (read_line_ok "solid_density" names l1 dw ds 1%Qc N S1 D). cbn [bind]. rewrite (read_line_ok "H2O" names l2 hw hs 0%Qc N S2 W). cbn [bind].
  rewrite (rows_exact float_of float_of names (map prepared lines) cells N). 2:{ rewrite map_map. eapply table_lines; eauto. destruct names; [congruence|cbn; lia]. }
  cbn [bind fst snd]. eexists. split; [reflexivity|]. cbn [M_Slurry.sl_id M_Slurry.sl_classes M_Slurry.sl_assays M_Slurry.sl_densities M_Slurry.sl_water]. do 2 (split; auto). split.
  - rewrite map_map. cbn [fst]. rewrite <- (map_map fst str_of). now rewrite columns_keys.
  - destruct D as [D1 D2]. destruct W as [W1 W2]. apply Forall2_len in D2, W2. rewrite firstn_length in D2, W2. intros j n J.
    split; [|split; apply nget_nth; auto; lia].
    apply (columns_nth names cells) in J. pose proof (find_by_nth (map Fin) (columns names cells) ltac:(now rewrite columns_keys) j n _ J) as X.
    revert X. generalize (map (fun kv : text * list Qc => (str_of (fst kv), map Fin (snd kv))) (columns names cells)) as l. induction l as [|[k v] l IH]; cbn [find_by M_Slurry.find_assay]; [discriminate|].
    destruct (String.eqb k (str_of n)); [congruence|auto].
Qed.
End Slurry.

(** * thermo *)
From Verif Require Import M_Thermochem.
From Coq Require Import Reals.
Section Thermo.
Context (float_of : text -> res Qc).
Notation tput := M_ThermoMat.put.
Lemma tput_new {A} d k (v : A) : ~ In k (map fst d) -> tput d k v = d ++ [(k, v)].
Proof.
  intros H. unfold tput. replace (existsb _ d) with false; auto. symmetry. apply not_true_is_false. intros E. apply existsb_exists in E. destruct E as (e & I & E). apply String.eqb_eq in E. subst. apply H. now apply in_map.
Qed.
Lemma tput_at {A} pre k (v0 v : A) suf : ~ In k (map fst pre) -> ~ In k (map fst suf) -> tput (pre ++ (k, v0) :: suf) k v = pre ++ (k, v) :: suf.
Proof.
  intros X B. unfold tput. replace (existsb _ _) with true. 2:{ symmetry. apply existsb_exists. exists (k, v0). split; [apply in_or_app; cbn; auto|]. apply String.eqb_refl. }
  rewrite map_app. cbn [map fst]. rewrite String.eqb_refl.
  assert (G : forall d : list (string * A), ~ In k (map fst d) -> map (fun e => if String.eqb (fst e) k then (k, v) else e) d = d).
  { intros d H. apply map_id_in. intros e I. destruct (String.eqb (fst e) k) eqn:E; auto. apply String.eqb_eq in E. subst. exfalso. apply H. now apply in_map. }
  now rewrite !G.
Qed.
Lemma lookup_at {A} pre k (v : A) suf : ~ In k (map fst pre) -> lookup k (pre ++ (k, v) :: suf) = Some v.
Proof. induction pre as [|[k' v'] pre IH]; cbn [app lookup map fst]; intros H. - now rewrite String.eqb_refl. - destruct (String.eqb k k') eqn:E; [apply String.eqb_eq in E; subst; exfalso; apply H; cbn; auto|]. apply IH. intros I. apply H. cbn. auto. Qed.

Definition entry (ps : list (text * list Qc)) (jn : nat * text) : string * list (string * R) := (str_of (snd jn), cdict ps (fst jn)).
Definition nums (names : list text) := combine (seq 0 (length names)) names.
Lemma nums_len names : length (nums names) = length names.
Proof. unfold nums. rewrite combine_length, seq_length. lia. Qed.
Lemma nums_at names pre k n suf : nums names = pre ++ (k, n) :: suf -> k = length pre /\ nth_error names (length pre) = Some n.
Proof.
  intros E. assert (L : nth_error (nums names) (length pre) = Some (k, n)) by (rewrite E, nth_error_app2, Nat.sub_diag by lia; reflexivity).
  destruct (nth_error names (length pre)) as [m|] eqn:M.
  - pose proof (numbered_nth names 0 _ _ M) as X. unfold nums in L. rewrite X in L. injection L as <- <-. auto.
  - exfalso. apply nth_error_None in M. assert ((length pre < length (nums names))%nat) by (rewrite E, app_length; cbn; lia). rewrite nums_len in H. lia.
Qed.
Lemma nums_snd names : map snd (nums names) = names.
Proof. unfold nums. generalize 0%nat. induction names as [|a names IH]; intros k; cbn [length seq combine map snd]; auto. f_equal. apply IH. Qed.
Definition pstep (names strings : list text) (s : list string * list (string * list (string * R))) (j : nat) : res (list string * list (string * list (string * R))) := (fun s j =>
      match nth_error names j, nth_error strings 0, nth_error strings (S j) with
      | Some a, Some w, Some t =>
        match lookup (str_of a) (snd s) with
        | None => Err KeyError
        | Some d => do x <- float_of t; Ok (fst s ++ [str_of w], tput (snd s) (str_of a) (tput d (str_of w) (Q2R (this x))))
        end
      | _, _, _ => Err IndexError
      end) s j.
Lemma property_fold names strings ps w xs : NoDup names -> ~ In w (map fst ps) -> nth_error strings 0 = Some w -> (length names < length strings)%nat ->
  forall suf pre props, nums names = pre ++ suf -> Forall2 (fun t x => float_of t = Ok x) (firstn (length suf) (skipn (S (length pre)) strings)) (skipn (length pre) xs) ->
  foldM (pstep names strings) (seq (length pre) (length suf)) (props, map (entry (ps ++ [(w, xs)])) pre ++ map (entry ps) suf) =
    Ok (props ++ repeat (str_of w) (length suf), map (entry (ps ++ [(w, xs)])) (nums names)).
Proof.
  intros N NW W0 L. induction suf as [|[k n] suf IH]; intros pre props E F.
  - cbn [length seq foldM map repeat]. rewrite !app_nil_r. rewrite app_nil_r in E. now rewrite E.
  - cbn [length seq foldM]. destruct (nums_at _ _ _ _ _ E) as [-> Kn]. unfold pstep at 1. rewrite Kn, W0.
    assert (Lp : (length pre < length names)%nat) by (apply nth_error_Some; congruence).
    destruct (nth_error strings (S (length pre))) as [t|] eqn:W; [|apply nth_error_None in W; lia].
    assert (Sk : forall {A} (l : list A) k v, nth_error l k = Some v -> skipn k l = v :: skipn (S k) l).
    { intros A l k. revert l. induction k as [|k IHk]; intros [|s l] v X; cbn in X; try discriminate. - injection X as ->. reflexivity. - cbn [skipn]. rewrite (IHk l v X). reflexivity. }
    rewrite (Sk _ strings _ _ W) in F. cbn [length firstn] in F. inversion F as [|? y ? ys Fy F' E1 E2]; subst.
    assert (Y : nth (length pre) xs 0%Qc = y /\ ys = skipn (S (length pre)) xs).
    { clear - E2. revert xs E2. generalize (length pre). induction n as [|n IH]; intros [|x xs] E; cbn [skipn nth] in *; try discriminate. - injection E as -> ->. auto. - apply IH in E. exact E. }
    destruct Y as [Y1 Y2]. cbn [map snd].
    assert (KD : ~ In (str_of n) (map fst (map (entry (ps ++ [(w, xs)])) pre)) /\ ~ In (str_of n) (map fst (map (entry ps) suf))).
    { pose proof (f_equal (map snd) E) as X. rewrite nums_snd, map_app in X. cbn [map snd] in X. rewrite X in N. apply NoDup_remove_2 in N. rewrite in_app_iff in N.
      split; rewrite map_map; cbn [entry fst]; intros I; apply in_map_iff in I; destruct I as (z & Z & I); apply str_inj in Z; apply N; [left|right]; apply in_map_iff; exists z; auto. }
    unfold entry at 2. cbn [fst snd]. rewrite lookup_at by tauto. rewrite Fy. cbn [bind]. unfold entry at 2. cbn [fst snd]. rewrite tput_at by tauto.
    assert (C : tput (cdict ps (length pre)) (str_of w) (Q2R (this y)) = cdict (ps ++ [(w, xs)]) (length pre)).
    { rewrite tput_new. - unfold cdict. rewrite map_app. cbn [map fst snd]. now rewrite Y1. - unfold cdict. rewrite map_map. cbn [fst]. intros I. apply in_map_iff in I. destruct I as (z & Z & I). apply str_inj in Z. apply NW. apply in_map_iff. exists z. auto. }
    rewrite C. replace (S (length pre)) with (length (pre ++ [(length pre, n)])) by (rewrite app_length; cbn; lia).
    replace (map (entry (ps ++ [(w, xs)])) pre ++ (str_of n, cdict (ps ++ [(w, xs)]) (length pre)) :: map (entry ps) suf) with (map (entry (ps ++ [(w, xs)])) (pre ++ [(length pre, n)]) ++ map (entry ps) suf).
    2:{ rewrite map_app. cbn [map]. now rewrite <- app_assoc. }
    rewrite IH. + cbn [repeat]. now rewrite <- app_assoc. + now rewrite <- app_assoc. + rewrite app_length. cbn [length]. replace (length pre + 1)%nat with (S (length pre)) by lia. now rewrite Y2 in F'.
Qed.
Notation property_line := (property_line float_of).
Lemma properties_fold names lines : NoDup names -> forall pws ps ps0 props, Forall2 says lines pws -> Forall2 (property_line (length names)) pws ps -> NoDup (map fst (ps0 ++ ps)) ->
  foldM (M_ThermoMat.read_property float_of names (length names)) (map prepared lines) (props, map (entry ps0) (nums names)) =
    Ok (props ++ concat (map (fun p => repeat (str_of (fst p)) (length names)) ps), map (entry (ps0 ++ ps)) (nums names)).
Proof.
  intros N. induction lines as [|l lines IH]; intros pws ps ps0 props F G D; inversion F as [|? ws ? pws' S F']; subst; inversion G as [|? p ? ps' P G']; subst; cbn [map foldM concat].
  - now rewrite !app_nil_r.
  - destruct P as (vs & -> & LV & FV).
    assert (X : M_ThermoMat.read_property float_of names (length names) (props, map (entry ps0) (nums names)) (prepared l) = Ok (props ++ repeat (str_of (fst p)) (length names), map (entry (ps0 ++ [p])) (nums names))).
    { unfold M_ThermoMat.read_property. rewrite (says_split _ _ S). destruct p as [w xs]. cbn [fst snd] in *.
      pose proof (property_fold names (w :: vs) ps0 w xs N) as P. replace (length names) with (length (nums names)) by apply nums_len. change (foldM (pstep names (w :: vs)) (seq 0 (length (nums names))) (props, map (entry ps0) (nums names)) = Ok (props ++ repeat (str_of w) (length (nums names)), map (entry (ps0 ++ [(w, xs)])) (nums names))). apply (P) with (pre := []); auto.
      - rewrite map_app in D. cbn [map fst] in D. apply NoDup_remove_2 in D. rewrite in_app_iff in D. tauto.
      - cbn [length]. lia.
      - cbn [length skipn]. now rewrite nums_len. }
    rewrite X. cbn [bind]. rewrite (IH pws' ps' (ps0 ++ [p])); auto. + now rewrite <- !app_assoc. + now rewrite <- app_assoc.
Qed.
Lemma custom_init names : NoDup names -> forall suf pre, names = pre ++ suf ->
  foldM (fun c j => match nth_error names j with Some a => Ok (tput c (str_of a) []) | None => Err IndexError end) (seq (length pre) (length suf)) (map (fun n => (str_of n, [])) pre) =
    Ok (map (fun n => (str_of n, @nil (string * R))) names).
Proof.
  intros N. induction suf as [|n suf IH]; intros pre E. - cbn [length seq foldM]. rewrite app_nil_r in E. now subst.
  - cbn [length seq foldM]. assert (Kn : nth_error names (length pre) = Some n) by (rewrite E, nth_error_app2, Nat.sub_diag by lia; reflexivity). rewrite Kn. cbn [bind]. rewrite tput_new.
    + replace (map (fun n => (str_of n, [])) pre ++ [(str_of n, [])]) with (map (fun n => (str_of n, @nil (string * R))) (pre ++ [n])) by (rewrite map_app; reflexivity).
      replace (S (length pre)) with (length (pre ++ [n])) by (rewrite app_length; cbn; lia). apply IH. now rewrite <- app_assoc.
    + rewrite map_map. cbn [fst]. intros I. apply in_map_iff in I. destruct I as (z & Z & I). apply str_inj in Z. subst z. rewrite E in N. apply NoDup_remove_2 in N. apply N. apply in_or_app. auto.
Qed.
Lemma entry_init names : map (fun n => (str_of n, @nil (string * R))) names = map (entry []) (nums names).
Proof. rewrite <- (nums_snd names) at 1. rewrite map_map. reflexivity. Qed.
Lemma hash_says l ws : says l ws -> M_ThermoMat.hash_line (prepared l) = true <-> exists w ws', ws = w :: ws' /\ hashed w.
Proof.
  intros S. pose proof (says_prepared _ _ S) as ->. destruct ws as [|w ws].
  - cbn. split; [discriminate|]. intros (w & ws' & X & _). discriminate.
  - assert (W : word w) by (eapply says_word; eauto; cbn; auto). destruct w as [|c w]; [destruct W; congruence|].
    assert (J : exists u, joined ((c :: w) :: ws) = c :: u) by (destruct ws; cbn; eauto). destruct J as [u J]. unfold text in *. rewrite J. cbn [M_ThermoMat.hash_line]. rewrite Ascii.eqb_eq. split.
    + intros ->. do 2 eexists. split; [reflexivity|]. eexists. reflexivity.
    + intros (w' & ws' & [= <- _] & (v & [= -> _])). reflexivity.
Qed.
Lemma split_hash_says lines rows tail : Forall2 says lines rows -> Forall (fun ws => match ws with w :: _ => ~ hashed w | [] => True end) rows ->
  (tail = [] \/ exists hl w ws rest, tail = hl :: rest /\ says hl (w :: ws) /\ hashed w) ->
  M_ThermoMat.split_hash (map prepared (lines ++ tail)) = (map prepared lines, map prepared (tl tail)).
Proof.
  intros F NH T. induction F as [|l ws lines rows S F IH]; cbn [app map].
  - destruct T as [->|(hl & w & ws & rest & -> & S & H)]; auto. cbn [map M_ThermoMat.split_hash tl]. assert (X : M_ThermoMat.hash_line (prepared hl) = true) by (apply (hash_says _ _ S); eauto). now rewrite X.
  - inversion NH as [|? ? N1 N2]; subst. cbn [M_ThermoMat.split_hash]. destruct (M_ThermoMat.hash_line (prepared l)) eqn:X.
    + apply (hash_says _ _ S) in X. destruct X as (w & ws' & -> & H). contradiction.
    + rewrite IH; auto.
Qed.
Lemma empty_len names : NoDup names -> length (empty_assays names) = length names.
Proof. intros N. rewrite empty_assays_distinct by auto. apply map_length. Qed.

Lemma thermo_file id header h names lines rows cells els tail pws ps : says header (h :: names) -> NoDup names -> names <> [] ->
  Forall2 says lines rows -> Forall (fun ws => match ws with w :: _ => ~ hashed w | [] => True end) rows -> table_of float_of (fun w => Ok (str_of w)) (length names) rows cells ->
  (tail = [] /\ ps = [] \/ exists hl w ws plines, tail = hl :: plines /\ says hl (w :: ws) /\ hashed w /\ Forall2 says plines pws /\ Forall2 (property_line (length names)) pws ps) -> NoDup (map fst ps) ->
  M_Chem.create_element_list (map fst cells) = Ok els ->
  exists m, M_ThermoMat.read_material float_of id (header :: lines ++ tail) = Ok m /\ M_ThermoMat.tm_id m = id /\ M_ThermoMat.tm_compounds m = map fst cells /\ M_ThermoMat.tm_elements m = els /\
    map fst (M_ThermoMat.tm_assays m) = map str_of names /\ M_ThermoMat.tm_properties m = concat (map (fun p => repeat (str_of (fst p)) (length names)) ps) /\
    forall j n, nth_error names j = Some n -> M_ThermoMat.find_assay m (str_of n) = Ok (map (fun x => Q2R (this x)) (col cells j)) /\ M_ThermoMat.custom_of m (str_of n) = Ok (cdict ps j).
Proof.
  intros H N NE F NH T TL D E. unfold M_ThermoMat.read_material, prepare_lines. cbn [map]. rewrite (says_names _ _ _ H).
  rewrite (split_hash_says lines rows tail F NH). 2:{ destruct TL as [[-> _]|(hl & w & ws & plines & -> & S & HW & _)]; auto. right. exists hl, w, ws, plines. auto. }
  cbn [fst snd]. rewrite (rows_exact float_of (fun w => Ok (str_of w)) names (map prepared lines) cells N). 2:{ rewrite map_map. eapply table_lines; eauto. destruct names; [congruence|cbn; lia]. }
  cbn [bind fst snd]. rewrite empty_len by auto. pose proof (custom_init names N names [] eq_refl) as CI. cbn [length map] in CI. rewrite CI. clear CI. cbn [bind]. rewrite entry_init.
  assert (P : foldM (M_ThermoMat.read_property float_of names (length names)) (map prepared (tl tail)) ([], map (entry []) (nums names)) =
    Ok (concat (map (fun p => repeat (str_of (fst p)) (length names)) ps), map (entry ps) (nums names))).
  { destruct TL as [[-> ->]|(hl & w & ws & plines & -> & S & HW & FP & GP)]; [reflexivity|]. cbn [tl]. apply (properties_fold names plines N pws ps [] []); auto. }
  rewrite P. cbn [bind fst snd]. rewrite E. cbn [bind]. eexists. split; [reflexivity|].
  cbn [M_ThermoMat.tm_id M_ThermoMat.tm_compounds M_ThermoMat.tm_elements M_ThermoMat.tm_assays M_ThermoMat.tm_properties]. do 3 (split; auto). split; [|split; auto].
  - rewrite map_map. cbn [fst]. rewrite <- (map_map fst str_of). now rewrite columns_keys.
  - intros j n J. split.
    + apply (columns_nth names cells) in J. pose proof (find_by_nth (map (fun x => Q2R (this x))) (columns names cells) ltac:(now rewrite columns_keys) j n _ J) as X.
      unfold M_ThermoMat.find_assay. cbn [M_ThermoMat.tm_assays]. replace (lookup (str_of n) _) with (find_by (str_of n) (map (fun kv : text * list Qc => (str_of (fst kv), map (fun x => Q2R (this x)) (snd kv))) (columns names cells))); [now rewrite X|].
      generalize (map (fun kv : text * list Qc => (str_of (fst kv), map (fun x => Q2R (this x)) (snd kv))) (columns names cells)) as l. clear. induction l as [|[k v] l IH]; cbn [find_by lookup]; auto. rewrite String.eqb_sym. destruct (String.eqb (str_of n) k); auto.
    + unfold M_ThermoMat.custom_of. cbn [M_ThermoMat.tm_custom]. assert (L : (j < length names)%nat) by (apply nth_error_Some; congruence).
      pose proof (numbered_nth names 0 j n J) as X. fold (nums names) in X. cbn [Nat.add] in X. apply nth_error_split in X. destruct X as (pre & suf & X & Lp).
      assert (NS : ~ In (str_of n) (map fst (map (entry ps) pre))).
      { rewrite map_map. cbn [entry fst]. intros I. apply in_map_iff in I. destruct I as (z & Z & I). apply str_inj in Z. pose proof (f_equal (map snd) X) as Y. rewrite nums_snd, map_app in Y. cbn [map snd] in Y.
        rewrite Y in N. apply NoDup_remove_2 in N. apply N. apply in_or_app. left. apply in_map_iff. exists z. auto. }
      rewrite X, map_app. cbn [map]. unfold entry at 2. cbn [fst snd]. now rewrite lookup_at.
Qed.
(** A blank line among the custom properties. *)
Lemma blank_property names l s : says l [] -> names <> [] -> M_ThermoMat.read_property float_of names (length names) s (prepared l) = Err IndexError.
Proof.
  intros S N. unfold M_ThermoMat.read_property. rewrite (says_split _ _ S). destruct names as [|n names]; [congruence|]. reflexivity.
Qed.
End Thermo.
