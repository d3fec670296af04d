(** C90, continued: printed packages of chem, psd and slurry. *)
From Verif Require Import Prelude M_Stoichiometry M_Text M_Lists M_Float M_Csv M_Print Spec_Stoich Spec_Text Spec_File Spec_Print P_Convert P_Content P_File P_Print P_Print2 Properties_Print.
From Verif Require M_Chem M_Psd M_Slurry Spec_Chem Spec_Psd P_Chem.
Local Open Scope string_scope.
Local Open Scope list_scope.

(** Distinct names that fit into the first column; one mass for each. *)
Definition packed {C A} (w : nat) (show_c : C -> text) (cs : list C) (masses : list A) : Prop :=
  NoDup cs /\ (forall c, In c cs -> cell w (show_c c)) /\ length masses = length cs.
(** str() of a number is never empty and has no white space; different numbers
    are printed differently. *)
Definition number_texts {A} (repr : A -> text) : Prop := (forall x, repr x <> [] /\ forall c, In c (repr x) -> is_space c = false) /\ forall x y, repr x = repr y -> x = y.

Lemma rows_printed {C A} (dec : forall a b : C, {a = b} + {a <> b}) (show_c : C -> text) (repr : A -> text) w cs masses : packed w show_c cs masses -> number_texts repr ->
  exists t ls, package_rows (fun c => index_of dec c cs) show_c repr w masses cs = Ok t /\ lines_are t ls /\
    Forall2 (fun c l => exists i x, index_of dec c cs = Ok i /\ nth_error masses i = Some x /\ l = ljust w (show_c c) ++ repr x) cs ls.
Proof.
  intros (N & F & L) [R _]. apply package_ok. intros c I. split; auto. destruct (index_total dec c cs I) as [i E]. destruct (nth_error masses i) as [x|] eqn:X.
  - exists i, x. split; auto. split; auto. apply one_line_solid. apply R.
  - apply nth_error_None in X. apply index_ok in E. destruct E as [E _]. assert ((i < length cs)%nat) by (apply nth_error_Some; congruence). lia.
Qed.
Lemma title_lines : lines_are (text_of "MaterialPackage" ++ nl) [text_of "MaterialPackage"] /\ lines_are (text_of "Component masses:" ++ nl) [text_of "Component masses:"].
Proof. split; apply lines_one; chars. Qed.
Lemma label_line w l t : one_line (text_of l) -> one_line t -> lines_are (label w l t) [ljust w (text_of l) ++ t].
Proof. intros A B. unfold label. rewrite app_assoc. apply lines_one. apply one_line_app; auto. now apply one_line_ljust. Qed.
Lemma rows_labelled {C A} (dec : forall a b : C, {a = b} + {a <> b}) (show_c : C -> text) (repr : A -> text) w cs (masses : list A) ls : (forall c, In c cs -> cell w (show_c c)) ->
  Forall2 (fun c l => exists i x, index_of dec c cs = Ok i /\ nth_error masses i = Some x /\ l = ljust w (show_c c) ++ repr x) cs ls ->
  Forall2 (fun (P : text -> Prop) l => P l) (map (fun c l => exists x, (do i <- index_of dec c cs; get masses i) = Ok x /\ labelled (show_c c) (repr x) l) cs) ls.
Proof.
  intros F H. apply Forall2_map_l. eapply Forall2_in; [|exact H]. cbn beta. intros c l I (i & x & E & X & ->). exists x. rewrite E. cbn [bind]. unfold get. rewrite X. split; auto. apply labelled_ljust. apply (F c I).
Qed.
Ltac fold_lines := repeat (match goal with
  | |- lines_are (text_of "MaterialPackage" ++ _ ++ _) _ => rewrite app_assoc; eapply lines_app; [apply (proj1 title_lines)|]
  | |- lines_are (text_of "Component masses:" ++ _ ++ _) _ => rewrite app_assoc; eapply lines_app; [apply (proj2 title_lines)|]
  | |- lines_are (label _ _ _ ++ _) _ => eapply lines_app; [apply label_line; [chars|]|]
  end; auto).

Lemma fl_rows {C A} (dec : forall a b : C, {a = b} + {a <> b}) (show_c : C -> text) (repr : A -> text) w cs ms cs' ms' ls : number_texts repr -> (forall c d, show_c c = show_c d -> c = d) ->
  packed w show_c cs ms -> packed w show_c cs' ms' ->
  Forall2 (fun c l => exists i x, index_of dec c cs = Ok i /\ nth_error ms i = Some x /\ l = ljust w (show_c c) ++ repr x) cs ls ->
  Forall2 (fun c l => exists i x, index_of dec c cs' = Ok i /\ nth_error ms' i = Some x /\ l = ljust w (show_c c) ++ repr x) cs' ls -> cs = cs' /\ ms = ms'.
Proof.
  intros R SI (N & Fc & Ln) (N' & Fc' & Ln') F F'.
  apply (rows_combine (fun c => index_of dec c cs) (fun c x l => l = ljust w (show_c c) ++ repr x)) in F; auto; [|intros i c H; apply index_nth; auto].
  apply (rows_combine (fun c => index_of dec c cs') (fun c x l => l = ljust w (show_c c) ++ repr x)) in F'; auto; [|intros i c H; apply index_nth; auto].
  destruct (rows_tell show_c show_c repr repr w _ _ _ _ ls Ln Ln') as [Y1 Y2]; auto; try (intros x _; apply R). destruct R as [_ R]. split.
  - clear - Y1 SI. revert cs' Y1. induction cs as [|x l IH]; intros [|y l'] H; cbn [map] in H; try discriminate; auto. injection H as Ha Hb. f_equal; auto.
  - clear - Y2 R. revert ms' Y2. induction ms as [|x l IH]; intros [|y l'] H; cbn [map] in H; try discriminate; auto. injection H as Ha Hb. f_equal; auto.
Qed.

(** * Chem *)
Lemma chem_lines repr name p : one_line name -> packed 20 text_of (M_Chem.m_compounds (M_Chem.p_material p)) (M_Chem.p_masses p) -> number_texts repr ->
  exists s ls, chem_package repr name p = Ok s /\
    lines_are s ([text_of "MaterialPackage"; ljust 20 (text_of "material") ++ name; ljust 20 (text_of "mass") ++ repr (M_Chem.get_mass p); text_of "Component masses:"] ++ ls) /\
    Forall2 (fun c l => exists i x, index_of string_dec c (M_Chem.m_compounds (M_Chem.p_material p)) = Ok i /\ nth_error (M_Chem.p_masses p) i = Some x /\ l = ljust 20 (text_of c) ++ repr x) (M_Chem.m_compounds (M_Chem.p_material p)) ls.
Proof.
  intros O K R. destruct (rows_printed string_dec text_of repr 20 _ _ K R) as (t & ls & E & L & F). eexists. exists ls. split; [|split; [|exact F]].
  - unfold chem_package. change (M_Chem.get_compound_index (M_Chem.p_material p)) with (fun c => index_of string_dec c (M_Chem.m_compounds (M_Chem.p_material p))). rewrite E. cbn [bind]. reflexivity.
  - change ([?a; ?b; ?c; ?d] ++ ls) with ([a] ++ [b] ++ [c] ++ [d] ++ ls). fold_lines. apply one_line_solid. apply R.
Qed.
(** The text shows the material's name, the mass, and the mass of every compound. *)
Theorem C90_chem_package : forall repr name p, one_line name -> packed 20 text_of (M_Chem.m_compounds (M_Chem.p_material p)) (M_Chem.p_masses p) -> number_texts repr ->
  exists s, chem_package repr name p = Ok s /\
    reads ([eq (text_of "MaterialPackage"); labelled (text_of "material") name; labelled (text_of "mass") (repr (M_Chem.get_mass p)); eq (text_of "Component masses:")] ++
           map (fun c l => exists x, M_Chem.get_compound_mass p c = Ok x /\ labelled (text_of c) (repr x) l) (M_Chem.m_compounds (M_Chem.p_material p))) s.
Proof.
  intros repr name p O K R. destruct (chem_lines repr name p O K R) as (s & ls & E & L & F). exists s. split; auto. eapply reads_intro; [exact L|].
  do 4 (constructor; [first [reflexivity|apply labelled_ljust; cbn; lia]|]). eapply rows_labelled; eauto. apply K.
Qed.
Print Assumptions C90_chem_package.
(** Packages that print the same have the same contents. *)
Theorem C90_chem_package_tells : forall repr name p name' p' s, number_texts repr -> one_line name -> one_line name' ->
  packed 20 text_of (M_Chem.m_compounds (M_Chem.p_material p)) (M_Chem.p_masses p) -> packed 20 text_of (M_Chem.m_compounds (M_Chem.p_material p')) (M_Chem.p_masses p') ->
  chem_package repr name p = Ok s -> chem_package repr name' p' = Ok s ->
  name = name' /\ M_Chem.m_compounds (M_Chem.p_material p) = M_Chem.m_compounds (M_Chem.p_material p') /\ M_Chem.p_masses p = M_Chem.p_masses p'.
Proof.
  intros repr name p name' p' s R O O' K K' E E'. destruct (chem_lines repr name p O K R) as (s1 & ls & E1 & L & F). rewrite E in E1. injection E1 as <-.
  destruct (chem_lines repr name' p' O' K' R) as (s1 & ls' & E1 & L' & F'). rewrite E' in E1. injection E1 as <-.
  pose proof (lines_unique _ _ _ L L') as X. 
  pose proof (f_equal (fun l => nth 1 l []) X) as X1. pose proof (f_equal (skipn 4) X) as X2. cbn [nth skipn app] in X1, X2. subst ls'. apply app_inv_head in X1. split; auto.
  apply (fl_rows string_dec text_of repr 20 _ _ _ _ ls); auto. intros c d H. apply (f_equal str_of) in H. now rewrite !text_str in H.
Qed.
Print Assumptions C90_chem_package_tells.

(** * Psd *)
Lemma psd_lines repr name p : one_line name -> packed 20 (fun s => repr (Fin s)) (M_Psd.ps_classes (M_Psd.pk_material p)) (M_Psd.pk_masses p) -> number_texts repr ->
  exists s ls, psd_package repr name p = Ok s /\
    lines_are s ([text_of "MaterialPackage"; ljust 20 (text_of "material") ++ name; ljust 20 (text_of "mass") ++ repr (M_Psd.get_mass p); text_of "Component masses:"] ++ ls) /\
    Forall2 (fun c l => exists i x, index_of M_Psd.qdec c (M_Psd.ps_classes (M_Psd.pk_material p)) = Ok i /\ nth_error (M_Psd.pk_masses p) i = Some x /\ l = ljust 20 (repr (Fin c)) ++ repr x) (M_Psd.ps_classes (M_Psd.pk_material p)) ls.
Proof.
  intros O K R. destruct (rows_printed M_Psd.qdec (fun s => repr (Fin s)) repr 20 _ _ K R) as (t & ls & E & L & F). eexists. exists ls. split; [|split; [|exact F]].
  - unfold psd_package. change (M_Psd.get_size_class_index (M_Psd.pk_material p)) with (fun c => index_of M_Psd.qdec c (M_Psd.ps_classes (M_Psd.pk_material p))). rewrite E. cbn [bind]. reflexivity.
  - change ([?a; ?b; ?c; ?d] ++ ls) with ([a] ++ [b] ++ [c] ++ [d] ++ ls). fold_lines. apply one_line_solid. apply R.
Qed.
Theorem C90_psd_package : forall repr name p, one_line name -> packed 20 (fun s => repr (Fin s)) (M_Psd.ps_classes (M_Psd.pk_material p)) (M_Psd.pk_masses p) -> number_texts repr ->
  exists s, psd_package repr name p = Ok s /\
    reads ([eq (text_of "MaterialPackage"); labelled (text_of "material") name; labelled (text_of "mass") (repr (M_Psd.get_mass p)); eq (text_of "Component masses:")] ++
           map (fun c l => exists x, M_Psd.get_size_class_mass p c = Ok x /\ labelled (repr (Fin c)) (repr x) l) (M_Psd.ps_classes (M_Psd.pk_material p))) s.
Proof.
  intros repr name p O K R. destruct (psd_lines repr name p O K R) as (s & ls & E & L & F). exists s. split; auto. eapply reads_intro; [exact L|].
  do 4 (constructor; [first [reflexivity|apply labelled_ljust; cbn; lia]|]). apply (rows_labelled M_Psd.qdec (fun s => repr (Fin s)) repr 20 _ (M_Psd.pk_masses p) ls); auto. apply K.
Qed.
Print Assumptions C90_psd_package.
Theorem C90_psd_package_tells : forall repr name p name' p' s, number_texts repr -> one_line name -> one_line name' ->
  packed 20 (fun s => repr (Fin s)) (M_Psd.ps_classes (M_Psd.pk_material p)) (M_Psd.pk_masses p) -> packed 20 (fun s => repr (Fin s)) (M_Psd.ps_classes (M_Psd.pk_material p')) (M_Psd.pk_masses p') ->
  psd_package repr name p = Ok s -> psd_package repr name' p' = Ok s ->
  name = name' /\ M_Psd.ps_classes (M_Psd.pk_material p) = M_Psd.ps_classes (M_Psd.pk_material p') /\ M_Psd.pk_masses p = M_Psd.pk_masses p'.
Proof.
  intros repr name p name' p' s R O O' K K' E E'. destruct (psd_lines repr name p O K R) as (s1 & ls & E1 & L & F). rewrite E in E1. injection E1 as <-.
  destruct (psd_lines repr name' p' O' K' R) as (s1 & ls' & E1 & L' & F'). rewrite E' in E1. injection E1 as <-.
  pose proof (lines_unique _ _ _ L L') as X. 
  pose proof (f_equal (fun l => nth 1 l []) X) as X1. pose proof (f_equal (skipn 4) X) as X2. cbn [nth skipn app] in X1, X2. subst ls'. apply app_inv_head in X1. split; auto.
  apply (fl_rows M_Psd.qdec (fun s => repr (Fin s)) repr 20 _ _ _ _ ls); auto. intros c d H. apply (proj2 R) in H. congruence.
Qed.
Print Assumptions C90_psd_package_tells.

(** * Slurry *)
Lemma slurry_package_lines repr name p : one_line name -> packed 24 (fun s => repr (Fin s)) (M_Slurry.sl_classes (M_Slurry.sk_material p)) (M_Slurry.sk_masses p) -> number_texts repr ->
  exists s ls, slurry_package repr name p = Ok s /\
    lines_are s ([text_of "MaterialPackage"; ljust 24 (text_of "material") ++ name; ljust 24 (text_of "mass fraction solids") ++ repr (M_Slurry.get_mass_fraction_solids p);
                  ljust 24 (text_of "volume fraction solids") ++ repr (M_Slurry.get_volume_fraction_solids p); ljust 24 (text_of "solid density") ++ repr (M_Slurry.sk_density p);
                  ljust 24 (text_of "slurry density") ++ repr (M_Slurry.get_density p); ljust 24 (text_of "mass") ++ repr (M_Slurry.get_mass p); ljust 24 (text_of "H2O mass") ++ repr (M_Slurry.sk_water p);
                  ljust 24 (text_of "volume") ++ repr (M_Slurry.get_volume p); text_of "Component masses:"] ++ ls) /\
    Forall2 (fun c l => exists i x, index_of M_Slurry.qdec c (M_Slurry.sl_classes (M_Slurry.sk_material p)) = Ok i /\ nth_error (M_Slurry.sk_masses p) i = Some x /\ l = ljust 24 (repr (Fin c)) ++ repr x) (M_Slurry.sl_classes (M_Slurry.sk_material p)) ls.
Proof.
  intros O K R. destruct (rows_printed M_Slurry.qdec (fun s => repr (Fin s)) repr 24 _ _ K R) as (t & ls & E & L & F). eexists. exists ls. split; [|split; [|exact F]].
  - unfold slurry_package. change (M_Slurry.get_size_class_index (M_Slurry.sk_material p)) with (fun c => index_of M_Slurry.qdec c (M_Slurry.sl_classes (M_Slurry.sk_material p))). rewrite E. cbn [bind]. reflexivity.
  - change ([?a; ?b; ?c; ?d; ?e; ?f; ?g; ?h; ?i; ?j] ++ ls) with ([a] ++ [b] ++ [c] ++ [d] ++ [e] ++ [f] ++ [g] ++ [h] ++ [i] ++ [j] ++ ls). fold_lines; apply one_line_solid; apply R.
Qed.
Theorem C90_slurry_package : forall repr name p, one_line name -> packed 24 (fun s => repr (Fin s)) (M_Slurry.sl_classes (M_Slurry.sk_material p)) (M_Slurry.sk_masses p) -> number_texts repr ->
  exists s, slurry_package repr name p = Ok s /\
    reads ([eq (text_of "MaterialPackage"); labelled (text_of "material") name;
            labelled (text_of "mass fraction solids") (repr (M_Slurry.get_mass_fraction_solids p)); labelled (text_of "volume fraction solids") (repr (M_Slurry.get_volume_fraction_solids p));
            labelled (text_of "solid density") (repr (M_Slurry.sk_density p)); labelled (text_of "slurry density") (repr (M_Slurry.get_density p));
            labelled (text_of "mass") (repr (M_Slurry.get_mass p)); labelled (text_of "H2O mass") (repr (M_Slurry.sk_water p)); labelled (text_of "volume") (repr (M_Slurry.get_volume p));
            eq (text_of "Component masses:")] ++
           map (fun c l => exists x, M_Slurry.get_size_class_mass p c = Ok x /\ labelled (repr (Fin c)) (repr x) l) (M_Slurry.sl_classes (M_Slurry.sk_material p))) s.
Proof.
  intros repr name p O K R. destruct (slurry_package_lines repr name p O K R) as (s & ls & E & L & F). exists s. split; auto. eapply reads_intro; [exact L|].
  do 10 (constructor; [first [reflexivity|apply labelled_ljust; cbn; lia]|]). apply (rows_labelled M_Slurry.qdec (fun s => repr (Fin s)) repr 24 _ (M_Slurry.sk_masses p) ls); auto. apply K.
Qed.
Print Assumptions C90_slurry_package.
Theorem C90_slurry_package_tells : forall repr name p name' p' s, number_texts repr -> one_line name -> one_line name' ->
  packed 24 (fun s => repr (Fin s)) (M_Slurry.sl_classes (M_Slurry.sk_material p)) (M_Slurry.sk_masses p) -> packed 24 (fun s => repr (Fin s)) (M_Slurry.sl_classes (M_Slurry.sk_material p')) (M_Slurry.sk_masses p') ->
  slurry_package repr name p = Ok s -> slurry_package repr name' p' = Ok s ->
  name = name' /\ M_Slurry.sl_classes (M_Slurry.sk_material p) = M_Slurry.sl_classes (M_Slurry.sk_material p') /\ M_Slurry.sk_masses p = M_Slurry.sk_masses p' /\
  M_Slurry.sk_water p = M_Slurry.sk_water p' /\ M_Slurry.sk_density p = M_Slurry.sk_density p'.
Proof.
  intros repr name p name' p' s R O O' K K' E E'. destruct (slurry_package_lines repr name p O K R) as (s1 & ls & E1 & L & F). rewrite E in E1. injection E1 as <-.
  destruct (slurry_package_lines repr name' p' O' K' R) as (s1 & ls' & E1 & L' & F'). rewrite E' in E1. injection E1 as <-.
  pose proof (lines_unique _ _ _ L L') as X. 
  pose proof (f_equal (fun l => nth 1 l []) X) as X1. pose proof (f_equal (skipn 10) X) as X2. cbn [nth skipn app] in X1, X2.
  pose proof (f_equal (fun l => nth 7 l []) X) as X3. pose proof (f_equal (fun l => nth 4 l []) X) as X4. cbn [nth app] in X3, X4.
  subst ls'. apply app_inv_head in X1, X3, X4. split; auto. apply (proj2 R) in X3, X4.
  destruct (fl_rows M_Slurry.qdec (fun s => repr (Fin s)) repr 24 (M_Slurry.sl_classes (M_Slurry.sk_material p)) (M_Slurry.sk_masses p) (M_Slurry.sl_classes (M_Slurry.sk_material p')) (M_Slurry.sk_masses p') ls) as [Y1 Y2]; auto.
  intros c d H. apply (proj2 R) in H. congruence.
Qed.
Print Assumptions C90_slurry_package_tells.

(** * Cases *)
From Verif Require Import M_Tables Spec_Tables P_Tables.
(** A way to write numbers that meets [number_texts]. *)
Definition z_text (z : Z) : text := (if (z <? 0)%Z then ["-"%char] else []) ++ decimal (Z.abs z).
Definition q_text (q : Qc) : text := z_text (Qnum q) ++ "/"%char :: decimal (Zpos (Qden q)).
Definition n_text (n : M_Chem.num) : text := match n with M_Chem.NInt z => "i"%char :: z_text z | M_Chem.NFloat q => q_text q end.
Definition f_text (x : fl) : text := match x with Fin q => q_text q | Inf true => text_of "-inf" | Inf false => text_of "inf" | NaN => text_of "nan" end.
Lemma digit_props c : is_digit c = true -> is_space c = false /\ c <> "-"%char /\ c <> "/"%char /\ c <> "i"%char /\ c <> "n"%char.
Proof.
  intros H. split; [|repeat split; intros ->; discriminate]. unfold is_digit, is_space in *. apply andb_true_iff in H. destruct H as [A B]. apply Z.leb_le in A, B.
  rewrite !orb_false_iff, !andb_false_iff, !Z.leb_gt, !Z.eqb_neq. lia.
Qed.
Lemma decimal_chars z : (0 <= z)%Z -> decimal z <> [] /\ (forall c, In c (decimal z) -> is_digit c = true) /\ value (decimal z) = z.
Proof. intros H. destruct (decimal_spec z H) as (A & B & D & _). rewrite Forall_forall in B. auto. Qed.
Lemma z_text_solid z : z_text z <> [] /\ forall c, In c (z_text z) -> is_space c = false /\ c <> "/"%char /\ c <> "i"%char /\ c <> "n"%char.
Proof.
  destruct (decimal_chars (Z.abs z)) as (A & B & _); [lia|]. unfold z_text. split. - intros E. apply app_eq_nil in E. tauto.
  - intros c I. apply in_app_or in I. destruct I as [I|I]; [destruct (z <? 0)%Z; [destruct I as [<-|[]]; repeat split; discriminate|destruct I]|]. apply B, digit_props in I. tauto.
Qed.
Lemma z_text_inj z y : z_text z = z_text y -> z = y.
Proof.
  unfold z_text. intros E. destruct (decimal_chars (Z.abs z)) as (A & B & D); [lia|]. destruct (decimal_chars (Z.abs y)) as (A' & B' & D'); [lia|].
  destruct (z <? 0)%Z eqn:Z1, (y <? 0)%Z eqn:Z2; cbn [app] in E.
  - injection E as E. apply Z.ltb_lt in Z1, Z2. rewrite E in D. lia.
  - exfalso. destruct (decimal (Z.abs y)) as [|c l] eqn:F; [congruence|]. injection E as <- _. specialize (B' "-"%char (or_introl eq_refl)). discriminate.
  - exfalso. destruct (decimal (Z.abs z)) as [|c l] eqn:F; [congruence|]. injection E as -> _. specialize (B "-"%char (or_introl eq_refl)). discriminate.
  - rewrite E in D. apply Z.ltb_ge in Z1, Z2. lia.
Qed.
Lemma split_once (x : ascii) a b c d : ~ In x a -> ~ In x c -> a ++ x :: b = c ++ x :: d -> a = c /\ b = d.
Proof.
  revert c. induction a as [|y a IH]; intros [|z c] I J E; cbn [app] in E.
  - injection E as ->. auto.
  - injection E as -> _. exfalso. apply J. cbn. auto.
  - injection E as -> _. exfalso. apply I. cbn. auto.
  - injection E as -> E. destruct (IH c) as [-> ->]; auto; intros K; [apply I|apply J]; cbn; auto.
Qed.
Lemma q_text_solid q : q_text q <> [] /\ forall c, In c (q_text q) -> is_space c = false /\ c <> "i"%char /\ c <> "n"%char.
Proof.
  unfold q_text. destruct (z_text_solid (Qnum q)) as [A B]. destruct (decimal_chars (Zpos (Qden q))) as (A' & B' & _); [lia|]. split.
  - intros E. apply app_eq_nil in E. tauto. - intros c I. apply in_app_or in I. destruct I as [I|[<-|I]]; [apply B in I; tauto|repeat split; discriminate|]. apply B', digit_props in I. tauto.
Qed.
Lemma q_text_inj q r : q_text q = q_text r -> q = r.
Proof.
  unfold q_text. intros E. apply split_once in E; [|intros I; apply (proj2 (z_text_solid (Qnum q))) in I; tauto|intros I; apply (proj2 (z_text_solid (Qnum r))) in I; tauto]. destruct E as [E1 E2].
  apply z_text_inj in E1. apply (f_equal value) in E2. rewrite (proj2 (proj2 (decimal_chars (Zpos (Qden q)) ltac:(lia)))), (proj2 (proj2 (decimal_chars (Zpos (Qden r)) ltac:(lia)))) in E2. apply Qc_is_canon. destruct q as [[qn qd] ?], r as [[rn rd] ?]. cbn in *. injection E2 as ->. subst. reflexivity.
Qed.
Lemma n_texts : number_texts n_text.
Proof.
  split.
  - intros [z|q]; cbn [n_text]; [split; [discriminate|intros c [<-|I]; [reflexivity|]; now apply z_text_solid in I]|]. destruct (q_text_solid q) as [A B]. split; auto. intros c I. now apply B in I.
  - intros [z|q] [y|r]; cbn [n_text]; intros E. + injection E as E. now rewrite (z_text_inj _ _ E). + destruct (q_text_solid r) as [A B]. destruct (q_text r) as [|c l]; [congruence|]. injection E as <- _. destruct (B "i"%char (or_introl eq_refl)) as (_ & X & _). congruence.
    + destruct (q_text_solid q) as [A B]. destruct (q_text q) as [|c l]; [congruence|]. injection E as -> _. destruct (B "i"%char (or_introl eq_refl)) as (_ & X & _). congruence. + now rewrite (q_text_inj _ _ E).
Qed.
Lemma f_texts : number_texts f_text.
Proof.
  assert (N : forall q t, In "n"%char t -> q_text q <> t) by (intros q t I E; rewrite <- E in I; apply q_text_solid in I; destruct I as (_ & _ & X); congruence). split.
  - intros [q|[|]|]; cbn [f_text]; [destruct (q_text_solid q) as [A B]; split; auto; intros c I; now apply B in I| | |]; (split; [discriminate|chars]).
  - intros [q|[|]|] [r|[|]|]; cbn [f_text]; intros E; try reflexivity; try discriminate; try (exfalso; eapply N; [|first [exact E|symmetry; exact E]]; cbn; tauto). now rewrite (q_text_inj _ _ E).
Qed.
Definition lot : M_Chem.package := M_Chem.mkpkg ore [M_Chem.NFloat three_quarters; M_Chem.NFloat quarter].
Example C90_chem_package_case : chem_package n_text (text_of "Iron ore") lot = Ok (concat (map (fun l => text_of l ++ [lf])
  ["MaterialPackage"; "material            Iron ore"; "mass                1/1"; "Component masses:"; "Fe2O3               3/4"; "SiO2                1/4"])) /\
  packed 20 text_of (M_Chem.m_compounds (M_Chem.p_material lot)) (M_Chem.p_masses lot) /\ number_texts n_text.
Proof.
  split; [vm_compute; reflexivity|]. split; [|exact n_texts]. split; [apply ore_fits|]. split; [|reflexivity]. intros c I. apply ore_fits in I. exact I.
Qed.
Example C90_slurry_package_case : slurry_package f_text (text_of "Sand") (M_Slurry.mksl gravel (Fin three_quarters) (Fin quarter) [Fin quarter; Fin quarter]) = Ok (concat (map (fun l => text_of l ++ [lf])
  ["MaterialPackage"; "material                Sand"; "mass fraction solids    2/3"; "volume fraction solids  8/11"; "solid density           3/4"; "slurry density          9/11"; "mass                    3/4"; "H2O mass                1/4"; "volume                  11/12";
   "Component masses:"; "1/4                     1/4"; "3/4                     1/4"])) /\ packed 24 (fun s => f_text (Fin s)) (M_Slurry.sl_classes gravel) [Fin quarter; Fin quarter] /\ number_texts f_text.
Proof.
  split; [vm_compute; reflexivity|]. split; [|exact f_texts]. split; [|split; [|reflexivity]].
  - constructor; [|constructor; [intros []|constructor]]. intros [H|[]]. apply (f_equal (fun x : Qc => Qnum x)) in H. vm_compute in H. discriminate.
  - intros c [<-|[<-|[]]]; (split; [vm_compute; discriminate|split; [vm_compute; lia|]]); intros c C; vm_compute in C; repeat (destruct C as [<-|C]; [reflexivity|]); destruct C.
Qed.
Example C90_psd_package_case : psd_package f_text (text_of "Sand") (M_Psd.mkpsd (M_Psd.mkpsm 1 [quarter; three_quarters] []) [Fin quarter; NaN]) = Ok (concat (map (fun l => text_of l ++ [lf])
  ["MaterialPackage"; "material            Sand"; "mass                nan"; "Component masses:"; "1/4                 1/4"; "3/4                 nan"])).
Proof. vm_compute. reflexivity. Qed.
(** Names of 20 characters and more run into the masses: packages with different
    compounds and masses, but the same total, print the same. *)
Theorem C90_long_names_refuted : exists p p' s, chem_package n_text (text_of "Oil") p = Ok s /\ chem_package n_text (text_of "Oil") p' = Ok s /\
  NoDup (M_Chem.m_compounds (M_Chem.p_material p)) /\ length (M_Chem.p_masses p) = length (M_Chem.m_compounds (M_Chem.p_material p)) /\
  (forall c, In c (M_Chem.m_compounds (M_Chem.p_material p)) -> M_Chem.get_compound_mass p c <> M_Chem.get_compound_mass p' c) /\ M_Chem.p_masses p <> M_Chem.p_masses p'.
Proof.
  set (X := "CH3CH2CH2CH2CH2CH2CH"). set (Y := "CH3CH2CH2CH2CH2CH2CO"). set (a := M_Chem.NFloat (Q2Qc (25 # 2))). set (b := M_Chem.NFloat (Q2Qc (5 # 2))).
  exists (M_Chem.mkpkg (M_Chem.mkmat 1 [X; (Y ++ "2")%string] [] []) [M_Chem.NFloat (Q2Qc (25 # 2)); M_Chem.NFloat (Q2Qc (5 # 2))]),
    (M_Chem.mkpkg (M_Chem.mkmat 2 [(X ++ "2")%string; Y] [] []) [M_Chem.NFloat (Q2Qc (5 # 2)); M_Chem.NFloat (Q2Qc (25 # 2))]). eexists.
  split; [vm_compute; reflexivity|]. split; [vm_compute; reflexivity|]. split; [repeat constructor; cbn; intuition discriminate|]. split; [reflexivity|]. split.
  - intros c [<-|[<-|[]]]; vm_compute; discriminate.
  - intros H. apply (f_equal (fun l => match l with M_Chem.NFloat q :: _ => Qnum q | _ => 0%Z end)) in H. vm_compute in H. discriminate.
Qed.
Print Assumptions C90_long_names_refuted.
