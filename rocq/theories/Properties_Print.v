(** C90: what printed materials and packages show (chem, psd, slurry).
    [repr] stands for str() of a number; what is proved holds for every such
    function. *)
From Verif Require Import Prelude M_Stoichiometry M_Text M_Lists M_Float M_Csv M_Print Spec_Stoich Spec_Text Spec_File Spec_Print P_Convert P_Content P_File P_Print P_Print2.
From Verif Require M_Chem M_Psd M_Slurry Spec_Chem Spec_Psd P_Chem.
From Coq Require Import Permutation.
Local Open Scope string_scope.
Local Open Scope list_scope.

(** The names in the first column, and the assays with their names and numbers,
    all fit into columns of 20; no name is there twice; every assay has one
    number per compound (or size class). *)
Definition fitting {C A} (show_c : C -> text) (show : A -> text) (cs : list C) (assays : list (string * list A)) : Prop :=
  NoDup cs /\ (forall c, In c cs -> cell 20 (show_c c)) /\ NoDup (map fst assays) /\
  forall n a, In (n, a) assays -> cell 20 (text_of n) /\ length a = length cs /\ forall x, In x a -> cell 20 (show x).
(** Assay [n] has [x] for [c]. *)
Definition assay_has {C A} (cs : list C) (assays : list (string * list A)) (c : C) (n : string) (x : A) : Prop :=
  exists a i, In (n, a) assays /\ nth_error cs i = Some c /\ nth_error a i = Some x.
(** The table: a title, the names of the assays, the lines [more], and a line per
    compound with its number in every assay. *)
Definition table_lines_are {C A} (show_c : C -> text) (show : A -> text) (name : text) (names : list string) (more : list (text -> Prop)) (cs : list C) (assays : list (string * list A)) : list (text -> Prop) :=
  [eq (text_of "Material: name='" ++ name ++ text_of "'"); words_are (text_of "Compound" :: map text_of names)] ++ more ++
  map (fun c l => exists xs, Forall2 (assay_has cs assays c) names xs /\ words_are (show_c c :: map show xs) l) cs.

Lemma Forall2_in {A B} (P Q : A -> B -> Prop) l l' : (forall a b, In a l -> P a b -> Q a b) -> Forall2 P l l' -> Forall2 Q l l'.
Proof. intros H F. induction F as [|a b l l' X F IH]; constructor. - apply H; cbn; auto. - apply IH. intros; apply H; cbn; auto. Qed.
Section Generic.
Context {C A : Type} (show_c : C -> text) (show : A -> text) (dec : forall a b : C, {a = b} + {a <> b}).
Variables (cs : list C) (assays : list (string * list A)).
Variable find : string -> res (list A).
Hypothesis find_in : forall n a, In (n, a) assays -> find n = Ok a.
Hypothesis fit : fitting show_c show cs assays.
Let names := M_Chem.sorted (map fst assays).
Lemma names_perm : Permutation (map fst assays) names.
Proof. apply sorted_perm. Qed.
Lemma name_in n : In n names -> exists a, In (n, a) assays.
Proof. intros I. apply (Permutation_in n (Permutation_sym names_perm)) in I. apply in_map_iff in I. destruct I as ([k a] & <- & I). eauto. Qed.
Lemma names_fit : Forall (fun n => cell 20 (text_of n)) names.
Proof. apply Forall_forall. intros n I. destruct (name_in n I) as [a J]. apply fit in J. tauto. Qed.
Lemma index_at i c : nth_error cs i = Some c -> index_of dec c cs = Ok i.
Proof. intros H. apply index_nth; auto. apply fit. Qed.
Lemma stands_in n c : In n names -> In c cs -> exists x, stands (fun c => index_of dec c cs) find c n x /\ cell 20 (show x).
Proof.
  intros N I. destruct (name_in n N) as [a J]. destruct fit as (_ & _ & _ & F). destruct (F n a J) as (F1 & F2 & F3). apply In_nth_error in I. destruct I as [i I].
  destruct (nth_error a i) as [x|] eqn:E. - exists x. split; [|apply F3; eapply nth_error_In; eauto]. exists a, i. auto using index_at. - apply nth_error_None in E. assert ((i < length cs)%nat) by (apply nth_error_Some; congruence). lia.
Qed.
Lemma stands_has n c x : In n names -> In c cs -> stands (fun c => index_of dec c cs) find c n x -> assay_has cs assays c n x.
Proof.
  intros N I (a & i & Ea & Ei & Ex). destruct (name_in n N) as [a' J]. rewrite (find_in n a' J) in Ea. injection Ea as ->. exists a, i. split; auto. split; auto. apply index_ok in Ei. tauto.
Qed.
Lemma table_printed : exists t ls, material_rows (fun c => index_of dec c cs) show_c find show names cs = Ok t /\ lines_are t ls /\ Forall2 (row_of (fun c => index_of dec c cs) show_c find show names) cs ls.
Proof.
  apply rows_ok. - intros c I. split; [now apply fit|]. destruct (index_total dec c cs I) as [i E]. eauto. - intros n c N I. now apply stands_in.
Qed.
Lemma rows_read ls : Forall2 (row_of (fun c => index_of dec c cs) show_c find show names) cs ls ->
  Forall2 (fun (P : text -> Prop) l => P l) (map (fun c l => exists xs, Forall2 (assay_has cs assays c) names xs /\ words_are (show_c c :: map show xs) l) cs) ls.
Proof.
  intros F. apply Forall2_map_l. eapply Forall2_in; [|exact F]. intros c l I (xs & X1 & X2 & X3). exists xs. split; auto. eapply Forall2_in; [|exact X1]. intros n x N S. now apply stands_has.
Qed.
End Generic.

Lemma find_chem n a assays : NoDup (map fst assays) -> In (n, a) assays -> M_Chem.find_assay n assays = Ok a.
Proof.
  induction assays as [|[k v] l IH]; cbn [map fst M_Chem.find_assay]; intros N I; [destruct I|]. inversion N; subst. destruct I as [I|I].
  - injection I as -> ->. now rewrite String.eqb_refl.
  - destruct (String.eqb k n) eqn:E; auto. apply String.eqb_eq in E. subst. exfalso. apply H1. apply in_map_iff. exists (n, a). auto.
Qed.
Lemma find_psd n a assays : NoDup (map fst assays) -> In (n, a) assays -> M_Psd.find_assay n assays = Ok a.
Proof.
  induction assays as [|[k v] l IH]; cbn [map fst M_Psd.find_assay]; intros N I; [destruct I|]. inversion N; subst. destruct I as [I|I].
  - injection I as -> ->. now rewrite String.eqb_refl.
  - destruct (String.eqb k n) eqn:E; auto. apply String.eqb_eq in E. subst. exfalso. apply H1. apply in_map_iff. exists (n, a). auto.
Qed.
Lemma find_slurry n a assays : NoDup (map fst assays) -> In (n, a) assays -> M_Slurry.find_assay n assays = Ok a.
Proof.
  induction assays as [|[k v] l IH]; cbn [map fst M_Slurry.find_assay]; intros N I; [destruct I|]. inversion N; subst. destruct I as [I|I].
  - injection I as -> ->. now rewrite String.eqb_refl.
  - destruct (String.eqb k n) eqn:E; auto. apply String.eqb_eq in E. subst. exfalso. apply H1. apply in_map_iff. exists (n, a). auto.
Qed.

(** * Materials: what is printed *)
Theorem C90_chem_material : forall repr name m, one_line name -> fitting text_of repr (M_Chem.m_compounds m) (M_Chem.m_assays m) ->
  exists s names, chem_material repr name m = Ok s /\ Permutation names (map fst (M_Chem.m_assays m)) /\ in_order names /\
    reads (table_lines_are text_of repr name names [] (M_Chem.m_compounds m) (M_Chem.m_assays m)) s.
Proof.
  intros repr name m O F. set (find := fun n => M_Chem.find_assay n (M_Chem.m_assays m)).
  assert (FI : forall n a, In (n, a) (M_Chem.m_assays m) -> find n = Ok a) by (intros; apply find_chem; auto; apply F).
  destruct (table_printed text_of repr string_dec _ _ find FI F) as (t & ls & E & L & R). destruct (head_lines name (M_Chem.sorted (map fst (M_Chem.m_assays m))) O) as (h & H1 & H2); [eapply names_fit; eauto|].
  eexists. exists (M_Chem.sorted (map fst (M_Chem.m_assays m))). split; [|split; [|split]].
  - unfold chem_material. cbv zeta. change (M_Chem.get_compound_index m) with (fun c => index_of string_dec c (M_Chem.m_compounds m)). fold find. rewrite E. cbn [bind]. reflexivity.
  - apply Permutation_sym, sorted_perm. - apply sorted_increasing. apply F.
  - eapply reads_intro; [apply lines_app; [exact H1|exact L]|]. unfold table_lines_are. cbn [app]. constructor; auto. constructor; auto. eapply rows_read; eauto.
Qed.
Print Assumptions C90_chem_material.
Theorem C90_psd_material : forall repr name m, one_line name -> fitting (fun s => repr (Fin s)) repr (M_Psd.ps_classes m) (M_Psd.ps_assays m) ->
  exists s names, psd_material repr name m = Ok s /\ Permutation names (map fst (M_Psd.ps_assays m)) /\ in_order names /\
    reads (table_lines_are (fun s => repr (Fin s)) repr name names [] (M_Psd.ps_classes m) (M_Psd.ps_assays m)) s.
Proof.
  intros repr name m O F. set (find := fun n => M_Psd.find_assay n (M_Psd.ps_assays m)).
  assert (FI : forall n a, In (n, a) (M_Psd.ps_assays m) -> find n = Ok a) by (intros; apply find_psd; auto; apply F).
  destruct (table_printed _ repr M_Psd.qdec _ _ find FI F) as (t & ls & E & L & R). destruct (head_lines name (M_Chem.sorted (map fst (M_Psd.ps_assays m))) O) as (h & H1 & H2); [eapply names_fit; eauto|].
  eexists. exists (M_Chem.sorted (map fst (M_Psd.ps_assays m))). split; [|split; [|split]].
  - unfold psd_material. cbv zeta. change (M_Psd.get_size_class_index m) with (fun c => index_of M_Psd.qdec c (M_Psd.ps_classes m)). fold find. rewrite E. cbn [bind]. reflexivity.
  - apply Permutation_sym, sorted_perm. - apply sorted_increasing. apply F.
  - eapply reads_intro; [apply lines_app; [exact H1|exact L]|]. unfold table_lines_are. cbn [app]. constructor; auto. constructor; auto. eapply rows_read; eauto.
Qed.
Print Assumptions C90_psd_material.

(** * Materials: the printed table, without its title, is a file of the material *)
Theorem C90_chem_reads_back : forall repr float_of name m id, one_line name -> fitting text_of repr (M_Chem.m_compounds m) (M_Chem.m_assays m) -> M_Chem.m_assays m <> [] ->
  (forall n a x, In (n, a) (M_Chem.m_assays m) -> In x a -> float_of (repr x) = Ok (M_Chem.val x)) -> Spec_Chem.listed m ->
  exists s m', chem_material repr name m = Ok s /\ M_Chem.read_material float_of id (tl (lines_of s)) = Ok m' /\
    M_Chem.m_compounds m' = M_Chem.m_compounds m /\ M_Chem.m_elements m' = M_Chem.m_elements m /\
    Permutation (map fst (M_Chem.m_assays m')) (map fst (M_Chem.m_assays m)) /\
    forall n a, In (n, a) (M_Chem.m_assays m) -> M_Chem.find_assay n (M_Chem.m_assays m') = Ok (map (fun x => M_Chem.NFloat (M_Chem.val x)) a).
Proof.
  intros repr float_of name m id O F NE RT LI. set (find := fun n => M_Chem.find_assay n (M_Chem.m_assays m)).
  assert (FI : forall n a, In (n, a) (M_Chem.m_assays m) -> find n = Ok a) by (intros; apply find_chem; auto; apply F).
  destruct (table_printed text_of repr string_dec _ _ find FI F) as (t & ls & E & L & R). set (names := M_Chem.sorted (map fst (M_Chem.m_assays m))) in *.
  destruct (head_lines name names O) as (h & H1 & H2); [eapply names_fit; eauto|].
  pose proof (sorted_perm (map fst (M_Chem.m_assays m))) as P. fold names in P.
  destruct (rows_table (fun c => index_of string_dec c (M_Chem.m_compounds m)) text_of find repr float_of (fun w => Ok (str_of w)) M_Chem.val names (M_Chem.m_compounds m) ls) as (rows & cells & A1 & A2 & A3 & A4); auto.
  { intros c _. now rewrite text_str. } { intros n c x N I S. destruct (stands_has string_dec _ _ find FI n c x N I S) as (a & i & J & _ & X). eapply RT; eauto. eapply nth_error_In; eauto. }
  { intros i c H. eapply index_at; eauto. }
  exists (material_head name names ++ t).
  destruct (chem_file float_of id (h ++ [lf]) (text_of "Compound") (map text_of names) (map (fun l => l ++ [lf]) ls) rows cells (M_Chem.m_elements m)) as (m' & M1 & M2 & M3 & M4 & M5 & M6); auto.
  { now apply says_end. } { apply FinFun.Injective_map_NoDup. - intros x y X. apply (f_equal str_of) in X. now rewrite !text_str in X. - eapply Permutation_NoDup; [exact P|apply F]. }
  { intros X. apply map_eq_nil in X. rewrite X in P. apply Permutation_sym, Permutation_nil, map_eq_nil in P. auto. }
  { now rewrite map_length. } { rewrite A3. exact LI. }
  exists m'. split; [|split; [|split; [|split; [|split]]]]; auto.
  - unfold chem_material. cbv zeta. change (M_Chem.get_compound_index m) with (fun c => index_of string_dec c (M_Chem.m_compounds m)). fold find names. rewrite E. reflexivity.
  - rewrite (lines_are_of _ _ (lines_app _ _ _ _ H1 L)). cbn [map app tl]. exact M1.
  - congruence.
  - rewrite M5, map_map. rewrite (map_ext _ (fun n => n)) by apply text_str. rewrite map_id. now apply Permutation_sym.
  - intros n a I. assert (J : In n names) by (apply (Permutation_in n P); apply in_map_iff; exists (n, a); auto). apply In_nth_error in J. destruct J as [j J].
    rewrite <- (text_str n) at 1. rewrite (M6 j (text_of n)) by (rewrite nth_error_map, J; reflexivity). rewrite (A4 j n a J (FI n a I)); [now rewrite map_map|]. destruct F as (_ & _ & _ & F). apply (F n a I).
Qed.
Print Assumptions C90_chem_reads_back.
Theorem C90_psd_reads_back : forall repr float_of name m id, one_line name -> fitting (fun s => repr (Fin s)) repr (M_Psd.ps_classes m) (M_Psd.ps_assays m) -> M_Psd.ps_assays m <> [] ->
  (forall q, In q (M_Psd.ps_classes m) -> float_of (repr (Fin q)) = Ok q) -> (forall n a x, In (n, a) (M_Psd.ps_assays m) -> In x a -> exists q, x = Fin q /\ float_of (repr (Fin q)) = Ok q) ->
  exists s m', psd_material repr name m = Ok s /\ M_Psd.read_material float_of id (tl (lines_of s)) = Ok m' /\
    M_Psd.ps_classes m' = M_Psd.ps_classes m /\ Permutation (map fst (M_Psd.ps_assays m')) (map fst (M_Psd.ps_assays m)) /\
    forall n a, In (n, a) (M_Psd.ps_assays m) -> M_Psd.find_assay n (M_Psd.ps_assays m') = Ok a.
Proof.
  intros repr float_of name m id O F NE RT FN. set (find := fun n => M_Psd.find_assay n (M_Psd.ps_assays m)).
  assert (FI : forall n a, In (n, a) (M_Psd.ps_assays m) -> find n = Ok a) by (intros; apply find_psd; auto; apply F).
  destruct (table_printed _ repr M_Psd.qdec _ _ find FI F) as (t & ls & E & L & R). set (names := M_Chem.sorted (map fst (M_Psd.ps_assays m))) in *.
  destruct (head_lines name names O) as (h & H1 & H2); [eapply names_fit; eauto|].
  pose proof (sorted_perm (map fst (M_Psd.ps_assays m))) as P. fold names in P. set (val := fun x => match x with Fin q => q | _ => 0%Qc end).
  destruct (rows_table (fun c => index_of M_Psd.qdec c (M_Psd.ps_classes m)) (fun s => repr (Fin s)) find repr float_of float_of val names (M_Psd.ps_classes m) ls) as (rows & cells & A1 & A2 & A3 & A4); auto.
  { intros n c x N I S. destruct (stands_has M_Psd.qdec _ _ find FI n c x N I S) as (a & i & J & _ & X). destruct (FN n a x J) as (q & -> & Q); [eapply nth_error_In; eauto|]. exact Q. }
  { intros i c H. eapply index_at; eauto. }
  exists (material_head name names ++ t).
  destruct (psd_file float_of id (h ++ [lf]) (text_of "Compound") (map text_of names) (map (fun l => l ++ [lf]) ls) rows cells) as (m' & M1 & M2 & M3 & M5 & M6); auto.
  { now apply says_end. } { apply FinFun.Injective_map_NoDup. - intros x y X. apply (f_equal str_of) in X. now rewrite !text_str in X. - eapply Permutation_NoDup; [exact P|apply F]. }
  { intros X. apply map_eq_nil in X. rewrite X in P. apply Permutation_sym, Permutation_nil, map_eq_nil in P. auto. }
  { now rewrite map_length. }
  exists m'. split; [|split; [|split; [|split]]]; auto.
  - unfold psd_material. cbv zeta. change (M_Psd.get_size_class_index m) with (fun c => index_of M_Psd.qdec c (M_Psd.ps_classes m)). fold find names. rewrite E. reflexivity.
  - rewrite (lines_are_of _ _ (lines_app _ _ _ _ H1 L)). cbn [map app tl]. exact M1.
  - congruence.
  - rewrite M5, map_map. rewrite (map_ext _ (fun n => n)) by apply text_str. rewrite map_id. now apply Permutation_sym.
  - intros n a I. assert (J : In n names) by (apply (Permutation_in n P); apply in_map_iff; exists (n, a); auto). apply In_nth_error in J. destruct J as [j J].
    rewrite <- (text_str n) at 1. rewrite (M6 j (text_of n)) by (rewrite nth_error_map, J; reflexivity). rewrite (A4 j n a J (FI n a I)); [|destruct F as (_ & _ & _ & F); apply (F n a I)].
    f_equal. rewrite map_map. rewrite <- (map_id a) at 2. apply map_ext_in. intros x X. destruct (FN n a x I X) as (q & -> & _). reflexivity.
Qed.
Print Assumptions C90_psd_reads_back.

(** A slurry material: two more lines, with the density of the solids and the
    water content of every assay. *)
Definition fits_all (repr : fl -> text) (d : M_Slurry.ndict) (names : list string) : Prop := forall n, In n names -> exists x, M_Slurry.ndict_get d n = Ok x /\ cell 20 (repr x).
Lemma dict_line repr (d : M_Slurry.ndict) names : fits_all repr d names ->
  exists xs, Forall2 (fun n x => M_Slurry.ndict_get d n = Ok x) names xs /\ Forall (cell 20) (map repr xs) /\
    each (fun n => do x <- M_Slurry.ndict_get d n; Ok (ljust 20 (repr x))) names = Ok (concat (map (ljust 20) (map repr xs))).
Proof.
  intros H. destruct (Forall2_of (fun n x => M_Slurry.ndict_get d n = Ok x /\ cell 20 (repr x)) names H) as [xs X]. exists xs. split; [|split].
  - eapply Forall2_weaken; [|exact X]. cbn beta. tauto. - clear H. induction X as [|? ? ? ? [? ?]]; cbn [map]; constructor; auto.
  - apply each_ok. rewrite map_map. clear H. induction X as [|n x ns xs [A B] X IH]; cbn [map]; constructor; auto. now rewrite A.
Qed.
Lemma label_columns label (w1 w2 : text) ws : ljust 20 (text_of label) = w1 ++ " "%char :: ljust (20 - S (length w1)) w2 -> solid w1 -> cell (20 - S (length w1)) w2 -> Forall (cell 20) ws ->
  says (ljust 20 (text_of label) ++ concat (map (ljust 20) ws)) (w1 :: w2 :: ws).
Proof.
  intros E S1 S2 F. apply says_solid.
  - rewrite E, <- app_assoc. cbn [app]. apply hw_solid; auto; [right; eauto|]. apply hw_sep; [now left|]. apply hw_ljust; auto. now apply hw_columns.
  - constructor; auto. constructor; [eapply cell_solid; eauto|]. eapply Forall_impl; [|exact F]. intros; eapply cell_solid; eauto.
Qed.
Ltac chars := let c := fresh in let I := fresh in intros c I; cbn in I; repeat (destruct I as [<-|I]; [first [reflexivity|split; discriminate]|]); destruct I.
Ltac is_cell := split; [discriminate|split; [cbn; lia|chars]].
Lemma slurry_lines repr name m : one_line name -> fitting (fun s => repr (Fin s)) repr (M_Slurry.sl_classes m) (M_Slurry.sl_assays m) ->
  fits_all repr (M_Slurry.sl_densities m) (map fst (M_Slurry.sl_assays m)) -> fits_all repr (M_Slurry.sl_water m) (map fst (M_Slurry.sl_assays m)) ->
  exists s h l1 l2 ls ds ws, let names := M_Chem.sorted (map fst (M_Slurry.sl_assays m)) in
    slurry_material repr name m = Ok s /\ lines_are s ([text_of "Material: name='" ++ name ++ text_of "'"; h; l1; l2] ++ ls) /\
    says h (text_of "Compound" :: map text_of names) /\
    Forall2 (fun n x => M_Slurry.ndict_get (M_Slurry.sl_densities m) n = Ok x) names ds /\ says l1 (text_of "Solid" :: text_of "density" :: map repr ds) /\
    Forall2 (fun n x => M_Slurry.ndict_get (M_Slurry.sl_water m) n = Ok x) names ws /\ says l2 (text_of "H2O" :: text_of "fraction" :: map repr ws) /\
    Forall2 (fun (P : text -> Prop) l => P l) (map (fun c l => exists xs, Forall2 (assay_has (M_Slurry.sl_classes m) (M_Slurry.sl_assays m) c) names xs /\ words_are (repr (Fin c) :: map repr xs) l) (M_Slurry.sl_classes m)) ls.
Proof.
  intros O F FD FW. set (find := fun n => M_Slurry.find_assay n (M_Slurry.sl_assays m)).
  assert (FI : forall n a, In (n, a) (M_Slurry.sl_assays m) -> find n = Ok a) by (intros; apply find_slurry; auto; apply F).
  destruct (table_printed _ repr M_Slurry.qdec _ _ find FI F) as (t & ls & E & L & R). set (names := M_Chem.sorted (map fst (M_Slurry.sl_assays m))) in *.
  assert (P : forall n, In n names -> In n (map fst (M_Slurry.sl_assays m))) by (intros n; apply Permutation_in, Permutation_sym, sorted_perm).
  destruct (head_lines name names O) as (h & H1 & H2); [eapply names_fit; eauto|].
  destruct (dict_line repr (M_Slurry.sl_densities m) names) as (ds & D1 & D2 & D3); [intros n N; auto|].
  destruct (dict_line repr (M_Slurry.sl_water m) names) as (ws & W1 & W2 & W3); [intros n N; auto|].
  eexists. exists h, (ljust 20 (text_of "Solid density") ++ concat (map (ljust 20) (map repr ds))), (ljust 20 (text_of "H2O fraction") ++ concat (map (ljust 20) (map repr ws))), ls, ds, ws. cbv zeta.
  assert (OL : forall label l, one_line (text_of label) -> Forall (cell 20) l -> one_line (ljust 20 (text_of label) ++ concat (map (ljust 20) l))).
  { intros label l OLa Fl. apply one_line_app; [now apply one_line_ljust|]. apply one_line_concat. clear - Fl. induction Fl; cbn [map]; constructor; auto. apply one_line_ljust, one_line_solid. eapply cell_solid; eauto. }
  split; [|split; [|split; [|split; [|split; [|split; [|split]]]]]]; auto.
  - unfold slurry_material. cbv zeta. change (M_Slurry.get_size_class_index m) with (fun c => index_of M_Slurry.qdec c (M_Slurry.sl_classes m)). fold find names. rewrite D3. cbn [bind]. rewrite W3. cbn [bind]. rewrite E. cbn [bind]. reflexivity.
  - match goal with |- lines_are ?x _ => replace x with (material_head name names ++ (ljust 20 (text_of "Solid density") ++ concat (map (ljust 20) (map repr ds))) ++ nl ++ (ljust 20 (text_of "H2O fraction") ++ concat (map (ljust 20) (map repr ws))) ++ nl ++ t) by (rewrite <- !app_assoc; reflexivity) end.
    match goal with |- lines_are _ ([?a; ?b; ?c; ?d] ++ ?l) => change ([a; b; c; d] ++ l) with ([a; b] ++ (c :: d :: l)) end. apply lines_app; auto.
    apply lines_cons; [apply OL; auto; chars|]. apply lines_cons; auto. apply OL; auto; chars.
  - apply label_columns; auto; [split; [discriminate|chars]|is_cell].
  - apply label_columns; auto; [split; [discriminate|chars]|is_cell].
  - eapply rows_read; eauto.
Qed.
Theorem C90_slurry_material : forall repr name m, one_line name -> fitting (fun s => repr (Fin s)) repr (M_Slurry.sl_classes m) (M_Slurry.sl_assays m) ->
  fits_all repr (M_Slurry.sl_densities m) (map fst (M_Slurry.sl_assays m)) -> fits_all repr (M_Slurry.sl_water m) (map fst (M_Slurry.sl_assays m)) ->
  exists s names ds ws, slurry_material repr name m = Ok s /\ Permutation names (map fst (M_Slurry.sl_assays m)) /\ in_order names /\
    Forall2 (fun n x => M_Slurry.ndict_get (M_Slurry.sl_densities m) n = Ok x) names ds /\ Forall2 (fun n x => M_Slurry.ndict_get (M_Slurry.sl_water m) n = Ok x) names ws /\
    reads (table_lines_are (fun s => repr (Fin s)) repr name names
      [words_are (text_of "Solid" :: text_of "density" :: map repr ds); words_are (text_of "H2O" :: text_of "fraction" :: map repr ws)] (M_Slurry.sl_classes m) (M_Slurry.sl_assays m)) s.
Proof.
  intros repr name m O F FD FW. destruct (slurry_lines repr name m O F FD FW) as (s & h & l1 & l2 & ls & ds & ws & E & L & H & D1 & D2 & W1 & W2 & R).
  exists s, (M_Chem.sorted (map fst (M_Slurry.sl_assays m))), ds, ws. split; auto. split; [apply Permutation_sym, sorted_perm|]. split; [apply sorted_increasing; apply F|]. split; auto. split; auto.
  eapply reads_intro; [exact L|]. unfold table_lines_are. cbn [app]. repeat (constructor; auto).
Qed.
Print Assumptions C90_slurry_material.
(** Here the printed table is never a file of the material: the words that the
    reader looks for are spelt differently (slurry.py:100, 112 and 153, 160). *)
Theorem C90_slurry_reads_back_refuted : forall repr float_of name m id, one_line name -> fitting (fun s => repr (Fin s)) repr (M_Slurry.sl_classes m) (M_Slurry.sl_assays m) ->
  fits_all repr (M_Slurry.sl_densities m) (map fst (M_Slurry.sl_assays m)) -> fits_all repr (M_Slurry.sl_water m) (map fst (M_Slurry.sl_assays m)) ->
  exists s, slurry_material repr name m = Ok s /\ M_Slurry.read_material float_of id (tl (lines_of s)) = Err PyException.
Proof.
  intros repr float_of name m id O F FD FW. destruct (slurry_lines repr name m O F FD FW) as (s & h & l1 & l2 & ls & ds & ws & E & L & H & D1 & D2 & W1 & W2 & R).
  exists s. split; auto. rewrite (lines_are_of _ _ L). cbn [map app tl]. unfold M_Slurry.read_material. cbn [prepare_lines map].
  rewrite (read_line_wrong float_of "solid_density" _ (l1 ++ [lf]) (text_of "Solid") (text_of "density" :: map repr ds)); auto; [now apply says_end|discriminate].
Qed.
Print Assumptions C90_slurry_reads_back_refuted.

(** * Cases *)
Definition quarter : Qc := Q2Qc (1 # 4).
Definition three_quarters : Qc := Q2Qc (3 # 4).
Definition ore : M_Chem.material := M_Chem.mkmat 1 ["Fe2O3"; "SiO2"] [("rich", [M_Chem.NFloat three_quarters; M_Chem.NFloat quarter]); ("poor", [M_Chem.NFloat quarter; M_Chem.NFloat three_quarters])] ["Fe"; "O"; "Si"].
Definition number_text (x : Qc) : text := if Qc_eq_dec x quarter then text_of "0.25" else if Qc_eq_dec x three_quarters then text_of "0.75" else text_of "1.2345678901234567e-05".
Definition tiny : Qc := Q2Qc (12345678901234567 # 1000000000000000000000).
Definition text_number (t : text) : res Qc :=
  if list_eq_dec ascii_dec t (text_of "0.25") then Ok quarter else if list_eq_dec ascii_dec t (text_of "0.75") then Ok three_quarters else
  if list_eq_dec ascii_dec t (text_of "1.2345678901234567e-05") then Ok tiny else Err ValueError.
Definition num_text (x : M_Chem.num) : text := number_text (M_Chem.val x).
Lemma ore_fits : fitting text_of num_text (M_Chem.m_compounds ore) (M_Chem.m_assays ore).
Proof.
  split; [|split; [|split]].
  - repeat constructor; cbn; intuition discriminate. - intros c I. cbn in I. repeat destruct I as [<-|I]; [is_cell|is_cell|destruct I]. - repeat constructor; cbn; intuition discriminate.
  - intros n a I. cbn in I. repeat destruct I as [I|I]; [injection I as <- <-|injection I as <- <-|destruct I]; (split; [is_cell|]; split; [reflexivity|]); intros x X; cbn [In] in X; repeat destruct X as [<-|X]; try destruct X;
      (split; [vm_compute; discriminate|split; [vm_compute; lia|]]); intros c C; vm_compute in C; repeat (destruct C as [<-|C]; [reflexivity|]); destruct C.
Qed.
Example C90_chem_material_case : exists s m', chem_material num_text (text_of "Iron ore") ore = Ok s /\
  lines_of s = map (fun l => text_of l ++ [lf]) ["Material: name='Iron ore'"; "Compound            poor                rich                "; "Fe2O3               0.25                0.75                "; "SiO2                0.75                0.25                "] /\
  M_Chem.read_material text_number 7 (tl (lines_of s)) = Ok m' /\ M_Chem.m_compounds m' = ["Fe2O3"; "SiO2"] /\ M_Chem.find_assay "rich" (M_Chem.m_assays m') = Ok [M_Chem.NFloat three_quarters; M_Chem.NFloat quarter].
Proof.
  destruct (C90_chem_reads_back num_text text_number (text_of "Iron ore") ore 7) as (s & m' & A & B & D & _ & _ & F).
  - chars. - exact ore_fits. - discriminate.
  - intros n a x I X. cbn in I. repeat destruct I as [I|I]; [injection I as <- <-|injection I as <- <-|destruct I]; cbn [In] in X; repeat destruct X as [<-|X]; try destruct X; vm_compute; reflexivity.
  - vm_compute. reflexivity.
  - exists s, m'. split; auto. split.
    + assert (X : chem_material num_text (text_of "Iron ore") ore = Ok (concat (map (fun l => text_of l ++ [lf]) ["Material: name='Iron ore'"; "Compound            poor                rich                "; "Fe2O3               0.25                0.75                "; "SiO2                0.75                0.25                "]))) by (vm_compute; reflexivity).
      rewrite X in A. injection A as <-. vm_compute. reflexivity.
    + split; auto. split; auto. apply (F "rich" [M_Chem.NFloat three_quarters; M_Chem.NFloat quarter]). cbn. auto.
Qed.
(** A number of 20 characters or more runs into the next column: the line then has
    too few words and the reader drops the compound without an error. *)
Theorem C90_wide_number_refuted : exists m s m', M_Chem.m_compounds m = ["Fe2O3"; "SiO2"] /\ (forall n a, In (n, a) (M_Chem.m_assays m) -> length a = 2%nat /\ forall x, In x a -> text_number (num_text x) = Ok (M_Chem.val x)) /\
  chem_material num_text (text_of "Iron ore") m = Ok s /\ M_Chem.read_material text_number 7 (tl (lines_of s)) = Ok m' /\ M_Chem.m_compounds m' = ["SiO2"].
Proof.
  exists (M_Chem.mkmat 1 ["Fe2O3"; "SiO2"] [("rich", [M_Chem.NFloat tiny; M_Chem.NFloat quarter]); ("waste", [M_Chem.NFloat quarter; M_Chem.NFloat three_quarters])] ["Fe"; "O"; "Si"]). do 2 eexists. split; [reflexivity|]. split; [|split; [vm_compute; reflexivity|split; [vm_compute; reflexivity|vm_compute; reflexivity]]].
  intros n a I. cbn in I. repeat destruct I as [I|I]; [injection I as <- <-|injection I as <- <-|destruct I]; (split; [reflexivity|]); intros x X; cbn [In] in X; repeat destruct X as [<-|X]; try destruct X; vm_compute; reflexivity.
Qed.
Print Assumptions C90_wide_number_refuted.
Definition fl_number (x : fl) : text := match x with Fin q => number_text q | _ => text_of "nan" end.
Example C90_psd_material_case : exists s m', psd_material fl_number (text_of "Sand") (M_Psd.mkpsm 1 [quarter; three_quarters] [("A", [Fin three_quarters; Fin quarter])]) = Ok s /\
  M_Psd.read_material text_number 7 (tl (lines_of s)) = Ok m' /\ M_Psd.ps_classes m' = [quarter; three_quarters] /\ M_Psd.find_assay "A" (M_Psd.ps_assays m') = Ok [Fin three_quarters; Fin quarter].
Proof.
  destruct (C90_psd_reads_back fl_number text_number (text_of "Sand") (M_Psd.mkpsm 1 [quarter; three_quarters] [("A", [Fin three_quarters; Fin quarter])]) 7) as (s & m' & A & B & D & _ & F).
  - chars.
  - assert (Q : forall q, q = quarter \/ q = three_quarters -> cell 20 (fl_number (Fin q))).
    { intros q [-> | ->]; (split; [vm_compute; discriminate|split; [vm_compute; lia|]]); intros c C; vm_compute in C; repeat (destruct C as [<-|C]; [reflexivity|]); destruct C. }
    cbn [M_Psd.ps_classes M_Psd.ps_assays]. split; [|split; [|split]].
    + constructor; [|constructor; [intros []|constructor]]. intros [H|[]]. apply (f_equal (fun x : Qc => Qnum x)) in H. vm_compute in H. discriminate.
    + intros c [<-|[<-|[]]]; auto. + repeat constructor; cbn; auto. + intros n a [I|[]]. injection I as <- <-. split; [is_cell|]. split; [reflexivity|]. intros x [<-|[<-|[]]]; auto.
  - discriminate. - intros q [<-|[<-|[]]]; vm_compute; reflexivity.
  - intros n a x [I|[]] X. injection I as <- <-. destruct X as [<-|[<-|[]]]; eexists; (split; [reflexivity|vm_compute; reflexivity]).
  - exists s, m'. split; auto. split; auto. split; auto. apply (F "A"). cbn. auto.
Qed.
Definition gravel : M_Slurry.material := M_Slurry.mkslm 1 [quarter; three_quarters] [("A", [Fin three_quarters; Fin quarter])] [("A", Fin three_quarters)] [("A", Fin quarter)].
Example C90_slurry_material_case : exists s, slurry_material fl_number (text_of "Sand") gravel = Ok s /\ M_Slurry.read_material text_number 7 (tl (lines_of s)) = Err PyException.
Proof.
  apply C90_slurry_reads_back_refuted.
  - chars.
  - assert (Q : forall q, q = quarter \/ q = three_quarters -> cell 20 (fl_number (Fin q))).
    { intros q [-> | ->]; (split; [vm_compute; discriminate|split; [vm_compute; lia|]]); intros c C; vm_compute in C; repeat (destruct C as [<-|C]; [reflexivity|]); destruct C. }
    unfold gravel. cbn [M_Slurry.sl_classes M_Slurry.sl_assays]. split; [|split; [|split]].
    + constructor; [|constructor; [intros []|constructor]]. intros [H|[]]. apply (f_equal (fun x : Qc => Qnum x)) in H. vm_compute in H. discriminate.
    + intros c [<-|[<-|[]]]; auto. + repeat constructor; cbn; auto. + intros n a [I|[]]. injection I as <- <-. split; [is_cell|]. split; [reflexivity|]. intros x [<-|[<-|[]]]; auto.
  - intros n [<-|[]]. eexists. split; [reflexivity|]. split; [vm_compute; discriminate|split; [vm_compute; lia|]]; intros c C; vm_compute in C; repeat (destruct C as [<-|C]; [reflexivity|]); destruct C.
  - intros n [<-|[]]. eexists. split; [reflexivity|]. split; [vm_compute; discriminate|split; [vm_compute; lia|]]; intros c C; vm_compute in C; repeat (destruct C as [<-|C]; [reflexivity|]); destruct C.
Qed.
