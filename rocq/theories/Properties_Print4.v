(** C90: what printed thermo materials show, and what goes wrong. *)
From Verif Require Import Prelude M_Stoichiometry M_Text M_Lists M_Csv M_Tables M_Thermochem M_ThermoMat M_Streams M_Print Spec_Stoich Spec_Thermo Spec_ThermoMat Spec_Text Spec_File Spec_Tables Spec_Print.
From Verif Require Import P_Convert P_Content P_Text P_File P_ThermoMat P_Print P_Print2 P_Print3 P_Print4 Properties_Print Properties_Print3.
From Verif Require M_Chem Properties_ThermoMat Properties_CoalStream P_ThermoElem.
From Coq Require Import Reals Lra Permutation.
Local Open Scope string_scope.
Local Open Scope list_scope.
Local Open Scope R_scope.

(** What can be printed well: names that fit their columns, every assay with one
    number per compound; if there are custom properties, every assay has them all. *)
Definition printable_material (name : text) (m : material) : Prop :=
  one_line name /\ NoDup (tm_compounds m) /\ (forall c, In c (tm_compounds m) -> cell 20 (text_of c)) /\ NoDup (map fst (tm_assays m)) /\
  (forall n a, In (n, a) (tm_assays m) -> cell 16 (text_of n) /\ length a = length (tm_compounds m)) /\
  (tm_properties m <> [] -> tm_assays m <> [] /\ Permutation (map fst (tm_custom m)) (map fst (tm_assays m)) /\ (forall k, In k (tm_properties m) -> cell 20 (text_of k)) /\
     forall n d, In (n, d) (tm_custom m) -> NoDup (map fst d) /\ forall k, In k (map fst d) <-> In k (tm_properties m)).
(** A line: a name, and the numbers [xs] to nine digits. *)
Definition numbers_line (k : string) (xs : list R) (l : text) : Prop := exists ts, Forall2 shows9 xs ts /\ words_are (text_of k :: ts) l.
(** The sum of an assay. *)
Definition assay_sum (m : material) (n : string) (x : R) : Prop := exists a, In (n, a) (tm_assays m) /\ x = rsum a.
Definition custom_is (m : material) (k n : string) (x : R) : Prop := exists d, In (n, d) (tm_custom m) /\ In (k, x) d.
(** The lines of the composition and of the custom properties; all names in
    alphabetical order. *)
Definition composition (m : material) (names cs : list string) : list (text -> Prop) :=
  (match tm_assays m with [] => [] | _ => [eq (text_of "Composition Details (mass fractions)")] end) ++
  [words_are (text_of "Compound" :: map text_of names); ruled "-"%char] ++
  map (fun c l => exists xs, Forall2 (assay_has (tm_compounds m) (tm_assays m) c) names xs /\ numbers_line c xs l) cs ++
  [fun l => exists xs, Forall2 (assay_sum m) names xs /\ numbers_line "Total" xs l].
Definition custom_table (m : material) (names ks : list string) : list (text -> Prop) :=
  match tm_properties m with [] => [] | _ => [ruled "-"%char; eq (text_of "Custom Properties:"); ruled "-"%char] ++
    map (fun k l => exists xs, Forall2 (custom_is m k) names xs /\ numbers_line k xs l) ks end.

(** * Lines *)
Lemma hw_cells cells ws : Forall2 (fun t w => exists a b, t = spaces a ++ w ++ spaces b) cells ws -> Forall solid ws -> has_words (padded_cells cells) ws.
Proof.
  induction 1 as [|t w cells ws (a & b & ->) H IH]; intros S; [constructor|]. inversion S as [|? ? Sw S']; subst. destruct cells as [|t' cells].
  - inversion H; subst. cbn [padded_cells]. apply hw_blanks. apply hw_solid; auto. + destruct b; [left; reflexivity|right; eexists; reflexivity]. + rewrite <- (app_nil_r (spaces b)). apply hw_blanks. constructor.
  - change (padded_cells ((spaces a ++ w ++ spaces b) :: t' :: cells)) with ((spaces a ++ w ++ spaces b) ++ sp :: sp :: padded_cells (t' :: cells)). rewrite <- !app_assoc. apply hw_blanks.
    replace (spaces b ++ sp :: sp :: padded_cells (t' :: cells)) with (spaces (b + 2) ++ padded_cells (t' :: cells)).
    + apply hw_solid; auto; [apply ends_blanks; lia|]. apply hw_blanks. now apply IH.
    + unfold spaces. rewrite repeat_app, <- app_assoc. reflexivity.
Qed.
Lemma one_line_cells cells : Forall one_line cells -> one_line (padded_cells cells).
Proof.
  induction 1 as [|t cells H F IH]; [apply one_line_nil|]. destruct cells as [|t' cells]; [exact H|]. change (padded_cells (t :: t' :: cells)) with (t ++ sp :: sp :: padded_cells (t' :: cells)).
  apply one_line_app; auto. apply one_line_cons; try discriminate. apply one_line_cons; try discriminate. exact IH.
Qed.
Lemma numbers_ok k xs : cell 20 (text_of k) -> one_line (ljust 20 (text_of k) ++ padded_cells (map (fun x => rjust 15 (sci x)) xs)) /\ numbers_line k xs (ljust 20 (text_of k) ++ padded_cells (map (fun x => rjust 15 (sci x)) xs)).
Proof.
  intros C. split.
  - apply one_line_app; [apply one_line_ljust, one_line_solid; eapply cell_solid; eauto|]. apply one_line_cells. apply Forall_forall. intros t I. apply in_map_iff in I. destruct I as (x & <- & _). apply one_line_rjust, one_line_solid, sci_solid.
  - exists (map sci xs). split; [induction xs; constructor; auto; apply sci_shows|]. apply says_solid; [|constructor; [eapply cell_solid; eauto|apply Forall_forall; intros t I; apply in_map_iff in I; destruct I as (x & <- & _); apply sci_solid]].
    apply hw_ljust; auto. apply hw_cells; [|apply Forall_forall; intros t I; apply in_map_iff in I; destruct I as (x & <- & _); apply sci_solid].
    induction xs as [|x xs IH]; cbn [map]; constructor; auto. exists (15 - length (sci x))%nat, 0%nat. unfold rjust. cbn [spaces repeat]. now rewrite app_nil_r.
Qed.
Lemma names_line names : Forall (fun n => cell 16 (text_of n)) names ->
  let l := ljust 20 (text_of "Compound") ++ padded_cells (map (fun n => ljust 15 (firstn 15 (text_of n))) names) in one_line l /\ words_are (text_of "Compound" :: map text_of names) l.
Proof.
  intros C l. assert (CS : Forall solid (map text_of names)). { apply Forall_forall. intros t I. apply in_map_iff in I. destruct I as (n & <- & I). rewrite Forall_forall in C. eapply cell_solid, C; auto. }
  assert (CC : Forall2 (fun t w => exists a b, t = spaces a ++ w ++ spaces b) (map (fun n => ljust 15 (firstn 15 (text_of n))) names) (map text_of names)).
  { clear CS l. induction C as [|n names (_ & L & _) C IH]; cbn [map]; constructor; auto. exists 0%nat, (15 - length (text_of n))%nat. rewrite firstn_all2 by lia. reflexivity. }
  split.
  - apply one_line_app; [apply one_line_ljust; literal|]. apply one_line_cells. apply Forall_forall. intros t I. apply in_map_iff in I. destruct I as (n & <- & I). apply one_line_ljust. rewrite Forall_forall in C. destruct (C n I) as (_ & L & S). rewrite firstn_all2 by lia.
    apply one_line_solid. eapply cell_solid, C; auto.
  - apply says_solid; [|constructor; auto; apply solid_check; reflexivity]. apply hw_ljust; [|now apply hw_cells]. split; [discriminate|]. split; [cbn; lia|]. apply (solid_check (text_of "Compound")). reflexivity.
Qed.
(** A loop that makes one cell per name. *)
Lemma cells_ok {X} (g : string -> res X) (show : X -> text) (P : string -> X -> Prop) names : (forall n, In n names -> exists x, g n = Ok x /\ P n x) ->
  exists xs, mapM (fun n => do x <- g n; Ok (show x)) names = Ok (map show xs) /\ Forall2 P names xs.
Proof.
  induction names as [|n names IH]; intros H; [exists []; split; [reflexivity|constructor]|]. destruct (H n) as (x & E & Hx); [cbn; auto|]. destruct IH as (xs & E' & F); [intros; apply H; cbn; auto|].
  exists (x :: xs). cbn [mapM]. rewrite E. cbn [bind]. rewrite E'. cbn [bind map]. split; auto.
Qed.
Section Material.
Variables (name : text) (m : material).
Hypothesis V : printable_material name m.
Let names := M_Chem.sorted (map fst (tm_assays m)).
Let cs := M_Chem.sorted (tm_compounds m).
Let cell_of n c := do i <- get_compound_index m c; do a <- find_assay m n; get a i.
Lemma name_assay n : In n names -> exists a, In (n, a) (tm_assays m).
Proof. intros I. apply (Permutation_in n (Permutation_sym (sorted_perm _))) in I. apply in_map_iff in I. destruct I as ([k a] & <- & I). eauto. Qed.
Lemma lookup_found {X} (d : list (string * X)) k x : NoDup (map fst d) -> In (k, x) d -> lookup k d = Some x.
Proof.
  induction d as [|[j v] d IH]; intros N I; [destruct I|]. cbn [map fst lookup] in *. inversion N; subst. destruct I as [I|I]. - injection I as -> ->. now rewrite String.eqb_refl.
  - rewrite (proj2 (String.eqb_neq k j)); auto. intros ->. apply H1. apply in_map_iff. exists (j, x). auto.
Qed.
Lemma find_in n a : In (n, a) (tm_assays m) -> find_assay m n = Ok a.
Proof. intros I. unfold find_assay. destruct V as (_ & _ & _ & N & _). now rewrite (lookup_found _ _ _ N I). Qed.
Lemma cell_in n c : In n names -> In c (tm_compounds m) -> exists x, cell_of n c = Ok x /\ assay_has (tm_compounds m) (tm_assays m) c n x.
Proof.
  intros N I. destruct (name_assay n N) as [a A]. destruct V as (_ & D & _ & _ & L & _). apply In_nth_error in I. destruct I as [i I].
  destruct (nth_error a i) as [x|] eqn:E. - exists x. split; [|exists a, i; auto]. unfold cell_of, get_compound_index. rewrite (index_nth string_dec _ i c D I). cbn [bind]. rewrite (find_in n a A). cbn [bind]. unfold get. now rewrite E.
  - apply nth_error_None in E. apply L in A. assert ((i < length (tm_compounds m))%nat) by (apply nth_error_Some; congruence). lia.
Qed.
Lemma compound_in c : In c cs <-> In c (tm_compounds m).
Proof. unfold cs. split; apply Permutation_in; [apply Permutation_sym|]; apply sorted_perm. Qed.
(** Summing over the compounds in another order. *)
Lemma rsum_perm a b : Permutation a b -> rsum a = rsum b.
Proof. induction 1; cbn [rsum fold_right]; try (fold (rsum l)); try fold (rsum l'); try lra. all: unfold rsum in *; cbn [fold_right]; lra. Qed.
Lemma total_sum n a : In (n, a) (tm_assays m) -> foldM (fun t c => do x <- cell_of n c; Ok (t + x)) cs 0 = Ok (rsum a).
Proof.
  intros A. assert (N : In n names) by (unfold names; eapply Permutation_in; [apply sorted_perm|]; apply in_map_iff; exists (n, a); auto).
  destruct V as (_ & D & _ & _ & L & _). destruct (L n a A) as [_ Ln].
  set (val := fun c => match cell_of n c with Ok x => x | Err _ => 0 end).
  assert (Q : forall l t, (forall c, In c l -> In c (tm_compounds m)) -> foldM (fun t c => do x <- cell_of n c; Ok (t + x)) l t = Ok (t + rsum (map val l))).
  { induction l as [|c l IH]; intros t H; cbn [foldM map]. - f_equal. unfold rsum. cbn. ring. - destruct (cell_in n c N) as (x & E & _); [apply H; cbn; auto|]. assert (Vx : val c = x) by (unfold val; now rewrite E). rewrite E. cbn [bind]. rewrite IH by (intros; apply H; cbn; auto). f_equal. unfold rsum. cbn [fold_right]. rewrite Vx. ring. }
  rewrite Q by (intros c I; now apply compound_in). f_equal. rewrite Rplus_0_l. transitivity (rsum (map val (tm_compounds m))). { apply rsum_perm, Permutation_map, Permutation_sym, sorted_perm. }
  f_equal. apply nth_ext'; [rewrite map_length; auto|]. intros i x y X Y. rewrite nth_error_map in X. destruct (nth_error (tm_compounds m) i) as [c|] eqn:I; [|discriminate]. injection X as <-.
  unfold val, cell_of, get_compound_index. rewrite (index_nth string_dec _ i c D I). cbn [bind]. rewrite (find_in n a A). cbn [bind]. unfold get. now rewrite Y.
Qed.
Lemma names_fit : Forall (fun n => cell 16 (text_of n)) names.
Proof. apply Forall_forall. intros n I. destruct (name_assay n I) as [a A]. destruct V as (_ & _ & _ & _ & L & _). now apply L in A. Qed.
Lemma rows_part : exists t, each (fun c => do cells <- mapM (fun n => do x <- cell_of n c; Ok (rjust 15 (sci x))) names; Ok (ljust 20 (text_of c) ++ padded_cells cells ++ nl)) cs = Ok t /\
  reads (map (fun c l => exists xs, Forall2 (assay_has (tm_compounds m) (tm_assays m) c) names xs /\ numbers_line c xs l) cs) t.
Proof.
  destruct (each_lines (fun c => do cells <- mapM (fun n => do x <- cell_of n c; Ok (rjust 15 (sci x))) names; Ok (ljust 20 (text_of c) ++ padded_cells cells ++ nl))
    (fun c l => exists xs, Forall2 (assay_has (tm_compounds m) (tm_assays m) c) names xs /\ numbers_line c xs l) cs) as (t & ls & E & L & R).
  - intros c I. apply compound_in in I. destruct (cells_ok (fun n => cell_of n c) (fun x => rjust 15 (sci x)) (fun n x => assay_has (tm_compounds m) (tm_assays m) c n x) names) as (xs & Ex & F); [intros n N; now apply cell_in|].
    rewrite Ex. cbn [bind]. destruct (numbers_ok c xs) as [O H]; [destruct V as (_ & _ & Vc & _); now apply Vc|]. eexists. split; [rewrite app_assoc; reflexivity|]. split; [exact O|]. exists xs. auto.
  - exists t. split; auto. exists ls. split; auto. now apply Forall2_map_l.
Qed.
Lemma totals_part : exists xs, mapM (fun n => do t <- foldM (fun t c => do x <- cell_of n c; Ok (t + x)) cs 0; Ok (rjust 15 (sci t))) names = Ok (map (fun x => rjust 15 (sci x)) xs) /\ Forall2 (assay_sum m) names xs.
Proof.
  apply (cells_ok (fun n => foldM (fun t c => do x <- cell_of n c; Ok (t + x)) cs 0) (fun x => rjust 15 (sci x)) (assay_sum m)). intros n N. destruct (name_assay n N) as [a A]. exists (rsum a). split; [now apply total_sum|]. exists a. auto.
Qed.
Lemma line_length_pos : (0 < match tm_assays m with [] => 20 + length name | _ => 20 + (3 + 14) * length (tm_assays m) - 2 end)%nat.
Proof. destruct (tm_assays m); cbn [length]; lia. Qed.
Lemma custom_part len : (0 < len)%nat -> exists t ks,
  (match tm_properties m with
    | [] => Ok []
    | _ => match M_Chem.sorted (map fst (tm_custom m)) with
           | [] => Err IndexError
           | first :: _ =>
             do d <- custom_of m first;
             do ls <- each (fun prop =>
                 do cells <- mapM (fun n => do d' <- custom_of m n;
                                            match lookup prop d' with Some x => Ok (rjust 15 (sci x)) | None => Err KeyError end) names;
                 Ok (ljust 20 (text_of prop) ++ padded_cells cells ++ nl)) (M_Chem.sorted (map fst d));
             Ok (rule "-" len ++ text_of "Custom Properties:" ++ nl ++ rule "-" len ++ ls)
           end
    end) = Ok t /\ NoDup ks /\ (forall k, In k ks <-> In k (tm_properties m)) /\ in_order ks /\ reads (custom_table m names ks) t.
Proof.
  intros LP. destruct V as (_ & _ & _ & Da & _ & H). unfold custom_table. destruct (tm_properties m) as [|pr prs] eqn:EP.
  { exists [], []. split; auto. split; [constructor|]. split; [tauto|]. split; [constructor|]. exists []. split; constructor. }
  destruct H as (Ne & P & K & Q); [discriminate|]. assert (Dc : NoDup (map fst (tm_custom m))) by (eapply Permutation_NoDup; [apply Permutation_sym; exact P|exact Da]).
  assert (CO : forall n d, In (n, d) (tm_custom m) -> custom_of m n = Ok d) by (intros n d I; unfold custom_of; now rewrite (lookup_found _ _ _ Dc I)).
  assert (CN : forall n, In n names -> exists d, In (n, d) (tm_custom m)).
  { intros n I. apply (Permutation_in n (Permutation_sym (sorted_perm _))) in I. apply (Permutation_in n (Permutation_sym P)) in I. apply in_map_iff in I. destruct I as ([k d] & <- & I). eauto. }
  destruct (M_Chem.sorted (map fst (tm_custom m))) as [|first more] eqn:ES.
  { exfalso. apply Ne. pose proof (sorted_perm (map fst (tm_custom m))) as S. rewrite ES in S. apply Permutation_sym, Permutation_nil in S. rewrite S in P. apply Permutation_nil in P. now apply map_eq_nil in P. }
  assert (FI : In first (map fst (tm_custom m))) by (eapply Permutation_in; [apply Permutation_sym, sorted_perm|]; rewrite ES; cbn; auto). apply in_map_iff in FI. destruct FI as ([f d] & Ef & FI). cbn [fst] in Ef. subst f.
  rewrite (CO first d FI). cbn [bind]. destruct (Q first d FI) as [Dd Qd].
  destruct (each_lines (fun prop => do cells <- mapM (fun n => do d' <- custom_of m n; match lookup prop d' with Some x => Ok (rjust 15 (sci x)) | None => Err KeyError end) names; Ok (ljust 20 (text_of prop) ++ padded_cells cells ++ nl))
    (fun k l => exists xs, Forall2 (custom_is m k) names xs /\ numbers_line k xs l) (M_Chem.sorted (map fst d))) as (t & ls & E & L & R).
  - intros k I. apply (Permutation_in k (Permutation_sym (sorted_perm _))) in I. apply Qd in I.
    destruct (cells_ok (fun n => do d' <- custom_of m n; match lookup k d' with Some x => Ok x | None => Err KeyError end) (fun x => rjust 15 (sci x)) (custom_is m k) names) as (xs & Ex & F).
    { intros n N. destruct (CN n N) as [d' I']. destruct (Q n d' I') as [Dd' Qd']. apply Qd' in I. apply in_map_iff in I. destruct I as ([k' x] & Ek & I). cbn [fst] in Ek. subst k'. exists x. rewrite (CO n d' I'). cbn [bind]. rewrite (lookup_found _ _ _ Dd' I). split; auto. exists d'. auto. }
    assert (Em : mapM (fun n => do d' <- custom_of m n; match lookup k d' with Some x => Ok (rjust 15 (sci x)) | None => Err KeyError end) names = Ok (map (fun x => rjust 15 (sci x)) xs)).
    { rewrite <- Ex. clear. induction names as [|n l IH]; auto. cbn [mapM]. rewrite IH. destruct (custom_of m n) as [d'|e]; cbn [bind]; auto. destruct (lookup k d'); reflexivity. }
    rewrite Em. cbn [bind]. destruct (numbers_ok k xs) as [O H]; [apply K; exact I|]. eexists. split; [rewrite app_assoc; reflexivity|]. split; [exact O|]. exists xs. auto.
  - rewrite E. cbn [bind]. eexists. exists (M_Chem.sorted (map fst d)). split; [reflexivity|]. split; [eapply Permutation_NoDup; [apply sorted_perm|exact Dd]|].
    split; [intros k; rewrite <- Qd; split; apply Permutation_in; [apply Permutation_sym|]; apply sorted_perm|]. split; [now apply sorted_increasing|]. cbn [app].
    apply (reads_app [_]); [apply reads_rule; auto; discriminate|]. apply reads_cons; [literal|reflexivity|]. apply (reads_app [_]); [apply reads_rule; auto; discriminate|]. exists ls. split; auto. now apply Forall2_map_l.
Qed.
Lemma material_printed : exists s ks, thermo_material name m = Ok s /\ NoDup ks /\ (forall k, In k ks <-> In k (tm_properties m)) /\ in_order ks /\
  reads ([ruled "="%char; eq (text_of "Material"); ruled "="%char; labelled (text_of "Name") name; ruled "-"%char] ++ composition m names cs ++ custom_table m names ks ++ [ruled "="%char]) s.
Proof.
  unfold thermo_material. cbv zeta. set (len := match tm_assays m with [] => _ | _ => _ end). assert (LP : (0 < len)%nat) by apply line_length_pos. fold names cs.
  destruct rows_part as (rows & E1 & R1). destruct totals_part as (xs & E2 & F2). destruct (custom_part len LP) as (t & ks & E3 & D & K & O & R3).
  unfold cell_of in E1, E2. rewrite E1. cbn [bind]. rewrite E2. cbn [bind]. rewrite E3. cbn [bind]. eexists. exists ks. split; [reflexivity|]. split; [exact D|]. split; [exact K|]. split; [exact O|].
  set (h := ljust 20 (text_of "Compound") ++ padded_cells (map (fun n => ljust 15 (firstn 15 (text_of n))) names)). destruct (names_line names names_fit) as [H1 H2]. fold h in H1, H2.
  set (tot := ljust 20 (text_of "Total") ++ padded_cells (map (fun x => rjust 15 (sci x)) xs)). destruct (numbers_ok "Total" xs) as [T1 T2]. { split; [discriminate|]. split; [cbn; lia|]. apply (solid_check (text_of "Total")). reflexivity. } fold tot in T1, T2.
  set (cd := match tm_assays m with [] => [] | _ => text_of "Composition Details (mass fractions)" ++ nl end).
  match goal with |- reads _ ?whole => replace whole with ((rule "=" len ++ text_of "Material" ++ nl ++ rule "=" len ++ (ljust 20 (text_of "Name") ++ name) ++ nl ++ rule "-" len) ++ (cd ++ (h ++ nl ++ rule "-" len) ++ rows ++ tot ++ nl) ++ t ++ rule "=" len) by (unfold h, tot; rewrite <- !app_assoc; reflexivity) end.
  assert (RU : forall c, c <> "010"%char -> c <> "013"%char -> reads [ruled c] (rule c len)) by (intros; now apply reads_rule).
  apply reads_app; [|apply reads_app; [|apply reads_app; [exact R3|apply RU; discriminate]]].
  - apply (reads_app [_]); [apply RU; discriminate|]. apply reads_cons; [literal|reflexivity|]. apply (reads_app [_]); [apply RU; discriminate|]. apply reads_cons; [apply one_line_app; [apply one_line_ljust; literal|apply V]|apply labelled_ljust; cbn; lia|]. apply RU; discriminate.
  - unfold composition, cd. apply reads_app; [|apply reads_app; [|apply reads_app]].
    + destruct (tm_assays m); [exists []; split; constructor|]. apply reads_one; [literal|reflexivity].
    + apply reads_cons; auto. apply RU; discriminate.
    + exact R1.
    + apply reads_one; auto. exists xs. auto.
Qed.
End Material.
Theorem C90_thermo_material : forall name m, printable_material name m ->
  exists s names cs ks, thermo_material name m = Ok s /\ Permutation names (map fst (tm_assays m)) /\ in_order names /\ Permutation cs (tm_compounds m) /\ in_order cs /\
    NoDup ks /\ (forall k, In k ks <-> In k (tm_properties m)) /\ in_order ks /\
    reads ([ruled "="%char; eq (text_of "Material"); ruled "="%char; labelled (text_of "Name") name; ruled "-"%char] ++ composition m names cs ++ custom_table m names ks ++ [ruled "="%char]) s.
Proof.
  intros name m V. destruct (material_printed name m V) as (s & ks & E & D & K & O & R). exists s, (M_Chem.sorted (map fst (tm_assays m))), (M_Chem.sorted (tm_compounds m)), ks. split; auto.
  split; [apply Permutation_sym, sorted_perm|]. split; [apply sorted_increasing; apply V|]. split; [apply Permutation_sym, sorted_perm|]. split; [apply sorted_increasing; apply V|]. auto.
Qed.
Print Assumptions C90_thermo_material.

(** * What goes wrong *)
(** An assay added to a material with custom properties: it cannot be printed any more. *)
Lemma mapM_key {A B} (f : A -> res B) l x : In x l -> (forall y, In y l -> is_ok (f y) = true \/ f y = Err KeyError) -> f x = Err KeyError -> mapM f l = Err KeyError.
Proof.
  induction l as [|y l IH]; intros I H E; [destruct I|]. cbn [mapM]. destruct (H y) as [O|O]; [cbn; auto| |now rewrite O].
  destruct (f y) as [b|e] eqn:Ey; [|discriminate]. cbn [bind]. destruct I as [->|I]; [congruence|]. rewrite IH; auto. intros; apply H; cbn; auto.
Qed.
Theorem C90_added_assay_refuted : forall name m n a m', printable_material name m -> tm_properties m <> [] -> cell 16 (text_of n) -> add_assay m n a = Ok m' -> thermo_material name m' = Err KeyError.
Proof.
  intros name m n a m' V NP C H. unfold add_assay in H. destruct (Nat.eqb_spec (length a) (length (tm_compounds m))) as [L|]; [|discriminate]. cbn [negb] in H. destruct (lookup n (tm_assays m)) eqn:LN; [discriminate|]. injection H as <-.
  set (m' := mktm _ _ _ _ _ _). set (m0 := mktm (tm_id m) (tm_compounds m) (tm_assays m ++ [(n, a)]) [] (tm_custom m) (tm_elements m)).
  assert (NI : ~ In n (map fst (tm_assays m))). { clear - LN. induction (tm_assays m) as [|[k v] l IH]; intros []; cbn [lookup map fst] in *. - subst. now rewrite String.eqb_refl in LN. - destruct (String.eqb n k); [discriminate|]. now apply IH. }
  assert (V0 : printable_material name m0).
  { destruct V as (O & D & Cc & Dn & F & _). split; auto. split; auto. split; auto. split; [cbn [m0 tm_assays]; rewrite map_app; cbn [map fst]; apply (Permutation_NoDup (Permutation_cons_append _ _)); now constructor|]. split; [|cbn; congruence].
    cbn [m0 tm_assays tm_compounds]. intros k b I. apply in_app_or in I. destruct I as [I|[I|[]]]; [now apply F|]. injection I as <- <-. auto. }
  destruct (rows_part name m0 V0) as (rows & E1 & _). destruct (totals_part name m0 V0) as (xs & E2 & _).
  unfold thermo_material. cbv zeta. change (tm_assays m') with (tm_assays m0). change (tm_compounds m') with (tm_compounds m0). change (get_compound_index m') with (get_compound_index m0). change (find_assay m') with (find_assay m0). rewrite E1. cbn [bind]. rewrite E2. cbn [bind].
  destruct V as (_ & _ & _ & Dn & _ & Q). destruct (Q NP) as (Ne & P & K & Qd). change (tm_properties m') with (tm_properties m). change (tm_custom m') with (tm_custom m).
  destruct (tm_properties m) as [|k0 ks0] eqn:EP; [congruence|].
  destruct (M_Chem.sorted (map fst (tm_custom m))) as [|first more] eqn:ES.
  { exfalso. apply Ne. pose proof (sorted_perm (map fst (tm_custom m))) as S. rewrite ES in S. apply Permutation_sym, Permutation_nil in S. rewrite S in P. apply Permutation_nil in P. now apply map_eq_nil in P. }
  assert (Dc : NoDup (map fst (tm_custom m))) by (eapply Permutation_NoDup; [apply Permutation_sym; exact P|exact Dn]).
  assert (FI : In first (map fst (tm_custom m))) by (eapply Permutation_in; [apply Permutation_sym, sorted_perm|]; rewrite ES; cbn; auto). apply in_map_iff in FI. destruct FI as ([f d] & Ef & FI). cbn [fst] in Ef. subst f.
  assert (CO : custom_of m' first = Ok d) by (unfold custom_of; change (tm_custom m') with (tm_custom m); now rewrite (lookup_found _ _ _ Dc FI)). rewrite CO. cbn [bind].
  assert (SK : exists k, In k (M_Chem.sorted (map fst d))) by (exists k0; eapply Permutation_in; [apply sorted_perm|]; apply (Qd first d FI); cbn; auto).
  assert (KE : forall k, mapM (fun n0 => do d' <- custom_of m' n0; match lookup k d' with Some x => Ok (rjust 15 (sci x)) | None => Err KeyError end) (M_Chem.sorted (map fst (tm_assays m0))) = Err KeyError).
  { intros k. apply (mapM_key _ _ n).
    - eapply Permutation_in; [apply sorted_perm|]. cbn [m0 tm_assays]. rewrite map_app. apply in_or_app. right. cbn. auto.
    - intros y _. unfold custom_of. destruct (lookup y (tm_custom m')) as [d'|]; cbn [bind]; auto. destruct (lookup k d'); auto.
    - unfold custom_of. change (tm_custom m') with (tm_custom m). replace (lookup n (tm_custom m)) with (@None (list (string * R))); [reflexivity|]. symmetry.
      assert (NC : ~ In n (map fst (tm_custom m))) by (intros I; apply NI; eapply Permutation_in; eauto). clear - NC. induction (tm_custom m) as [|[k v] l IH]; auto. cbn [lookup map fst] in *. rewrite (proj2 (String.eqb_neq n k)); [apply IH|]; intros X; apply NC; cbn; auto. }
  destruct SK as [k SK]. destruct (M_Chem.sorted (map fst d)) as [|k1 kr]; [destruct SK|]. unfold each. cbn [mapM]. rewrite KE. reflexivity.
Qed.
Print Assumptions C90_added_assay_refuted.
(** A coal stream without a heating value: it can be made but not printed. *)
Theorem C90_coal_stream_refuted : forall db m n f P T norm s name props F, create_stream db m (Some n) f P T norm = Ok s -> is_coal m n = Ok true -> get_HHV m n = Ok None ->
  wf (s_body s) -> (forall c, In c (tm_compounds m) -> proper c (F c) /\ has_atoms (F c)) -> thermo_stream name s props = Err TypeError.
Proof.
  intros db m n f P T norm s name props F H C Hh W G. unfold create_stream in H. destruct (if norm then _ else _) as [t|e]; cbn [bind] in H; [|discriminate]. destruct (find_assay m n) as [a|e]; cbn [bind] in H; [|discriminate].
  destruct (mapM _ a) as [ms|e]; cbn [bind] in H; [|discriminate]. rewrite C, Hh in H. cbn [bind] in H. pose proof (P_Streams.new_stream_shape _ _ _ _ _ _ _ _ H) as (H0 & B & _).
  assert (X : tp_coal (s_body s) = true /\ tp_HHV (s_body s) = None /\ tp_material (s_body s) = m) by (rewrite B; auto). destruct X as (X1 & X2 & X3). rewrite <- X3 in G.
  unfold thermo_stream, get_afr. cbv zeta. rewrite (P_ThermoElem.get_amount_ok _ F W G). cbn [bind]. now rewrite X1, X2.
Qed.
Print Assumptions C90_coal_stream_refuted.
(** Assay names are cut to 15 characters: two materials with different assays print the same. *)
Theorem C90_cut_names_refuted : exists m m', thermo_material (text_of "Ore") m = thermo_material (text_of "Ore") m' /\ is_ok (thermo_material (text_of "Ore") m) = true /\
  map fst (tm_assays m) = ["Upper bench, run 1"] /\ map fst (tm_assays m') = ["Upper bench, run 2"] /\ tm_compounds m = ["FeO"] /\ tm_compounds m' = ["FeO"].
Proof.
  exists (mktm 1 ["FeO"] [("Upper bench, run 1", [1])] [] [("Upper bench, run 1", [])] ["Fe"; "O"]), (mktm 2 ["FeO"] [("Upper bench, run 2", [1])] [] [("Upper bench, run 2", [])] ["Fe"; "O"]).
  split; [reflexivity|]. split; [reflexivity|]. repeat split.
Qed.
Print Assumptions C90_cut_names_refuted.

(** * Cases *)
Definition metal_formula (c : string) : formula := match check c with Some f => f | None => mkformula [] None None end.
Lemma cell_check n t : (negb (Nat.eqb (length t) 0) && Nat.ltb (length t) n && forallb (fun c => negb (is_space c)) t)%bool = true -> cell n t.
Proof. intros H. apply andb_true_iff in H. destruct H as [H B]. apply andb_true_iff in H. destruct H as [H L]. apply Nat.ltb_lt in L. destruct (solid_check t) as [X Y]; [now rewrite H, B|]. split; auto. Qed.
Example C90_thermo_package_case : printable (text_of "Liquid metals") (Properties_ThermoMat.charge 2 0 1200) metal_formula [("purity", 0.99); ("grade", 2)] /\ mass_of (Properties_ThermoMat.charge 2 0 1200) = 2.
Proof.
  split; [|rewrite Properties_ThermoMat.charge_mass; lra]. split; [literal|]. split; [apply Properties_ThermoMat.charge_wf|]. split; [apply Properties_ThermoMat.charge_nonneg; lra|]. split; [|split].
  - intros c I. cbn in I. destruct I as [<-|[<-|[]]]; (split; [apply cell_check; reflexivity|]).
    + assert (E : check "Ag[L]" = Some (metal_formula "Ag[L]")) by (vm_compute; reflexivity). split; [now apply check_proper|]. exists "Ag". vm_compute. reflexivity.
    + assert (E : check "Al[L]" = Some (metal_formula "Al[L]")) by (vm_compute; reflexivity). split; [now apply check_proper|]. exists "Al". vm_compute. reflexivity.
  - repeat constructor; cbn; intuition discriminate.
  - intros k I. cbn in I. destruct I as [<-|[<-|[]]]; apply cell_check; reflexivity.
Qed.
Definition slag : material := mktm 5 ["SiO2"; "FeO"] [("A", [0.25; 0.75]); ("B", [1; 0])] ["Grade"; "Grade"] [("A", [("Grade", 2)]); ("B", [("Grade", 3)])] ["Fe"; "O"; "Si"].
Example C90_thermo_material_case : printable_material (text_of "Slag") slag /\ exists m', add_assay slag "C" [1; 1] = Ok m'.
Proof.
  split; [|eexists; reflexivity]. split; [literal|]. split; [repeat constructor; cbn; intuition discriminate|]. split; [intros c I; cbn in I; destruct I as [<-|[<-|[]]]; apply cell_check; reflexivity|]. split; [repeat constructor; cbn; intuition discriminate|]. split.
  - intros n a I. cbn in I. destruct I as [I|[I|[]]]; injection I as <- <-; (split; [apply cell_check; reflexivity|reflexivity]).
  - intros _. split; [discriminate|]. split; [apply Permutation_refl|]. split; [intros k I; cbn in I; destruct I as [<-|[<-|[]]]; apply cell_check; reflexivity|].
    intros n d I. cbn in I. destruct I as [I|[I|[]]]; injection I as <- <-; (split; [repeat constructor; cbn; tauto|intros k; cbn; tauto]).
Qed.
From Verif Require Import P_Data Properties_CoalStream.
Example C90_coal_stream_case : exists s F, create_stream rao (coal_material []) (Some "A") 6 1 25 true = Ok s /\ is_coal (coal_material []) "A" = Ok true /\ get_HHV (coal_material []) "A" = Ok None /\
  wf (s_body s) /\ forall c, In c (tm_compounds (coal_material [])) -> proper c (F c) /\ has_atoms (F c).
Proof.
  destruct (C64_example None 0 25) as ((W & K & Fo & Pk & N & D & C) & IC & GH). change (coal_material []) with (tp_material (coal None 0 25)).
  assert (E : exists s, new_stream rao (coal_material []) [4; 1; 1] 1 25 true None = Ok s).
  { unfold new_stream, put_HHV. cbn [s_body]. unfold set_HHV. cbn [tp_coal tp_material tp_masses tp_P tp_T tp_H]. change (mktp (coal_material []) [4; 1; 1] 1 25 0 true None) with (coal None 0 25).
    rewrite (P_CoalStream.DH298_none rao _ coal_formula W K Fo Pk) by (auto; lra). unfold done. cbn [snd fst bind]. destruct (Rlt_dec _ _); [|eauto].
    unfold calculate_Hfr. cbn [s_body]. rewrite C. erewrite (P_CoalStream.Hfr_coal_ok rao _ coal_formula 25); cbn [s_body s_DH298]; eauto; [cbn [bind]; eauto|lra]. }
  destruct E as [s E]. exists s, metal_formula. split; [|split; [exact IC|split; [exact GH|split]]].
  - unfold create_stream. replace (get_assay_total (tp_material (coal None 0 25)) "A") with (Ok (A := R) 6) by (unfold get_assay_total; cbn; f_equal; lra). cbn [bind]. change (find_assay (tp_material (coal None 0 25)) "A") with (Ok [4; 1; 1]). cbn [bind mapM]. unfold ndiv. destruct (Req_EM_T 6 0); [lra|]. cbn [bind].
    rewrite IC, GH. cbn [bind]. rewrite <- E. f_equal. f_equal; [lra|]. f_equal; [lra|]. f_equal. lra.
  - pose proof (P_Streams.new_stream_shape _ _ _ _ _ _ _ _ E) as (H0 & B & _). rewrite B. split; [apply W|reflexivity].
  - intros c I. assert (X : check c = Some (metal_formula c) /\ has_atoms (metal_formula c)).
    { cbn in I. destruct I as [<-|[<-|[<-|[]]]]; (split; [vm_compute; reflexivity|]); [exists "C"|exists "H"|exists "O"]; vm_compute; reflexivity. }
    destruct X as [X A]. split; auto. now apply check_proper.
Qed.
