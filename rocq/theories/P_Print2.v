(** Proofs about printed tables of materials and packages. *)
From Verif Require Import Prelude M_Stoichiometry M_Text M_Lists M_Csv M_Print Spec_Text Spec_File Spec_Print P_Text P_File P_Convert P_Print P_Content.
Local Open Scope list_scope.

Lemma Forall2_of {A B} (P : A -> B -> Prop) l : (forall x, In x l -> exists y, P x y) -> exists l', Forall2 P l l'.
Proof. induction l as [|x l IH]; intros H; [exists []; constructor|]. destruct (H x (or_introl eq_refl)) as [y Y]. destruct IH as [l' L]; [intros; apply H; cbn; auto|]. exists (y :: l'). now constructor. Qed.
Lemma Forall2_nth {A B} (P : A -> B -> Prop) l l' : Forall2 P l l' -> forall i a, nth_error l i = Some a -> exists b, nth_error l' i = Some b /\ P a b.
Proof. induction 1 as [|x y l l' R F IH]; intros [|i] a H1; cbn [nth_error] in *; try discriminate. - injection H1 as <-. eauto. - eauto. Qed.
Lemma Forall2_length {A B} (P : A -> B -> Prop) l l' : Forall2 P l l' -> length l = length l'.
Proof. induction 1; cbn; congruence. Qed.
Lemma nth_ext' {A} (l l' : list A) : length l = length l' -> (forall i a b, nth_error l i = Some a -> nth_error l' i = Some b -> a = b) -> l = l'.
Proof.
  revert l'. induction l as [|a l IH]; intros [|b l'] L H; cbn in L; try discriminate; auto. f_equal; [apply (H 0%nat); reflexivity|]. apply IH; [lia|]. intros i x y X Y. apply (H (S i)); auto.
Qed.

Section T.
Context {C A : Type} (index : C -> res nat) (show_c : C -> text) (assay : string -> res (list A)) (show : A -> text).
(** [stands n c x]: assay [n] has [x] for [c]. *)
Definition stands (c : C) (n : string) (x : A) : Prop := exists a i, assay n = Ok a /\ index c = Ok i /\ nth_error a i = Some x.
Definition row_of (names : list string) (c : C) (l : text) : Prop := exists xs, Forall2 (stands c) names xs /\ Forall (fun x => cell 20 (show x)) xs /\ says l (show_c c :: map show xs).
Lemma rows_ok names cs : (forall c, In c cs -> cell 20 (show_c c) /\ exists i, index c = Ok i) ->
  (forall n c, In n names -> In c cs -> exists x, stands c n x /\ cell 20 (show x)) ->
  exists t ls, material_rows index show_c assay show names cs = Ok t /\ lines_are t ls /\ Forall2 (row_of names) cs ls.
Proof.
  intros H1 H2. apply each_lines. intros c I. destruct (H1 c I) as [Cc [i Ei]].
  destruct (Forall2_of (fun n x => stands c n x /\ cell 20 (show x)) names) as [xs X]; [intros n N; auto|].
  assert (Cx : Forall (cell 20) (map show xs)). { clear H1 H2 Ei Cc I. induction X as [|? ? ? ? [_ ?]]; cbn [map]; constructor; auto. }
  assert (X1 : Forall2 (stands c) names xs) by (eapply Forall2_weaken; [|exact X]; cbn beta; tauto).
  assert (E : each (fun n => do a <- assay n; do x <- get a i; Ok (ljust 20 (show x))) names = Ok (concat (map (ljust 20) (map show xs)))).
  { apply each_ok. rewrite map_map. clear - X1 Ei. induction X1 as [|n x l xs (a & j & Xa & Xj & Xn) X1 IH]; cbn [map]; constructor; auto. rewrite Xa. cbn [bind].
    rewrite Ei in Xj. injection Xj as <-. unfold get. now rewrite Xn. }
  exists (concat (map (ljust 20) (show_c c :: map show xs))). split; [|split].
  - rewrite Ei. cbn [bind]. rewrite E. cbn [bind map concat]. now rewrite <- app_assoc.
  - apply one_line_concat. assert (F : Forall (cell 20) (show_c c :: map show xs)) by (constructor; auto). clear - F.
    induction F as [|w ws W F IH]; cbn [map]; constructor; auto. apply one_line_ljust, one_line_solid. eapply cell_solid; eauto.
  - exists xs. split; auto. split. + now rewrite Forall_map in Cx. + apply says_solid. * apply hw_columns. now constructor. * constructor; [eapply cell_solid; eauto|]. eapply Forall_impl; [|exact Cx]. intros; eapply cell_solid; eauto.
Qed.
(** The first two lines. *)
Lemma head_lines name names : one_line name -> Forall (fun n => cell 20 (text_of n)) names ->
  exists h, lines_are (material_head name names) [text_of "Material: name='" ++ name ++ text_of "'"; h] /\ says h (text_of "Compound" :: map text_of names).
Proof.
  intros N F. exists (ljust 20 (text_of "Compound") ++ concat (map (fun n => ljust 20 (text_of n)) names)).
  assert (K : cell 20 (text_of "Compound")). { split; [discriminate|]. split; [cbn; lia|]. intros c I. cbn in I. repeat destruct I as [<-|I]; try reflexivity. destruct I. }
  assert (F' : Forall (cell 20) (text_of "Compound" :: map text_of names)) by (constructor; auto; now rewrite Forall_map).
  assert (E : ljust 20 (text_of "Compound") ++ concat (map (fun n => ljust 20 (text_of n)) names) = concat (map (ljust 20) (text_of "Compound" :: map text_of names))).
  { cbn [map concat]. now rewrite map_map. }
  split.
  - replace (material_head name names) with ((text_of "Material: name='" ++ name ++ text_of "'") ++ nl ++ ((ljust 20 (text_of "Compound") ++ concat (map (fun n => ljust 20 (text_of n)) names)) ++ nl)) by (unfold material_head; rewrite <- !app_assoc; reflexivity).
    apply lines_cons.
    + apply one_line_app; [|apply one_line_app; auto]; intros c I; cbn in I; repeat (destruct I as [<-|I]; [split; discriminate|]); destruct I.
    + apply lines_one. rewrite E. apply one_line_concat. clear - F'. induction F' as [|w ws W F IH]; cbn [map]; constructor; auto. apply one_line_ljust, one_line_solid. eapply cell_solid; eauto.
  - rewrite E. apply says_solid; [now apply hw_columns|]. eapply Forall_impl; [|exact F']. intros; eapply cell_solid; eauto.
Qed.
(** The rows say a table. *)
Lemma rows_table float_of (read_first : text -> res C) (val : A -> Qc) names cs ls :
  (forall c, In c cs -> read_first (show_c c) = Ok c) -> (forall n c x, In n names -> In c cs -> stands c n x -> float_of (show x) = Ok (val x)) ->
  (forall i c, nth_error cs i = Some c -> index c = Ok i) ->
  Forall2 (row_of names) cs ls ->
  exists rows cells, Forall2 says (map (fun l => l ++ [lf]) ls) rows /\ table_of float_of read_first (length names) rows cells /\ map fst cells = cs /\
    forall j n a, nth_error names j = Some n -> assay n = Ok a -> length a = length cs -> col cells j = map val a.
Proof.
  intros R1 R2 R3 F.
  assert (G : exists rows cells, Forall2 says (map (fun l => l ++ [lf]) ls) rows /\ table_of float_of read_first (length names) rows cells /\ map fst cells = cs /\
    Forall (fun cell => exists xs, Forall2 (stands (fst cell)) names xs /\ snd cell = map val xs) cells).
  { clear R3. induction F as [|c l cs ls (xs & X1 & X2 & X3) F IH].
    - exists [], []. cbn [map]. repeat split; constructor.
    - destruct IH as (rows & cells & A1 & A2 & A3 & A4); [intros; apply R1; cbn; auto|intros n d x N D; apply (R2 n d x N); cbn; auto|].
      exists ((show_c c :: map show xs) :: rows), ((c, map val xs) :: cells). cbn [map fst]. split; [constructor; auto; now apply says_end|]. split; [|split].
      + apply to_full; auto. * rewrite map_length. now rewrite (Forall2_length _ _ _ X1). * apply R1. cbn. auto.
        * rewrite (Forall2_length _ _ _ X1). rewrite firstn_all2 by (now rewrite map_length). assert (Q : Forall (fun x => float_of (show x) = Ok (val x)) xs).
          { assert (B : forall n x, In n names -> stands c n x -> float_of (show x) = Ok (val x)) by (intros n x N; apply R2; cbn; auto). clear - B X1. induction X1 as [|n x ns xs Sx X1 IH]; constructor.
            - apply (B n); cbn; auto. - apply IH. intros m y M. apply B. cbn. auto. }
          clear - Q. induction Q; cbn [map]; constructor; auto.
      + now rewrite A3. + constructor; auto. exists xs. auto. }
  destruct G as (rows & cells & A1 & A2 & A3 & A4). exists rows, cells. do 3 (split; auto). intros j n a J Ea L. subst cs. rewrite map_length in L. unfold col. apply nth_ext'; [now rewrite !map_length|].
  intros i x y X Y. rewrite nth_error_map in X, Y. destruct (nth_error cells i) as [[c zs]|] eqn:Ec; [|discriminate]. destruct (nth_error a i) as [v|] eqn:Ev; [|discriminate]. cbn [option_map snd] in X, Y.
  injection X as <-. injection Y as <-. rewrite Forall_forall in A4. destruct (A4 _ (nth_error_In _ _ Ec)) as (xs & S & E). cbn [fst snd] in S, E. subst zs.
  destruct (Forall2_nth _ _ _ S j n J) as (v' & V & a' & i' & B1 & B2 & B3). rewrite (R3 i c) in B2 by (rewrite nth_error_map, Ec; reflexivity). injection B2 as <-. rewrite Ea in B1. injection B1 as <-.
  rewrite Ev in B3. injection B3 as <-. apply nth_error_nth with (d := 0%Qc). now rewrite nth_error_map, V.
Qed.
(** The lines of a package. *)
Lemma package_ok w masses cs : (forall c, In c cs -> cell w (show_c c) /\ exists i x, index c = Ok i /\ nth_error masses i = Some x /\ one_line (show x)) ->
  exists t ls, package_rows index show_c show w masses cs = Ok t /\ lines_are t ls /\
    Forall2 (fun c l => exists i x, index c = Ok i /\ nth_error masses i = Some x /\ l = ljust w (show_c c) ++ show x) cs ls.
Proof.
  intros H. apply each_lines. intros c I. destruct (H c I) as (Cc & i & x & Ei & Ex & O). exists (ljust w (show_c c) ++ show x). rewrite Ei. cbn [bind]. unfold get. rewrite Ex. cbn [bind].
  split; [now rewrite <- app_assoc|]. split; [|eauto]. apply one_line_app; auto. apply one_line_ljust, one_line_solid. eapply cell_solid; eauto.
Qed.
End T.
Lemma package_line w c t : cell w c -> solid t -> says (ljust w c ++ t) [c; t].
Proof.
  intros Hc Ht. apply says_solid.
  - apply hw_ljust; auto. rewrite <- (app_nil_r t) at 1. apply hw_solid; auto; [now left|constructor].
  - constructor; [eapply cell_solid; eauto|]. constructor; auto.
Qed.
Lemma line_tells w c t c' t' : cell w c -> solid t -> cell w c' -> solid t' -> ljust w c ++ t = ljust w c' ++ t' -> c = c' /\ t = t'.
Proof.
  intros A B A' B' E. pose proof (package_line w c t A B) as S. rewrite E in S. pose proof (says_unique _ _ _ S (package_line w c' t' A' B')) as X. injection X as -> ->. auto.
Qed.
(** The lines of two packages. *)
Lemma rows_tell {C C' A A'} (show_c : C -> text) (show_c' : C' -> text) (show : A -> text) (show' : A' -> text) w (masses : list A) (masses' : list A') cs cs' ls :
  length masses = length cs -> length masses' = length cs' ->
  (forall c, In c cs -> cell w (show_c c)) -> (forall c, In c cs' -> cell w (show_c' c)) -> (forall x, In x masses -> solid (show x)) -> (forall x, In x masses' -> solid (show' x)) ->
  Forall2 (fun (cx : C * A) l => l = ljust w (show_c (fst cx)) ++ show (snd cx)) (combine cs masses) ls ->
  Forall2 (fun (cx : C' * A') l => l = ljust w (show_c' (fst cx)) ++ show' (snd cx)) (combine cs' masses') ls ->
  map show_c cs = map show_c' cs' /\ map show masses = map show' masses'.
Proof.
  revert cs cs' masses'. revert ls. induction masses as [|x ms IH]; intros ls [|c cs] [|c' cs'] [|x' ms'] L L' H1 H2 H3 H4 F F'; cbn [combine] in *; try discriminate; inversion F; subst; inversion F'; subst; auto.
  cbn [fst snd map] in *. match goal with E : ljust _ _ ++ _ = ljust _ _ ++ _ |- _ => apply line_tells in E; [|apply H1; cbn; auto|apply H3; cbn; auto|apply H2; cbn; auto|apply H4; cbn; auto]; destruct E as [E1 E2] end.
  match goal with G : Forall2 _ (combine cs ms) ?l |- _ => destruct (IH l cs cs' ms') as [X Y]; auto end.
  - intros; apply H1; cbn; auto. - intros; apply H2; cbn; auto. - intros; apply H3; cbn; auto. - intros; apply H4; cbn; auto. - split; congruence.
Qed.
Lemma rows_combine {C A} (index : C -> res nat) (P : C -> A -> text -> Prop) (cs : list C) (ms : list A) ls : length ms = length cs -> (forall i c, nth_error cs i = Some c -> index c = Ok i) ->
  Forall2 (fun c l => exists i x, index c = Ok i /\ nth_error ms i = Some x /\ P c x l) cs ls -> Forall2 (fun (cx : C * A) l => P (fst cx) (snd cx) l) (combine cs ms) ls.
Proof.
  intros L I F. assert (G : forall pre cs0 ls0, cs = pre ++ cs0 -> Forall2 (fun c l => exists i x, index c = Ok i /\ nth_error ms i = Some x /\ P c x l) cs0 ls0 ->
    Forall2 (fun (cx : C * A) l => P (fst cx) (snd cx) l) (combine cs0 (skipn (length pre) ms)) ls0).
  { intros pre cs0. revert pre. induction cs0 as [|c cs0 IH]; intros pre ls0 E F0; inversion F0; subst; cbn [combine]; [constructor|]. destruct H1 as (i & x & Ei & Ex & HP).
    rewrite (I (length pre) c) in Ei by (rewrite nth_error_app2, Nat.sub_diag by lia; reflexivity). injection Ei as <-.
    assert (Sk : skipn (length pre) ms = x :: skipn (S (length pre)) ms).
    { clear - Ex. revert ms Ex. generalize (length pre). intros k. induction k as [|k IH]; intros [|m ms] E; cbn [nth_error skipn] in *; try discriminate; [congruence|]. now apply IH. }
    rewrite Sk. constructor; auto. specialize (IH (pre ++ [c]) l'). rewrite app_length in IH. cbn [length] in IH. rewrite Nat.add_1_r in IH. apply IH; auto. now rewrite <- app_assoc. }
  apply (G [] cs ls eq_refl F).
Qed.
