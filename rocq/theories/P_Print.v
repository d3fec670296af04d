(** Proofs about printed text: lines, words and columns. *)
From Verif Require Import Prelude M_Stoichiometry M_Text M_Lists M_Csv M_Print Spec_Text Spec_File Spec_Print P_Text P_File P_Convert.
Local Open Scope list_scope.

Lemma Forall2_weaken {A B} (P Q : A -> B -> Prop) l l' : (forall a b, P a b -> Q a b) -> Forall2 P l l' -> Forall2 Q l l'.
Proof. induction 2; constructor; auto. Qed.
(** * Words *)
Lemma char_of t ws : has_words t ws -> forall c, In c t -> is_sep c \/ exists w, In w ws /\ In c w.
Proof.
  induction 1 as [|d t ws S H IH|w t ws W S H IH]; intros c I.
  - destruct I. - destruct I as [<-|I]; auto. - apply in_app_or in I. destruct I as [I|I]; [right; exists w; cbn; auto|]. destruct (IH c I) as [A|(v & A & B)]; auto. right. exists v. cbn. auto.
Qed.
Lemma words_sep_l l t : (forall c, In c l -> is_sep c) -> words (l ++ t) = words t.
Proof.
  induction l as [|c l IH]; intros H; auto. cbn [app]. unfold words at 1. cbn [go]. rewrite (proj2 (sepb_iff c)) by (apply H; cbn; auto). cbn [fst snd push].
  apply IH. intros d D. apply H. cbn. auto.
Qed.
Lemma go_sep_r t r : (forall c, In c r -> is_sep c) -> go (t ++ r) = go t.
Proof.
  intros H. induction t as [|c t IH]; cbn [app].
  - induction r as [|d r IH]; auto. cbn [go]. rewrite (proj2 (sepb_iff d)) by (apply H; cbn; auto). rewrite IH by (intros; apply H; cbn; auto). reflexivity.
  - cbn [go]. now rewrite IH.
Qed.
Lemma says_has t ws : has_words t ws -> (forall w c, In w ws -> In c w -> is_space c = false) -> says t ws.
Proof.
  intros H N. exists (strip t). split; [apply strip_core|]. destruct (strip_core t) as (l & r & E & Bl & Br & _).
  assert (S : forall u, forallb is_space u = true -> (forall c, In c u -> In c t) -> forall c, In c u -> is_sep c).
  { intros u U I c C. destruct (char_of t ws H c (I c C)) as [A|(w & A & B)]; auto. rewrite forallb_forall in U. specialize (U c C). rewrite (N w c A B) in U. discriminate. }
  assert (W : words (strip t) = ws).
  { rewrite (words_unique t ws H). rewrite E at 2. rewrite words_sep_l; [|apply (S l Bl); intros c C; rewrite E; apply in_or_app; auto].
    unfold words. rewrite go_sep_r; auto. apply (S r Br). intros c C. rewrite E. apply in_or_app. right. apply in_or_app. auto. }
  rewrite <- W. apply words_ok.
Qed.
Lemma says_end t ws : says t ws -> says (t ++ [lf]) ws.
Proof.
  intros (s & (l & r & E & Bl & Br & F) & W). exists s. split; auto. exists l, (r ++ [lf]). rewrite E, <- !app_assoc. split; auto. split; auto. split; auto.
  rewrite forallb_app, Br. reflexivity.
Qed.
Lemma says_unique t ws ws' : says t ws -> says t ws' -> ws = ws'.
Proof. intros (s & C & W) (s' & C' & W'). apply core_strip in C, C'. rewrite (words_unique _ _ W), (words_unique _ _ W'). congruence. Qed.

(** A word without white space. *)
Definition solid (w : text) : Prop := w <> [] /\ forall c, In c w -> is_space c = false.
Lemma solid_word w : solid w -> word w.
Proof. intros [A B]. split; auto. intros c I S. apply sepb_iff, sepb_space in S. specialize (B c I). congruence. Qed.
Lemma cell_solid n t : cell n t -> solid t.
Proof. intros (A & B & C). split; auto. Qed.
(** Text that starts with a blank, or is empty. *)
Definition ends_here (t : text) : Prop := t = [] \/ exists u, t = sp :: u.
Lemma hw_blanks k t ws : has_words t ws -> has_words (spaces k ++ t) ws.
Proof. intros H. induction k as [|k IH]; cbn [spaces repeat app]; auto. apply hw_sep; auto. now left. Qed.
Lemma hw_solid w t ws : solid w -> ends_here t -> has_words t ws -> has_words (w ++ t) (w :: ws).
Proof. intros W E H. apply hw_word; auto. now apply solid_word. destruct E as [->|[u ->]]; auto. right. exists sp, u. split; auto. now left. Qed.
Lemma ends_blanks k t : (0 < k)%nat -> ends_here (spaces k ++ t).
Proof. intros H. destruct k as [|k]; [lia|]. right. eexists. reflexivity. Qed.
Lemma hw_ljust n w t ws : cell n w -> has_words t ws -> has_words (ljust n w ++ t) (w :: ws).
Proof.
  intros C H. pose proof (cell_solid _ _ C) as S. destruct C as (_ & L & _). unfold ljust. rewrite <- app_assoc. apply hw_solid; auto; [apply ends_blanks; lia|now apply hw_blanks].
Qed.
Lemma hw_rjust n w t ws : solid w -> ends_here t -> has_words t ws -> has_words (rjust n w ++ t) (w :: ws).
Proof. intros S E H. unfold rjust. rewrite <- app_assoc. apply hw_blanks. now apply hw_solid. Qed.
Lemma hw_columns n ws : Forall (cell n) ws -> has_words (concat (map (ljust n) ws)) ws.
Proof. induction 1; cbn [map concat]; [constructor|]. now apply hw_ljust. Qed.
Lemma says_solid t ws : has_words t ws -> Forall solid ws -> says t ws.
Proof. intros H S. apply says_has; auto. intros w c I C. rewrite Forall_forall in S. apply (proj2 (S w I)); auto. Qed.

(** * Lines *)
Lemma one_line_app a b : one_line a -> one_line b -> one_line (a ++ b).
Proof. intros A B c I. apply in_app_or in I. destruct I; auto. Qed.
Lemma one_line_nil : one_line [].
Proof. intros c []. Qed.
Lemma one_line_cons c t : c <> "010"%char -> c <> "013"%char -> one_line t -> one_line (c :: t).
Proof. intros A B T d [<-|I]; auto. Qed.
Lemma one_line_spaces k : one_line (spaces k).
Proof. intros c I. apply repeat_spec in I. subst. split; discriminate. Qed.
Lemma one_line_ljust n t : one_line t -> one_line (ljust n t).
Proof. intros H. apply one_line_app; auto using one_line_spaces. Qed.
Lemma one_line_rjust n t : one_line t -> one_line (rjust n t).
Proof. intros H. apply one_line_app; auto using one_line_spaces. Qed.
Lemma one_line_solid t : solid t -> one_line t.
Proof. intros [_ H] c I. split; intros ->; specialize (H _ I); discriminate. Qed.
Lemma one_line_concat l : Forall one_line l -> one_line (concat l).
Proof. induction 1; cbn [concat]; auto using one_line_nil, one_line_app. Qed.
Lemma lines_app t ls t' ls' : lines_are t ls -> lines_are t' ls' -> lines_are (t ++ t') (ls ++ ls').
Proof. intros H H'. induction H as [|l t ls O H IH]; auto. rewrite <- app_assoc. cbn [app]. now constructor. Qed.
Lemma lines_one l : one_line l -> lines_are (l ++ nl) [l].
Proof. intros H. apply (la_line l [] []); auto. constructor. Qed.
Lemma lines_cons l t ls : one_line l -> lines_are t ls -> lines_are (l ++ nl ++ t) (l :: ls).
Proof. intros. now apply la_line. Qed.
Lemma lines_of_line l t : one_line l -> lines_of (l ++ lf :: t) = (l ++ [lf]) :: lines_of t.
Proof.
  intros H. induction l as [|c l IH]; cbn [app]; [reflexivity|]. destruct (H c (or_introl eq_refl)) as [A B]. cbn [lines_of].
  rewrite (proj2 (Ascii.eqb_neq c lf) A), (proj2 (Ascii.eqb_neq c cr) B). rewrite IH; [reflexivity|]. intros d D. apply H. cbn. auto.
Qed.
Lemma lines_are_of t ls : lines_are t ls -> lines_of t = map (fun l => l ++ [lf]) ls.
Proof. induction 1 as [|l t ls O H IH]; auto. rewrite lines_of_line by auto. cbn [map]. now rewrite IH. Qed.
Lemma lines_unique t ls ls' : lines_are t ls -> lines_are t ls' -> ls = ls'.
Proof.
  intros H H'. apply lines_are_of in H, H'. rewrite H in H'. clear H t. revert ls' H'. induction ls as [|l ls IH]; intros [|l' ls'] H; cbn [map] in H; try discriminate; auto.
  injection H as A B. apply app_inj_tail in A. f_equal; [tauto|auto].
Qed.
Lemma each_ok {A} (f : A -> res text) l us : Forall2 (fun x u => f x = Ok u) l us -> each f l = Ok (concat us).
Proof. intros H. unfold each. rewrite (proj2 (mapM_Forall2 f l us) H). reflexivity. Qed.
(** A loop that prints one line in every round. *)
Lemma each_lines {A} (f : A -> res text) (P : A -> text -> Prop) l : (forall x, In x l -> exists u, f x = Ok (u ++ nl) /\ one_line u /\ P x u) ->
  exists t ls, each f l = Ok t /\ lines_are t ls /\ Forall2 P l ls.
Proof.
  intros H. assert (X : exists ls, Forall2 (fun x u => f x = Ok (u ++ nl) /\ one_line u /\ P x u) l ls).
  { induction l as [|x l IH]; [exists []; constructor|]. destruct (H x (or_introl eq_refl)) as (u & U). destruct IH as [ls L]; [intros; apply H; cbn; auto|]. exists (u :: ls). constructor; auto. }
  destruct X as [ls X]. exists (concat (map (fun u => u ++ nl) ls)), ls. split; [|split].
  - apply each_ok. clear H. induction X as [|x u l ls (Xa & Xb & Xd) X IH]; cbn [map]; constructor; auto.
  - clear H. induction X as [|x u l ls (Xa & Xb & Xd) X IH]; cbn [map concat]; [constructor|]. rewrite <- app_assoc. now apply lines_cons.
  - clear H. eapply Forall2_weaken; [|exact X]. cbn beta. tauto.
Qed.
Lemma reads_intro (ds : list (text -> Prop)) t ls : lines_are t ls -> Forall2 (fun (P : text -> Prop) l => P l) ds ls -> reads ds t.
Proof. intros A B. exists ls. auto. Qed.
Lemma labelled_ljust n l t : (length l < n)%nat -> labelled l t (ljust n l ++ t).
Proof. intros H. exists (n - length l)%nat. split; [lia|]. unfold ljust. now rewrite <- app_assoc. Qed.
Lemma Forall2_map_l {A B C} (g : A -> B) (P : B -> C -> Prop) l l' : Forall2 P (map g l) l' <-> Forall2 (fun a c => P (g a) c) l l'.
Proof.
  split. - revert l'. induction l as [|a l IH]; intros l' H; inversion H; subst; constructor; auto. - induction 1; cbn [map]; constructor; auto.
Qed.
