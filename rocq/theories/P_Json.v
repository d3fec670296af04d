(** Writing and reading JSON documents (C88). *)
From Verif Require Import Prelude M_Stoichiometry M_Factsage M_Json Spec_Json.
From Coq Require Import Permutation Sorted Lia.
Local Open Scope list_scope.

(** * Sorting by key *)
Lemma nat_ascii_inj a b : nat_of_ascii a = nat_of_ascii b -> a = b.
Proof. intros H. rewrite <- (ascii_nat_embedding a), <- (ascii_nat_embedding b). now f_equal. Qed.
Lemma leb_total a : forall b, text_leb a b = false -> text_leb b a = true.
Proof.
  induction a as [|c a IH]; intros [|d b]; cbn [text_leb]; auto.
  destruct (Nat.ltb_spec (nat_of_ascii c) (nat_of_ascii d)), (Nat.ltb_spec (nat_of_ascii d) (nat_of_ascii c)); auto; try discriminate; lia.
Qed.
Lemma leb_trans a : forall b c, text_leb a b = true -> text_leb b c = true -> text_leb a c = true.
Proof.
  induction a as [|x a IH]; intros [|y b] [|z c]; cbn [text_leb]; auto; try discriminate.
  repeat match goal with |- context [(?u <? ?v)%nat] => destruct (Nat.ltb_spec u v) end; auto; try discriminate; try lia. apply IH.
Qed.
Lemma leb_antisym a : forall b, text_leb a b = true -> text_leb b a = true -> a = b.
Proof.
  induction a as [|x a IH]; intros [|y b]; cbn [text_leb]; auto; try discriminate.
  destruct (Nat.ltb_spec (nat_of_ascii x) (nat_of_ascii y)), (Nat.ltb_spec (nat_of_ascii y) (nat_of_ascii x)); auto; try discriminate; try lia.
  intros H1 H2. f_equal; [apply nat_ascii_inj; lia|]. now apply IH.
Qed.
Lemma insert_perm {A} (x : text * A) l : Permutation (x :: l) (insert_key x l).
Proof.
  induction l as [|y l IH]; cbn [insert_key]; auto. destruct (text_leb (fst x) (fst y)); auto.
  etransitivity; [apply perm_swap|]. now constructor.
Qed.
Lemma sort_perm {A} (l : list (text * A)) : Permutation l (sort_keys l).
Proof. induction l as [|x l IH]; cbn [sort_keys fold_right]; auto. etransitivity; [|apply insert_perm]. now constructor. Qed.
Definition key_le {A} (x y : text * A) : Prop := text_leb (fst x) (fst y) = true.
Lemma insert_sorted {A} (x : text * A) l : StronglySorted key_le l -> StronglySorted key_le (insert_key x l).
Proof.
  induction 1 as [|y l S IH F]; cbn [insert_key]; [repeat constructor|].
  destruct (text_leb (fst x) (fst y)) eqn:E.
  - constructor; [now constructor|]. constructor; auto. eapply Forall_impl; [|exact F]. intros z Z. unfold key_le in *. eapply leb_trans; eauto.
  - constructor; auto. eapply Permutation_Forall; [apply insert_perm|]. constructor; auto. now apply leb_total.
Qed.
Lemma sort_sorted {A} (l : list (text * A)) : StronglySorted key_le (sort_keys l).
Proof. induction l; cbn [sort_keys fold_right]; [constructor|now apply insert_sorted]. Qed.
Lemma sorted_unique {A} (l m : list (text * A)) : StronglySorted key_le l -> StronglySorted key_le m -> Permutation l m -> NoDup (map fst l) -> l = m.
Proof.
  revert m. induction l as [|x l IH]; intros m Sl Sm P N; [now apply Permutation_nil in P|].
  destruct m as [|y m]; [symmetry in P; now apply Permutation_nil in P|].
  inversion_clear Sl as [|? ? Sl' Fl]. inversion_clear Sm as [|? ? Sm' Fm]. cbn [map] in N. inversion_clear N as [|? ? Nx Nl].
  assert (x = y).
  { destruct (Permutation_in x P (or_introl eq_refl)) as [->|Hx]; auto.
    destruct (Permutation_in y (Permutation_sym P) (or_introl eq_refl)) as [->|Hy]; auto.
    exfalso. apply Nx. rewrite Forall_forall in Fl, Fm. rewrite (leb_antisym (fst x) (fst y) (Fl y Hy) (Fm x Hx)). now apply in_map. }
  subst y. f_equal. apply IH; auto. now apply Permutation_cons_inv in P.
Qed.
Lemma sort_unique {A} (l m : list (text * A)) : Permutation l m -> NoDup (map fst l) -> sort_keys l = sort_keys m.
Proof.
  intros P N. apply sorted_unique; try apply sort_sorted.
  - etransitivity; [symmetry; apply sort_perm|]. etransitivity; [exact P|apply sort_perm].
  - eapply Permutation_NoDup; [|exact N]. apply Permutation_map, sort_perm.
Qed.
Lemma sort_map {A B} (f : A -> B) (l : list (text * A)) : sort_keys (map (fun kv => (fst kv, f (snd kv))) l) = map (fun kv => (fst kv, f (snd kv))) (sort_keys l).
Proof.
  induction l as [|x l IH]; cbn [sort_keys fold_right map]; auto. unfold sort_keys in IH. rewrite IH.
  generalize (fold_right insert_key [] l). induction l0 as [|y m IHm]; cbn [insert_key map fst]; auto.
  destruct (text_leb (fst x) (fst y)); cbn [map]; auto. now rewrite IHm.
Qed.

(** * Strings *)
Lemma escape_scan c s : scanstring (escape c ++ s) = (do r <- scanstring s; Ok (c :: fst r, snd r)).
Proof. destruct c as [[] [] [] [] [] [] [] []]; reflexivity. Qed.
Lemma scanstring_ok t r : scanstring (flat_map escape t ++ dq :: r) = Ok (t, r).
Proof.
  induction t as [|c t IH]; cbn [flat_map]; [reflexivity|]. rewrite <- app_assoc, escape_scan, IH. reflexivity.
Qed.
Lemma quote_app t r : quote t ++ r = dq :: flat_map escape t ++ dq :: r.
Proof. unfold quote. cbn [app]. now rewrite <- app_assoc. Qed.

(** * Numbers *)
Definition stops (r : text) : Prop := match r with [] => True | c :: _ => is_digit c = false /\ c <> "."%char /\ is_exp c = false end.
Definition stops_digits (r : text) : Prop := match r with [] => True | c :: _ => is_digit c = false end.
Lemma digit_iff c : is_digit c = true <-> (48 <= nat_of_ascii c <= 57)%nat.
Proof. unfold is_digit, code. rewrite Bool.andb_true_iff, !Z.leb_le. lia. Qed.
Lemma digits_ok t r : Forall (fun c => (48 <= nat_of_ascii c <= 57)%nat) t -> stops_digits r -> digits (t ++ r) = (t, r).
Proof.
  induction 1 as [|c t H F IH]; intros S; cbn [app digits].
  - destruct r as [|c r]; auto. cbn in S. cbn [digits]. now rewrite S.
  - rewrite (proj2 (digit_iff c) H), IH by auto. reflexivity.
Qed.
Lemma frac_ok f r : frac_literal f -> stops_digits r -> (f = [] -> match r with [] => True | c :: _ => c <> "."%char end) -> frac_part (f ++ r) = (f, r).
Proof.
  intros [|t [N F]] S D; cbn [app].
  - specialize (D eq_refl). destruct r as [|c r]; auto. cbn [frac_part]. destruct (Ascii.eqb_spec c "."%char); [contradiction|reflexivity].
  - cbn [frac_part]. change (Ascii.eqb "." ".") with true. cbn [app]. rewrite (digits_ok t r F S). destruct t; [contradiction|reflexivity].
Qed.
Lemma digit_not_sign c : (48 <= nat_of_ascii c <= 57)%nat -> is_sign c = false.
Proof. intros H. unfold is_sign. destruct (Ascii.eqb_spec c "+"%char); [subst; cbn in H; lia|]. destruct (Ascii.eqb_spec c "-"%char); [subst; cbn in H; lia|reflexivity]. Qed.
Lemma exp_ok e r : exp_literal e -> stops r -> exp_part (e ++ r) = (e, r).
Proof.
  intros [|e' sg t E I [N F]] S; cbn [app].
  - destruct r as [|c r]; auto. cbn in S. cbn [exp_part]. now rewrite (proj2 (proj2 S)).
  - assert (Sd : stops_digits r) by (destruct r; [exact Logic.I|apply S]).
    cbn [exp_part]. assert (is_exp e' = true) as -> by (destruct E as [-> | ->]; reflexivity).
    rewrite <- app_assoc.
    assert (D := digits_ok t r F Sd). destruct t as [|x t]; [contradiction|]. inversion_clear F as [|? ? Hx Ft].
    destruct I as [<-|[<-|[<-|[]]]]; cbn [app].
    + rewrite (digit_not_sign x Hx). cbn [app] in D. rewrite D. reflexivity.
    + change (is_sign "+") with true. cbn iota. cbn [app] in D. rewrite D. reflexivity.
    + change (is_sign "-") with true. cbn iota. cbn [app] in D. rewrite D. reflexivity.
Qed.
Lemma int_ok w r : whole_literal w -> stops_digits r -> int_part (w ++ r) = Some (w, r).
Proof.
  intros [|c t [N F] D] S; cbn [app int_part].
  - reflexivity.
  - destruct (Ascii.eqb_spec c "0"%char); [contradiction|]. inversion_clear F as [|? ? Hc Ft]. rewrite (proj2 (digit_iff c) Hc).
    change (c :: t ++ r) with ((c :: t) ++ r). rewrite digits_ok; auto.
Qed.
Lemma whole_head w : whole_literal w -> exists c t, w = c :: t /\ (48 <= nat_of_ascii c <= 57)%nat.
Proof. intros [|c t [N F] D]; [exists "0"%char, []; split; auto; cbn; lia|]. inversion F; eauto. Qed.
Lemma frac_exp_stops f e r : frac_literal f -> exp_literal e -> stops r -> stops_digits (f ++ e ++ r) /\ stops_digits (e ++ r) /\ match e ++ r with [] => True | c :: _ => c <> "."%char end.
Proof.
  intros Hf He S.
  assert (A : stops_digits (e ++ r) /\ match e ++ r with [] => True | c :: _ => c <> "."%char end).
  { destruct He as [|e' sg t E I H]; cbn [app]; [destruct r; cbn in *; tauto|]. destruct E as [-> | ->]; split; try reflexivity; discriminate. }
  destruct Hf; cbn [app]; [tauto|split; [reflexivity|tauto]].
Qed.
Lemma scan_number_ok sg w f e r : In sg [[]; ["-"%char]] -> whole_literal w -> frac_literal f -> exp_literal e -> stops r ->
  scan_number ((sg ++ w ++ f ++ e) ++ r) = Ok (sg ++ w ++ f ++ e, r).
Proof.
  intros I Hw Hf He S. destruct (frac_exp_stops f e r Hf He S) as (S1 & S2 & S3).
  rewrite <- !app_assoc. unfold scan_number. destruct (whole_head w Hw) as (c & t & Ew & Hc).
  assert (Ei := int_ok w (f ++ e ++ r) Hw S1).
  assert (X : match int_part (w ++ f ++ e ++ r) with None => Err ValueError | Some (i, s2) => let f0 := frac_part s2 in let e0 := exp_part (snd f0) in Ok (sg ++ i ++ fst f0 ++ fst e0, snd e0) end = Ok (sg ++ w ++ f ++ e, r)).
  { rewrite Ei. cbv zeta. rewrite frac_ok; auto. cbn [fst snd]. rewrite exp_ok; auto. }
  destruct I as [<-|[<-|[]]]; cbn [app]; [|exact X].
  rewrite Ew in *. cbn [app]. destruct (Ascii.eqb_spec c "-"%char) as [->|]; [cbn in Hc; lia|]. exact X.
Qed.
Definition scalar_head (c : ascii) : Prop := (48 <= nat_of_ascii c <= 57)%nat \/ c = "-"%char \/ c = "N"%char \/ c = "I"%char.
Lemma literal_head t : literal t -> exists c t', t = c :: t' /\ scalar_head c.
Proof.
  intros [sg w f e I Hw _ _| | |]; try (eexists _, _; split; [reflexivity|red; tauto]).
  destruct (whole_head w Hw) as (c & t' & -> & Hc). destruct I as [<-|[<-|[]]]; eexists _, _; (split; [reflexivity|red; tauto]).
Qed.
Lemma head_not_word c : scalar_head c -> c <> "n"%char /\ c <> "t"%char /\ c <> "f"%char.
Proof. intros Hc. repeat split; intros ->; destruct Hc as [H|[H|[H|H]]]; try discriminate; cbn in H; lia. Qed.
Lemma scan_literal t r : literal t -> stops r -> scan_scalar (t ++ r) = Ok (JNum t, r).
Proof.
  intros L S. destruct L as [sg w f e I Hw Hf He| | |].
  - assert (E := scan_number_ok sg w f e r I Hw Hf He S).
    destruct (literal_head _ (lit _ _ _ _ I Hw Hf He)) as (c & t' & Et & Hc). rewrite Et in *. cbn [app] in *.
    unfold scan_scalar. cbn [text_of list_ascii_of_string word].
    assert (A := head_not_word c Hc).
    destruct (Ascii.eqb_spec "n"%char c); [symmetry in e0; tauto|]. destruct (Ascii.eqb_spec "t"%char c); [symmetry in e0; tauto|].
    destruct (Ascii.eqb_spec "f"%char c); [symmetry in e0; tauto|]. now rewrite E.
  - reflexivity.
  - reflexivity.
  - reflexivity.
Qed.

(** What is scanned as a number is one. *)
Lemma digits_literal s d r : digits s = (d, r) -> Forall (fun c => (48 <= nat_of_ascii c <= 57)%nat) d.
Proof.
  revert d r. induction s as [|c s IH]; intros d r; cbn [digits]; [intros [= <- <-]; constructor|]. destruct (is_digit c) eqn:E; [|intros [= <- <-]; constructor].
  destruct (digits s) as [d' r'] eqn:F. cbn [fst snd]. intros [= <- <-]. constructor; [now apply digit_iff|eauto].
Qed.
Lemma int_literal s i r : int_part s = Some (i, r) -> whole_literal i.
Proof.
  destruct s as [|c s]; cbn [int_part]; [discriminate|]. destruct (Ascii.eqb_spec c "0"%char) as [->|N]; [intros [= <- <-]; constructor|].
  destruct (is_digit c) eqn:E; [|discriminate]. intros [= H]. cbn [digits] in H. rewrite E in H. destruct (digits s) as [d q] eqn:F. cbn [fst snd] in H. injection H as <- <-.
  constructor; auto. split; [discriminate|]. constructor; [now apply digit_iff|eapply digits_literal; eauto].
Qed.
Lemma frac_sound s f r : frac_part s = (f, r) -> frac_literal f.
Proof.
  destruct s as [|c s]; cbn [frac_part]; [intros [= <- <-]; constructor|]. destruct (Ascii.eqb_spec c "."%char) as [->|]; [|intros [= <- <-]; constructor].
  destruct (digits s) as [[|x d] q] eqn:E; intros [= <- <-]; constructor. split; [discriminate|]. eapply digits_literal; eauto.
Qed.
Lemma exp_sound s e r : exp_part s = (e, r) -> exp_literal e.
Proof.
  destruct s as [|c s]; cbn [exp_part]; [intros [= <- <-]; constructor|]. destruct (is_exp c) eqn:X; [|intros [= <- <-]; constructor].
  assert (C : c = "e"%char \/ c = "E"%char) by (unfold is_exp in X; apply Bool.orb_true_iff in X as [X|X]; apply Ascii.eqb_eq in X; auto).
  assert (K : forall sg s2, In sg [[]; ["+"%char]; ["-"%char]] -> match digits s2 with ([], _) => ([], c :: s) | (d, r) => (c :: sg ++ d, r) end = (e, r) -> exp_literal e).
  { intros sg s2 I. destruct (digits s2) as [[|x d] q] eqn:E; intros [= <- <-]; constructor; auto. split; [discriminate|]. eapply digits_literal; eauto. }
  destruct s as [|x s]; [apply (K [] []); cbn; tauto|]. destruct (is_sign x) eqn:Y; [|apply K; cbn; tauto].
  apply (K [x] s). unfold is_sign in Y. apply Bool.orb_true_iff in Y as [Y|Y]; apply Ascii.eqb_eq in Y; subst; cbn; tauto.
Qed.
Lemma number_literal s t r : scan_number s = Ok (t, r) -> literal t.
Proof.
  unfold scan_number.
  assert (K : forall sg s1, In sg [[]; ["-"%char]] -> match int_part s1 with None => Err ValueError | Some (i, s2) => let f := frac_part s2 in let e := exp_part (snd f) in Ok (sg ++ i ++ fst f ++ fst e, snd e) end = Ok (t, r) -> literal t).
  { intros sg s1 I. destruct (int_part s1) as [[i s2]|] eqn:Ei; [|discriminate]. cbv zeta. destruct (frac_part s2) as [f s3] eqn:Ef. cbn [fst snd]. destruct (exp_part s3) as [e s4] eqn:Ee. cbn [fst snd].
    intros H. assert (sg ++ i ++ f ++ e = t) by congruence. subst. constructor; auto; [eapply int_literal|eapply frac_sound|eapply exp_sound]; eauto. }
  destruct s as [|c s]; [apply (K [] []); cbn; tauto|]. destruct (Ascii.eqb_spec c "-"%char) as [->|]; apply K; cbn; tauto.
Qed.
