(** A text that is cut off is not read (C88). *)
From Verif Require Import Prelude M_Stoichiometry M_Factsage M_Json Spec_Json P_Json P_Json2 P_Json3.
From Coq Require Import Lia.
Local Open Scope list_scope.

Lemma word_ext w : forall s r t, word w s = Some r -> word w (s ++ t) = Some (r ++ t).
Proof. induction w as [|c w IH]; intros [|d s] r t; cbn [word app]; try discriminate; try (intros [= <-]; reflexivity). destruct (Ascii.eqb c d); auto. discriminate. Qed.
Lemma word_app w : forall s r, word w s = Some r -> s = w ++ r.
Proof.
  induction w as [|c w IH]; intros [|d s] r; cbn [word app]; try discriminate; try (intros [= <-]; reflexivity).
  destruct (Ascii.eqb_spec c d) as [->|]; [|discriminate]. intros H. now rewrite (IH s r H).
Qed.
Lemma word_none w : forall s t, word w s = None -> word w (s ++ t) = None \/ exists w2, w2 <> [] /\ w = s ++ w2.
Proof.
  induction w as [|c w IH]; intros [|d s] t; cbn [word app]; try discriminate.
  - intros _. right. exists (c :: w). split; [discriminate|reflexivity].
  - destruct (Ascii.eqb_spec c d) as [->|]; auto. intros H. destruct (IH s t H) as [|(w2 & N & ->)]; auto. right. now exists w2.
Qed.
Lemma skip_ext s c r t : skip_ws s = c :: r -> skip_ws (s ++ t) = c :: r ++ t.
Proof. induction s as [|d s IH]; cbn [skip_ws app]; [discriminate|]. destruct (is_ws d); auto. intros [= -> ->]. reflexivity. Qed.
Lemma scanstring_ext n : forall s a r t, (length s <= n)%nat -> scanstring s = Ok (a, r) -> scanstring (s ++ t) = Ok (a, r ++ t).
Proof.
  induction n as [|n IH]; intros [|c s] a r t Hn; cbn [length] in Hn; try (cbn; discriminate); try lia.
  cbn [app scanstring].
  destruct (Ascii.eqb c dq); [intros [= <- <-]; reflexivity|].
  destruct (Ascii.eqb c bs).
  - destruct s as [|e s2]; [discriminate|]. cbn [app]. destruct (Ascii.eqb e "u").
    + destruct s2 as [|x [|y [|h [|l s3]]]]; try discriminate. cbn [app].
      destruct (hex_value x) as [[|]|]; try discriminate. destruct (hex_value y) as [[|]|]; try discriminate.
      destruct (hex_value h); try discriminate. destruct (hex_value l); try discriminate.
      destruct (scanstring s3) as [[b q]|] eqn:E; [|discriminate]. cbn [bind fst snd]. intros [= <- <-]. cbn [length] in Hn. rewrite (IH s3 b q t ltac:(lia) E). reflexivity.
    + destruct (unescape e); [|discriminate]. destruct (scanstring s2) as [[b q]|] eqn:E; [|discriminate]. cbn [bind fst snd]. intros [= <- <-].
      cbn [length] in Hn. rewrite (IH s2 b q t ltac:(lia) E). reflexivity.
  - destruct (nat_of_ascii c <? 32)%nat; [discriminate|]. destruct (scanstring s) as [[b q]|] eqn:E; [|discriminate]. cbn [bind fst snd]. intros [= <- <-].
    rewrite (IH s b q t ltac:(lia) E). reflexivity.
Qed.
Lemma digits_ext s : forall d c r t, digits s = (d, c :: r) -> digits (s ++ t) = (d, c :: r ++ t).
Proof.
  induction s as [|x s IH]; intros d c r t; cbn [digits app]; [discriminate|]. destruct (is_digit x).
  - destruct (digits s) as [d' r'] eqn:E. cbn [fst snd]. intros [= <- ->]. now rewrite (IH d' c r t eq_refl).
  - intros [= <- <- <-]. reflexivity.
Qed.
Lemma frac_ext s f c r t : frac_part s = (f, c :: r) -> c <> "."%char -> frac_part (s ++ t) = (f, c :: r ++ t).
Proof.
  destruct s as [|x s]; cbn [frac_part app]; [discriminate|]. destruct (Ascii.eqb_spec x "."%char).
  - subst. destruct (digits s) as [[|y d] q] eqn:E; [intros [= <- <- <-] N; congruence|]. intros [= <- ->] _. rewrite (digits_ext _ _ _ _ t E). reflexivity.
  - intros [= <- <- <-] _. reflexivity.
Qed.
Lemma exp_ext s e c r t : exp_part s = (e, c :: r) -> is_exp c = false -> exp_part (s ++ t) = (e, c :: r ++ t).
Proof.
  destruct s as [|x s]; cbn [exp_part app]; [discriminate|]. destruct (is_exp x) eqn:Ex; [|intros [= <- <- <-] _; reflexivity].
  destruct s as [|y s].
  - cbn. intros [= <- <- <-] H. congruence.
  - cbn [app]. destruct (is_sign y).
    + destruct (digits s) as [[|z d] q] eqn:E; [intros [= <- <- <-] H; congruence|]. intros [= <- ->] _. rewrite (digits_ext _ _ _ _ t E). reflexivity.
    + destruct (digits (y :: s)) as [[|z d] q] eqn:E; [intros [= <- <- <-] H; congruence|]. intros [= <- ->] _.
      rewrite (digits_ext (y :: s) _ _ _ t E : digits (y :: s ++ t) = _). reflexivity.
Qed.
Lemma exp_head s e c r : exp_part s = (e, c :: r) -> s <> [] /\ (hd c s = "."%char -> c = "."%char).
Proof.
  destruct s as [|x s]; cbn [exp_part]; [discriminate|]. split; [discriminate|]. cbn [hd]. intros ->. change (is_exp ".") with false in H. cbn in H. congruence.
Qed.
Lemma number_ext s a c r t : scan_number s = Ok (a, c :: r) -> is_exp c = false -> c <> "."%char -> scan_number (s ++ t) = Ok (a, c :: r ++ t).
Proof.
  intros H X D. unfold scan_number in *.
  assert (K : forall sg s1, match int_part s1 with None => Err ValueError | Some (i, s2) => let f := frac_part s2 in let e := exp_part (snd f) in Ok (sg ++ i ++ fst f ++ fst e, snd e) end = Ok (a, c :: r) ->
    match int_part (s1 ++ t) with None => Err ValueError | Some (i, s2) => let f := frac_part s2 in let e := exp_part (snd f) in Ok (sg ++ i ++ fst f ++ fst e, snd e) end = Ok (a, c :: r ++ t)).
  { clear H. intros sg s1 H. destruct (int_part s1) as [[i s2]|] eqn:Ei; [|discriminate]. cbv zeta in H.
    destruct (frac_part s2) as [f s3] eqn:Ef. cbn [fst snd] in H. destruct (exp_part s3) as [e s4] eqn:Ee. cbn [fst snd] in H.
    assert (H1 : sg ++ i ++ f ++ e = a) by congruence. assert (H2 : s4 = c :: r) by congruence. subst s4. clear H.
    destruct (exp_head _ _ _ _ Ee) as [N Hh]. destruct s3 as [|x3 s3]; [contradiction|]. cbn [hd] in Hh.
    assert (Ef' := frac_ext s2 f x3 s3 t Ef ltac:(intros Z; apply D, Hh, Z)).
    assert (Ee' := exp_ext _ _ _ _ t Ee X). cbn [app] in Ee'.
    assert (Ei' : int_part (s1 ++ t) = Some (i, s2 ++ t)).
    { destruct s1 as [|x1 s1]; [discriminate|]. cbn [int_part app] in *. destruct (Ascii.eqb x1 "0"); [injection Ei as <- <-; reflexivity|].
      destruct (is_digit x1); [|discriminate]. destruct s2 as [|x2 s2]; [discriminate|].
      injection Ei as Ei. f_equal. change (x1 :: s1 ++ t) with ((x1 :: s1) ++ t). apply digits_ext. exact Ei. }
    rewrite Ei'. cbv zeta. rewrite Ef'. cbn [fst snd]. rewrite Ee'. cbn [fst snd]. rewrite H1. reflexivity. }
  destruct s as [|x s]; [discriminate H|]. cbn [app]. destruct (Ascii.eqb x "-"); [apply (K [x] s); exact H|apply (K [] (x :: s)); exact H].
Qed.
Definition delim (r : text) : Prop := exists c q, skip_ws r = c :: q /\ In c [","; "]"; "}"]%char.
Lemma delim_head r : delim r -> exists c q, r = c :: q /\ is_exp c = false /\ c <> "."%char.
Proof.
  intros (c & q & E & I). destruct r as [|x r]; [discriminate|]. exists x, r. split; auto. cbn [skip_ws] in E. destruct (is_ws x) eqn:W.
  - unfold is_exp. split; [|intros ->; discriminate]. destruct (Ascii.eqb_spec x "e"%char); [subst; discriminate|]. destruct (Ascii.eqb_spec x "E"%char); [subst; discriminate|reflexivity].
  - injection E as -> <-. cbn in I. destruct I as [<-|[<-|[<-|[]]]]; split; try reflexivity; discriminate.
Qed.
Lemma firstn_fails w k : In w [text_of "null"; text_of "true"; text_of "false"; text_of "NaN"; text_of "Infinity"; text_of "-Infinity"] -> (k < length w)%nat -> scan_scalar (firstn k w) = Err ValueError.
Proof.
  intros I L. destruct I as [<-|[<-|[<-|[<-|[<-|[<-|[]]]]]]]; cbn in L; do 9 (destruct k as [|k]; [first [lia|reflexivity]|]); lia.
Qed.
Lemma prefix_fails w s w2 : In w [text_of "null"; text_of "true"; text_of "false"; text_of "NaN"; text_of "Infinity"; text_of "-Infinity"] -> w2 <> [] -> w = s ++ w2 -> scan_scalar s = Err ValueError.
Proof.
  intros I N E. assert (Es : s = firstn (length s) w) by (rewrite E, firstn_app, Nat.sub_diag, firstn_all; cbn; now rewrite app_nil_r).
  assert (L : (length s < length w)%nat) by (rewrite E, app_length; destruct w2; [contradiction|cbn; lia]).
  rewrite Es. now apply firstn_fails.
Qed.
Lemma scalar_ext s v r t : scan_scalar s = Ok (v, r) -> delim r -> scan_scalar (s ++ t) = Ok (v, r ++ t).
Proof.
  intros H D. destruct (delim_head r D) as (c & q & -> & X & Y).
  assert (K : forall w, In w [text_of "null"; text_of "true"; text_of "false"; text_of "NaN"; text_of "Infinity"; text_of "-Infinity"] -> word w s = None -> word w (s ++ t) = None).
  { intros w I N. destruct (word_none w s t N) as [|(w2 & N2 & E)]; auto. rewrite (prefix_fails w s w2 I N2 E) in H. discriminate. }
  assert (J := H). unfold scan_scalar in H |- *.
  destruct (word (text_of "null") s) as [r1|] eqn:E1.
  { rewrite (word_ext _ _ _ t E1). injection H as <- ->. reflexivity. }
  assert (K1 := K (text_of "null") ltac:(cbn; tauto) E1). rewrite K1. destruct (word (text_of "true") s) as [r1|] eqn:E2.
  { rewrite (word_ext _ _ _ t E2). injection H as <- ->. reflexivity. }
  assert (K2 := K (text_of "true") ltac:(cbn; tauto) E2). rewrite K2. destruct (word (text_of "false") s) as [r1|] eqn:E3.
  { rewrite (word_ext _ _ _ t E3). injection H as <- ->. reflexivity. }
  assert (K3 := K (text_of "false") ltac:(cbn; tauto) E3). rewrite K3. destruct (scan_number s) as [[a r1]|] eqn:E4.
  { assert (r1 = c :: q) by congruence. subst. rewrite (number_ext s a c q t E4 X Y). assert (v = JNum a) by congruence. subst. reflexivity. }
  destruct (word (text_of "NaN") s) as [r1|] eqn:E5.
  { assert (r1 = c :: q) by congruence. subst. assert (s = text_of "NaN" ++ c :: q) by now apply word_app. subst. assert (v = JNum (text_of "NaN")) by congruence. subst. reflexivity. }
  destruct (word (text_of "Infinity") s) as [r1|] eqn:E6.
  { assert (r1 = c :: q) by congruence. subst. assert (s = text_of "Infinity" ++ c :: q) by now apply word_app. subst. assert (v = JNum (text_of "Infinity")) by congruence. subst. reflexivity. }
  destruct (word (text_of "-Infinity") s) as [r1|] eqn:E7; [|discriminate].
  assert (r1 = c :: q) by congruence. subst. assert (s = text_of "-Infinity" ++ c :: q) by now apply word_app. subst. assert (v = JNum (text_of "-Infinity")) by congruence. subst. reflexivity.
Qed.

Definition opens (s : text) : Prop := match s with c :: _ => In c [dq; "["%char; "{"%char] | [] => False end.
Lemma scan_nil n : scan n [] = Err ValueError.
Proof. destruct n; reflexivity. Qed.
Lemma items_nil n : scan_items n [] = Err ValueError.
Proof. destruct n; [reflexivity|]. cbn [scan_items]. now rewrite scan_nil. Qed.
Lemma members_nil n : scan_members n [] = Err ValueError.
Proof. destruct n; reflexivity. Qed.
Lemma scan_ext n :
  (forall s v r t, scan n s = Ok (v, r) -> delim r \/ opens s -> scan n (s ++ t) = Ok (v, r ++ t)) /\
  (forall s l r t, scan_items n s = Ok (l, r) -> scan_items n (s ++ t) = Ok (l, r ++ t)) /\
  (forall s l r t, scan_members n s = Ok (l, r) -> scan_members n (s ++ t) = Ok (l, r ++ t)).
Proof.
  induction n as [|n (IHs & IHi & IHm)]; [repeat split; cbn; discriminate|]. split; [|split].
  - intros s v r t H D. destruct s as [|c s]; [discriminate|]. cbn [app]. cbn [scan] in *.
    destruct (Ascii.eqb_spec c dq).
    { destruct (scanstring s) as [[a q]|] eqn:E; [|discriminate]. cbn [bind fst snd] in H. rewrite (scanstring_ext _ s a q t (le_n _) E). cbn [bind fst snd]. injection H as <- <-. reflexivity. }
    destruct (Ascii.eqb_spec c "["%char).
    { destruct (skip_ws s) as [|d s2] eqn:E; [discriminate|]. rewrite (skip_ext _ _ _ t E). destruct (Ascii.eqb d "]").
      - injection H as <- <-. reflexivity.
      - destruct (scan_items n (d :: s2)) as [[l q]|] eqn:F; [|discriminate]. cbn [bind fst snd] in H.
        assert (G := IHi _ _ _ t F). cbn [app] in G. rewrite G. cbn [bind fst snd]. injection H as <- <-. reflexivity. }
    destruct (Ascii.eqb_spec c "{"%char).
    { destruct (skip_ws s) as [|d s2] eqn:E; [discriminate|]. rewrite (skip_ext _ _ _ t E). destruct (Ascii.eqb d "}").
      - injection H as <- <-. reflexivity.
      - destruct (scan_members n (d :: s2)) as [[l q]|] eqn:F; [|discriminate]. cbn [bind fst snd] in H.
        assert (G := IHm _ _ _ t F). cbn [app] in G. rewrite G. cbn [bind fst snd]. injection H as <- <-. reflexivity. }
    destruct D as [D|D]; [|cbn in D; exfalso; destruct D as [D|[D|[D|[]]]]; congruence].
    rewrite app_comm_cons. now apply scalar_ext.
  - intros s l r t H. cbn [scan_items] in *. destruct (scan n s) as [[v q]|] eqn:E; [|discriminate]. cbn [bind fst snd] in H.
    destruct (skip_ws q) as [|c s'] eqn:W; [discriminate|].
    assert (D : delim q).
    { exists c, s'. split; auto. cbn. destruct (Ascii.eqb_spec c "]"%char); [auto|]. destruct (Ascii.eqb_spec c ","%char); [auto|]. discriminate. }
    rewrite (IHs _ _ _ t E (or_introl D)). cbn [bind fst snd]. rewrite (skip_ext _ _ _ t W). destruct (Ascii.eqb c "]"); [injection H as <- <-; reflexivity|].
    destruct (Ascii.eqb c ","); [|discriminate]. destruct (scan_items n (skip_ws s')) as [[l2 q2]|] eqn:F; [|discriminate]. cbn [bind fst snd] in H.
    assert (Z : skip_ws (s' ++ t) = skip_ws s' ++ t).
    { destruct (skip_ws s') as [|d s2] eqn:Y; [rewrite ?items_nil, ?members_nil in F; discriminate F|]. now rewrite (skip_ext _ _ _ t Y). }
    rewrite Z, (IHi _ _ _ t F). cbn [bind fst snd]. injection H as <- <-. reflexivity.
  - intros s l r t H. cbn [scan_members] in *. destruct s as [|c s]; [discriminate|]. cbn [app]. destruct (Ascii.eqb c dq); [|discriminate].
    destruct (scanstring s) as [[k q]|] eqn:K; [|discriminate]. rewrite (scanstring_ext _ s k q t (le_n _) K). cbn [bind fst snd] in *.
    destruct (skip_ws q) as [|d s1] eqn:W1; [discriminate|]. rewrite (skip_ext _ _ _ t W1). destruct (Ascii.eqb d ":"); [|discriminate].
    destruct (scan n (skip_ws s1)) as [[v q1]|] eqn:E; [|discriminate]. cbn [bind fst snd] in H.
    destruct (skip_ws q1) as [|c2 s'] eqn:W; [discriminate|].
    assert (D : delim q1).
    { exists c2, s'. split; auto. cbn. destruct (Ascii.eqb_spec c2 "}"%char); [auto|]. destruct (Ascii.eqb_spec c2 ","%char); [auto|]. discriminate. }
    assert (Z1 : skip_ws (s1 ++ t) = skip_ws s1 ++ t).
    { destruct (skip_ws s1) as [|d2 s2] eqn:Y; [rewrite scan_nil in E; discriminate E|]. now rewrite (skip_ext _ _ _ t Y). }
    rewrite Z1, (IHs _ _ _ t E (or_introl D)). cbn [bind fst snd]. rewrite (skip_ext _ _ _ t W). destruct (Ascii.eqb c2 "}"); [injection H as <- <-; reflexivity|].
    destruct (Ascii.eqb c2 ","); [|discriminate]. destruct (scan_members n (skip_ws s')) as [[l2 q2]|] eqn:F; [|discriminate]. cbn [bind fst snd] in H.
    assert (Z : skip_ws (s' ++ t) = skip_ws s' ++ t).
    { destruct (skip_ws s') as [|d2 s2] eqn:Y; [rewrite ?items_nil, ?members_nil in F; discriminate F|]. now rewrite (skip_ext _ _ _ t Y). }
    rewrite Z, (IHm _ _ _ t F). cbn [bind fst snd]. injection H as <- <-. reflexivity.
Qed.
(** More calls do not change a result. *)
Lemma scan_more n :
  (forall s x, scan n s = Ok x -> scan (S n) s = Ok x) /\
  (forall s x, scan_items n s = Ok x -> scan_items (S n) s = Ok x) /\
  (forall s x, scan_members n s = Ok x -> scan_members (S n) s = Ok x).
Proof.
  induction n as [|n (IHs & IHi & IHm)]; [repeat split; cbn; discriminate|]. split; [|split]; intros s x H.
  - destruct s as [|c s]; [discriminate|]. remember (S n) as m. cbn [scan]. subst m. cbn [scan] in H.
    destruct (Ascii.eqb c dq); auto. destruct (Ascii.eqb c "[").
    { destruct (skip_ws s) as [|d s2]; auto. destruct (Ascii.eqb d "]"); auto. destruct (scan_items n (d :: s2)) eqn:E; [|discriminate]. now rewrite (IHi _ _ E). }
    destruct (Ascii.eqb c "{"); auto. destruct (skip_ws s) as [|d s2]; auto. destruct (Ascii.eqb d "}"); auto. destruct (scan_members n (d :: s2)) eqn:E; [|discriminate]. now rewrite (IHm _ _ E).
  - remember (S n) as m. cbn [scan_items]. subst m. cbn [scan_items] in H. destruct (scan n s) as [v|] eqn:E; [|discriminate]. rewrite (IHs _ _ E). cbn [bind] in *.
    destruct (skip_ws (snd v)) as [|c s']; auto. destruct (Ascii.eqb c "]"); auto. destruct (Ascii.eqb c ","); auto.
    destruct (scan_items n (skip_ws s')) eqn:F; [|discriminate]. now rewrite (IHi _ _ F).
  - remember (S n) as m. cbn [scan_members]. subst m. cbn [scan_members] in H. destruct s as [|c s]; auto. destruct (Ascii.eqb c dq); auto. destruct (scanstring s) as [k|]; auto. cbn [bind] in *.
    destruct (skip_ws (snd k)) as [|d s1]; auto. destruct (Ascii.eqb d ":"); auto. destruct (scan n (skip_ws s1)) as [v|] eqn:E; [|discriminate]. rewrite (IHs _ _ E). cbn [bind] in *.
    destruct (skip_ws (snd v)) as [|e s']; auto. destruct (Ascii.eqb e "}"); auto. destruct (Ascii.eqb e ","); auto.
    destruct (scan_members n (skip_ws s')) eqn:F; [|discriminate]. now rewrite (IHm _ _ F).
Qed.
Lemma scan_le n m s x : (n <= m)%nat -> scan n s = Ok x -> scan m s = Ok x.
Proof. induction 1; auto. intros H'. apply scan_more. auto. Qed.
(** All failures are ValueErrors. *)
Lemma scanstring_err n : forall s e, (length s <= n)%nat -> scanstring s = Err e -> e = ValueError.
Proof.
  induction n as [|n IH]; intros [|c s] e Hn; cbn [length] in Hn; try (cbn; congruence); try lia. cbn [scanstring].
  destruct (Ascii.eqb c dq); [discriminate|]. destruct (Ascii.eqb c bs).
  - destruct s as [|e' s2]; [congruence|]. destruct (Ascii.eqb e' "u").
    + destruct s2 as [|x [|y [|h [|l s3]]]]; try congruence. destruct (hex_value x) as [[|]|]; try congruence. destruct (hex_value y) as [[|]|]; try congruence.
      destruct (hex_value h); try congruence. destruct (hex_value l); try congruence. destruct (scanstring s3) eqn:E; [discriminate|]. cbn [bind]. intros [= <-]. cbn [length] in Hn. eapply IH; [|exact E]. lia.
    + destruct (unescape e'); [|congruence]. destruct (scanstring s2) eqn:E; [discriminate|]. cbn [bind]. intros [= <-]. cbn [length] in Hn. eapply IH; [|exact E]. lia.
  - destruct (nat_of_ascii c <? 32)%nat; [congruence|]. destruct (scanstring s) eqn:E; [discriminate|]. cbn [bind]. intros [= <-]. eapply IH; [|exact E]. lia.
Qed.
Lemma scalar_err s e : scan_scalar s = Err e -> e = ValueError.
Proof.
  unfold scan_scalar. repeat match goal with |- context [match word ?w s with _ => _ end] => destruct (word w s); [discriminate|] | |- context [match scan_number s with _ => _ end] => destruct (scan_number s) as [[]|]; [discriminate|] end. congruence.
Qed.
Lemma scan_err n :
  (forall s e, scan n s = Err e -> e = ValueError) /\ (forall s e, scan_items n s = Err e -> e = ValueError) /\ (forall s e, scan_members n s = Err e -> e = ValueError).
Proof.
  induction n as [|n (IHs & IHi & IHm)]; [repeat split; cbn; congruence|]. split; [|split]; intros s e H.
  - destruct s as [|c s]; cbn [scan] in H; [congruence|]. destruct (Ascii.eqb c dq).
    { destruct (scanstring s) eqn:E; [discriminate|]. cbn [bind] in H. injection H as <-. eapply scanstring_err; [|exact E]; auto. }
    destruct (Ascii.eqb c "[").
    { destruct (skip_ws s) as [|d s2]; [congruence|]. destruct (Ascii.eqb d "]"); [discriminate|]. destruct (scan_items n (d :: s2)) eqn:E; [discriminate|]. cbn [bind] in H. injection H as <-. eauto. }
    destruct (Ascii.eqb c "{").
    { destruct (skip_ws s) as [|d s2]; [congruence|]. destruct (Ascii.eqb d "}"); [discriminate|]. destruct (scan_members n (d :: s2)) eqn:E; [discriminate|]. cbn [bind] in H. injection H as <-. eauto. }
    eapply scalar_err; eauto.
  - cbn [scan_items] in H. destruct (scan n s) as [v|] eqn:E; cbn [bind] in H; [|injection H as <-; eauto].
    destruct (skip_ws (snd v)) as [|c s']; [congruence|]. destruct (Ascii.eqb c "]"); [discriminate|]. destruct (Ascii.eqb c ","); [|congruence].
    destruct (scan_items n (skip_ws s')) eqn:F; [discriminate|]. cbn [bind] in H. injection H as <-. eauto.
  - cbn [scan_members] in H. destruct s as [|c s]; [congruence|]. destruct (Ascii.eqb c dq); [|congruence]. destruct (scanstring s) as [k|] eqn:K; cbn [bind] in H; [|injection H as <-; eapply scanstring_err; [|exact K]; auto].
    destruct (skip_ws (snd k)) as [|d s1]; [congruence|]. destruct (Ascii.eqb d ":"); [|congruence]. destruct (scan n (skip_ws s1)) as [v|] eqn:E; cbn [bind] in H; [|injection H as <-; eauto].
    destruct (skip_ws (snd v)) as [|e' s']; [congruence|]. destruct (Ascii.eqb e' "}"); [discriminate|]. destruct (Ascii.eqb e' ","); [|congruence].
    destruct (scan_members n (skip_ws s')) eqn:F; [discriminate|]. cbn [bind] in H. injection H as <-. eauto.
Qed.
Lemma loads_err s e : loads s = Err e -> e = ValueError.
Proof.
  unfold loads. destruct (scan _ _) as [v|] eqn:E; cbn [bind]; [destruct (skip_ws (snd v)); congruence|]. intros [= <-]. exact (proj1 (scan_err _) _ _ E).
Qed.

Lemma cut_off v p q : jgood v -> opens (dumps 0 v) -> dumps 0 v = p ++ q -> q <> [] -> loads p = Err ValueError.
Proof.
  intros G O E N. destruct (loads p) as [w|e] eqn:L; [exfalso|f_equal; eapply loads_err; eauto].
  destruct p as [|c p]; [discriminate|]. assert (Op : opens (c :: p)) by (rewrite E in O; exact O).
  assert (W : skip_ws (c :: p) = c :: p) by (apply skip_ws_nonws; cbn in Op; destruct Op as [<-|[<-|[<-|[]]]]; reflexivity).
  unfold loads in L. rewrite W in L. destruct (scan (2 * length (c :: p)) (c :: p)) as [[w' r]|] eqn:S; cbn [bind fst snd] in L; [|discriminate].
  assert (X := proj1 (scan_ext _) _ _ _ q S (or_intror Op)). rewrite <- E in X.
  assert (Y := reads_all v G 0%nat (2 * length (dumps 0 v))%nat [] ltac:(assert (Z := size_length v G 0); lia) I). rewrite app_nil_r in Y.
  apply (scan_le _ (2 * length (dumps 0 v))) in X; [|rewrite E, app_length; lia]. rewrite X in Y. injection Y as _ Y. apply app_eq_nil in Y. tauto.
Qed.
