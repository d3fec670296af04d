From Verif Require Import Prelude M_Dates M_Accounts M_Ledger Spec_Ledger P_Ledger P_Reports M_Ieee Spec_Ieee P_Ieee M_FloatReports Spec_FloatReports.
From Coq Require Import Reals Qreals List Permutation Lra Lia.
Import ListNotations.
Open Scope string_scope.

(** * Ghost dictionaries: the floats that went into each line *)
Definition pdict := list (string * list float64).
Fixpoint pupd (k : string) (x x0 : float64) (d : pdict) : pdict :=
  match d with
  | [] => [(k, [x0])]
  | (k', xs) :: r => if k' =? k then (k', (xs ++ [x])%list) :: r else (k', xs) :: pupd k x x0 r
  end.
Fixpoint plook (k : string) (d : pdict) : list float64 :=
  match d with [] => [] | (k', xs) :: r => if k' =? k then xs else plook k r end.
Definition flat (d : pdict) : list float64 := concat (map snd d).
Definition exacts (d : dict) (p : pdict) : Prop := Forall2 (fun (e : string * Qc) (q : string * list float64) => fst e = fst q /\ Q2R (this (snd e)) = exact_sum (snd q)) d p.
Definition floats (f : fdict) (p : pdict) : Prop := Forall2 (fun (e : string * float64) (q : string * list float64) => fst e = fst q /\ adds (snd q) (snd e)) f p.

Lemma Q2R_plus_c (a b : Qc) : Q2R (a + b)%Qc = (Q2R a + Q2R b)%R.
Proof. unfold Qcplus, Q2Qc. cbn [this]. rewrite <- Q2R_plus. apply Qeq_eqR. apply Qred_correct. Qed.
Lemma Q2R_opp_c (a : Qc) : Q2R (- a)%Qc = (- Q2R a)%R.
Proof. unfold Qcopp, Q2Qc. cbn [this]. rewrite <- Q2R_opp. apply Qeq_eqR. apply Qred_correct. Qed.
Lemma Q2R_minus_c (a b : Qc) : Q2R (a - b)%Qc = (Q2R a - Q2R b)%R.
Proof. unfold Qcminus. rewrite Q2R_plus_c, Q2R_opp_c. reflexivity. Qed.
Lemma Q2R_0_c : Q2R 0%Qc = 0%R. Proof. apply RMicromega.Q2R_0. Qed.

Lemma exacts_upd k (dl i : Qc) x x0 d p : Q2R dl = value x -> Q2R i = value x0 -> exacts d p -> exacts (dict_upd k dl i d) (pupd k x x0 p).
Proof.
  intros Hd Hi H. induction H as [|[k1 v] [k2 xs] d p [E1 E2] H IH]; cbn [dict_upd pupd fst snd] in *.
  - constructor; [|constructor]. cbn [fst snd]. split; auto. rewrite sum_cons, Hi. change (exact_sum []) with 0%R. lra.
  - subst k2. destruct (k1 =? k); constructor; auto. cbn [fst snd]. split; auto. rewrite Q2R_plus_c, exact_sum_app, E2, Hd, sum_cons. change (exact_sum []) with 0%R. lra.
Qed.
Lemma floats_upd k upd x x0 f p : (forall xs v, adds xs v -> adds (xs ++ [x]) (upd v)) -> floats f p -> floats (fdict_upd k upd x0 f) (pupd k x x0 p).
Proof.
  intros Hu H. induction H as [|[k1 v] [k2 xs] d p [E1 E2] H IH]; cbn [fdict_upd pupd fst snd] in *.
  - constructor; [|constructor]. cbn [fst snd]. split; auto. constructor.
  - subst k2. destruct (k1 =? k); constructor; auto; cbn [fst snd]; auto.
Qed.
Lemma plus_adds x xs v : adds xs v -> adds (xs ++ [x]) (plus_ x v).
Proof. intros H. apply adds_two; [exact H|constructor]. Qed.
Lemma minus_adds x xs v : adds xs v -> adds (xs ++ [neg64 x]) (minus_ x v).
Proof. intros H. unfold minus_. rewrite sub_add. apply adds_two; [exact H|constructor]. Qed.

(** * Measures *)
Lemma flat_upd_len k x x0 p : length (flat (pupd k x x0 p)) = S (length (flat p)).
Proof.
  unfold flat. induction p as [|[k1 xs] p IH]; [reflexivity|]. cbn [pupd]. destruct (k1 =? k); cbn [map snd concat]; rewrite ?app_length; cbn [length]; [lia|]. rewrite IH. lia.
Qed.
Lemma flat_upd_turn k x x0 p : Rabs (value x) = Rabs (value x0) -> exact_turnover (flat (pupd k x x0 p)) = (exact_turnover (flat p) + Rabs (value x))%R.
Proof.
  intros E. unfold flat. induction p as [|[k1 xs] p IH].
  - cbn [pupd map snd concat app]. rewrite turnover_cons. change (exact_turnover []) with 0%R. lra.
  - cbn [pupd]. destruct (k1 =? k); cbn [map snd concat]; rewrite ?turnover_app, ?turnover_cons; [change (exact_turnover []) with 0%R; lra|]. rewrite IH. lra.
Qed.
Lemma plook_upd_len k k' x x0 p : length (plook k' (pupd k x x0 p)) = ((if (k =? k')%string then 1 else 0) + length (plook k' p))%nat.
Proof.
  induction p as [|[k1 xs] p IH]; cbn [pupd plook].
  - destruct (k =? k'); reflexivity.
  - destruct (k1 =? k) eqn:E.
    + apply String.eqb_eq in E. subst k1. cbn [plook]. destruct (k =? k'); rewrite ?app_length; cbn [length]; lia.
    + cbn [plook]. destruct (k1 =? k') eqn:E2; auto. apply String.eqb_eq in E2. subst k1. rewrite String.eqb_sym in E. rewrite E. lia.
Qed.
Lemma plook_upd_turn k k' x x0 p : Rabs (value x) = Rabs (value x0) ->
  exact_turnover (plook k' (pupd k x x0 p)) = ((if (k =? k')%string then Rabs (value x) else 0) + exact_turnover (plook k' p))%R.
Proof.
  intros Ex. induction p as [|[k1 xs] p IH]; cbn [pupd plook].
  - destruct (k =? k'); [rewrite turnover_cons|]; change (exact_turnover []) with 0%R; lra.
  - destruct (k1 =? k) eqn:E.
    + apply String.eqb_eq in E. subst k1. cbn [plook]. destruct (k =? k'); rewrite ?turnover_app, ?turnover_cons; change (exact_turnover []) with 0%R; lra.
    + cbn [plook]. destruct (k1 =? k') eqn:E2; auto. apply String.eqb_eq in E2. subst k1. rewrite String.eqb_sym in E. rewrite E. lra.
Qed.
Lemma pkeys_upd k x x0 p : NoDup (map fst p) -> NoDup (map fst (pupd k x x0 p)) /\ (forall k', In k' (map fst (pupd k x x0 p)) -> k' = k \/ In k' (map fst p)).
Proof.
  induction p as [|[k1 xs] p IH]; intros N; cbn [pupd map fst].
  - split; [repeat constructor; intros []|]. intros k' [<-|[]]; auto.
  - inversion N as [|? ? N1 N2]; subst. destruct (k1 =? k) eqn:E; cbn [map fst]; [split; [exact N|intros; right; auto]|]. destruct (IH N2) as [A B]. split.
    + constructor; auto. intros I. apply B in I. destruct I as [->|I]; auto. rewrite String.eqb_refl in E. discriminate.
    + intros k' [<-|I]; [right; now left|]. apply B in I. destruct I; auto. right; now right.
Qed.
Lemma flat_upd_in k x x0 p y : In y (flat (pupd k x x0 p)) -> y = x \/ y = x0 \/ In y (flat p).
Proof.
  unfold flat. induction p as [|[k1 xs] p IH]; cbn [pupd map snd concat].
  - intros [<-|[]]; auto.
  - destruct (k1 =? k); cbn [map snd concat]; intros I; apply in_app_or in I.
    + destruct I as [I|I]; [|right; right; apply in_or_app; auto]. apply in_app_or in I. destruct I as [I|[<-|[]]]; auto. right; right. apply in_or_app; auto.
    + destruct I as [I|I]; [right; right; apply in_or_app; auto|]. apply IH in I. destruct I as [I|[I|I]]; auto. right; right. apply in_or_app; auto.
Qed.
Lemma plook_in p k xs : NoDup (map fst p) -> In (k, xs) p -> plook k p = xs.
Proof.
  induction p as [|[k1 ys] p IH]; intros N I; [contradiction|]. inversion N as [|? ? N1 N2]; subst. cbn [plook]. destruct I as [I|I].
  - injection I as -> ->. now rewrite String.eqb_refl.
  - destruct (k1 =? k) eqn:E; auto. apply String.eqb_eq in E. subst k1. exfalso. apply N1. apply in_map_iff. exists (k, xs). auto.
Qed.

(** * The sides of the transactions *)
Definition side := (option string * float64)%type.
Definition at_side (k : string) (S : list side) : list float64 := map snd (filter (fun s => is_acc (fst s) k) S).
Definition sides (l : list (tx * float64)) : list side := flat_map (fun p => [(tx_cr (fst p), snd p); (tx_dt (fst p), snd p)]) l.
Lemma at_sides k l : at_side k (sides l) = on_account k l.
Proof.
  induction l as [|[t x] l IH]; [reflexivity|]. unfold at_side, sides, on_account in *. cbn [flat_map app fst snd filter].
  destruct (is_acc (tx_cr t) k), (is_acc (tx_dt t) k); cbn [map snd app]; rewrite IH; reflexivity.
Qed.
Lemma at_side_app k S S' : at_side k (S ++ S') = (at_side k S ++ at_side k S')%list.
Proof. unfold at_side. now rewrite filter_app, map_app. Qed.
Lemma at_side_one k s x : at_side k [(Some s, x)] = if (s =? k)%string then [x] else [].
Proof. unfold at_side. cbn [filter fst is_acc]. destruct (s =? k); reflexivity. Qed.
Lemma sides_len l : length (sides l) = (2 * length l)%nat.
Proof. induction l as [|p l IH]; [reflexivity|]. unfold sides in *. cbn [flat_map app length]. lia. Qed.
Lemma sides_turn l : exact_turnover (map snd (sides l)) = (2 * exact_turnover (map snd l))%R.
Proof. induction l as [|p l IH]; [cbn; lra|]. unfold sides in *. cbn [flat_map app map snd]. rewrite !turnover_cons, IH. lra. Qed.
Lemma sides_app l m : sides (l ++ m) = (sides l ++ sides m)%list.
Proof. unfold sides. apply flat_map_app. Qed.

Definition inv (g : gls) (T : atype) (p : pdict) (S : list side) : Prop :=
  NoDup (map fst p) /\ (forall k, In k (map fst p) -> tyb g (Some k) T = true) /\
  (forall k, (length (plook k p) <= length (at_side k S))%nat /\ (exact_turnover (plook k p) <= exact_turnover (at_side k S))%R) /\
  (forall y, In y (flat p) -> exists x, In x (map snd S) /\ (y = x \/ y = neg64 x)).
Definition dict_rel (g : gls) (T : atype) (S : list side) (d : dict) (f : fdict) (p : pdict) : Prop := exacts d p /\ floats f p /\ inv g T p S.

Lemma rel_skip g T S S' d f p : dict_rel g T S d f p -> dict_rel g T (S ++ S') d f p.
Proof.
  intros (A & B & N & Ty & M & P). repeat (split; auto).
  - destruct (M k) as [M1 M2]. rewrite at_side_app, app_length. lia.
  - destruct (M k) as [M1 M2]. rewrite at_side_app, turnover_app. pose proof (turnover_pos (at_side k S')). lra.
  - intros y I. destruct (P y I) as (x & Ix & E). exists x. split; auto. rewrite map_app. apply in_or_app; auto.
Qed.
Lemma rel_post g T S d f p s x (dl i : Qc) upd y y0 : dict_rel g T S d f p -> tyb g (Some s) T = true ->
  Q2R dl = value y -> Q2R i = value y0 -> y = x \/ y = neg64 x -> y0 = x \/ y0 = neg64 x ->
  (forall xs v, adds xs v -> adds (xs ++ [y]) (upd v)) ->
  dict_rel g T (S ++ [(Some s, x)]) (dict_upd s dl i d) (fdict_upd s upd y0 f) (pupd s y y0 p).
Proof.
  intros (A & B & N & Ty & M & P) Hs Hd Hi Hy Hy0 Hu.
  assert (Ay : Rabs (value y) = Rabs (value x)) by (destruct Hy as [->| ->]; rewrite ?neg_value, ?Rabs_Ropp; reflexivity).
  assert (Ay0 : Rabs (value y0) = Rabs (value x)) by (destruct Hy0 as [->| ->]; rewrite ?neg_value, ?Rabs_Ropp; reflexivity).
  split; [now apply exacts_upd|]. split; [now apply floats_upd|].
  destruct (pkeys_upd s y y0 p N) as [N' K']. split; auto. split; [|split].
  - intros k I. apply K' in I. destruct I as [->|I]; auto.
  - intros k. destruct (M k) as [M1 M2]. rewrite plook_upd_len, plook_upd_turn, at_side_app, app_length, turnover_app by congruence.
    rewrite at_side_one. destruct (s =? k); cbn [length]; rewrite ?turnover_cons; change (exact_turnover []) with 0%R; split; try lia; lra.
  - intros z I. apply flat_upd_in in I. rewrite map_app. destruct I as [->|[->|I]].
    + exists x. split; auto. apply in_or_app. right. now left.
    + exists x. split; auto. apply in_or_app. right. now left.
    + destruct (P z I) as (w & Iw & E). exists w. split; auto. apply in_or_app; auto.
Qed.

(** * Balance sheet *)
Definition size3 (a b c : pdict) : nat := (length (flat a) + (length (flat b) + length (flat c)))%nat.
Definition turn3 (a b c : pdict) : R := (exact_turnover (flat a) + (exact_turnover (flat b) + exact_turnover (flat c)))%R.
Definition bs_rel (g : gls) (S : list side) (s : bs_acc) (f : fbs_acc) : Prop :=
  exists a b c, dict_rel g Asset S (bs_assets s) (fb_assets f) a /\ dict_rel g Liability S (bs_liab s) (fb_liab f) b /\
    dict_rel g Equity S (bs_equity s) (fb_equity f) c /\ (size3 a b c <= length S)%nat /\ (turn3 a b c <= exact_turnover (map snd S))%R.

Lemma side_turn S s x : exact_turnover (map snd (S ++ [(s, x) : side])) = (exact_turnover (map snd S) + Rabs (value x))%R.
Proof.
  unfold side. rewrite map_app, turnover_app. f_equal. change (map snd [(s, x)]) with [x]. rewrite turnover_cons. change (exact_turnover []) with 0%R. apply Rplus_0_r.
Qed.
Lemma abs_neg x : Rabs (value (neg64 x)) = Rabs (value x).
Proof. rewrite neg_value. apply Rabs_Ropp. Qed.
Lemma q_neg (v : Qc) x : value x = Q2R v -> Q2R (- v)%Qc = value (neg64 x).
Proof. intros H. now rewrite neg_value, Q2R_opp_c, H. Qed.

Ltac post1 x := first
  [ apply rel_skip; eassumption
  | eapply (rel_post _ _ _ _ _ _ _ x _ _ _ x x); [eassumption|eassumption|symmetry; assumption|symmetry; assumption|left; reflexivity|left; reflexivity|apply plus_adds]
  | eapply (rel_post _ _ _ _ _ _ _ x _ _ _ (neg64 x) (neg64 x)); [eassumption|eassumption|apply q_neg; assumption|apply q_neg; assumption|right; reflexivity|right; reflexivity|apply minus_adds]
  | eapply (rel_post _ _ _ _ _ _ _ x _ _ _ (neg64 x) x); [eassumption|eassumption|apply q_neg; assumption|symmetry; assumption|right; reflexivity|left; reflexivity|apply minus_adds] ].
Ltac post3 x := eexists _, _, _; (split; [post1 x|]); (split; [post1 x|]); (split; [post1 x|]);
  unfold size3, turn3 in *; rewrite ?flat_upd_len, ?flat_upd_turn, ?abs_neg, side_turn, app_length by (rewrite ?abs_neg; reflexivity); cbn [length]; split; [lia|lra].

Lemma bs_credit_rel g S s f ty k (v : Qc) x : bs_rel g S s f -> tyb g (Some k) ty = true -> value x = Q2R v ->
  bs_rel g (S ++ [(Some k, x)]) (bs_credit ty k v s) (fbs_credit ty k x f).
Proof.
  intros (a & b & c & Ra & Rb & Rc & N & T) Hk Hv. pose proof (Rabs_pos (value x)) as P. destruct ty; cbn [bs_credit fbs_credit];
    unfold bs_rel; cbn [bs_assets bs_liab bs_equity fb_assets fb_liab fb_equity].
  all: post3 x.
Qed.
Lemma bs_debit_rel g S s f ty k (v : Qc) x : bs_rel g S s f -> tyb g (Some k) ty = true -> value x = Q2R v ->
  bs_rel g (S ++ [(Some k, x)]) (bs_debit ty k v s) (fbs_debit ty k x f).
Proof.
  intros (a & b & c & Ra & Rb & Rc & N & T) Hk Hv. pose proof (Rabs_pos (value x)) as P. destruct ty; cbn [bs_debit fbs_debit];
    unfold bs_rel; cbn [bs_assets bs_liab bs_equity fb_assets fb_liab fb_equity].
  all: post3 x.
Qed.

Notation okp := (fun p : tx * float64 => finite (snd p) /\ value (snd p) = Q2R (tx_amount (fst p))).
Lemma tyb_type g o T : account_type_of g o = Ok T -> exists k, o = Some k /\ tyb g (Some k) T = true.
Proof. intros H. apply account_type_of_ok in H. destruct H as [(k & a & -> & _) H]. eauto. Qed.

Lemma bs_fold_rel g fin l : forall S s f, bs_rel g S s f -> Forall okp l ->
  agree (bs_rel g (S ++ sides (fupto fin l))) (foldM (bs_step g fin) (map fst l) s) (foldM (fbs_step g fin) l f).
Proof.
  induction l as [|[t x] l IH]; intros S s f R F; cbn [map foldM fst snd].
  - cbn. now rewrite app_nil_r.
  - inversion F as [|? ? Hx F']; subst. cbn [fst snd] in Hx. destruct Hx as [Fx Vx]. unfold bs_step at 1, fbs_step at 1. cbn [fst snd].
    destruct (py_le (tx_date t) fin) as [le|e] eqn:L; cbn [bind]; [|reflexivity].
    assert (E : py_leb (tx_date t) fin = le).
    { unfold py_le in L. unfold py_leb. destruct (tx_date t), fin; cbn in L |- *; congruence. }
    unfold fupto. cbn [filter fst]. fold (fupto fin l). rewrite E. destruct le; cbn [bind].
    + destruct (account_type_of g (tx_cr t)) as [ct|e] eqn:C; cbn [bind]; [|reflexivity].
      destruct (account_type_of g (tx_dt t)) as [dt|e] eqn:D; cbn [bind]; [|reflexivity].
      destruct (tyb_type _ _ _ C) as (kc & Kc & Tc). destruct (tyb_type _ _ _ D) as (kd & Kd & Td).
      change (sides ((t, x) :: fupto fin l)) with ([(tx_cr t, x)] ++ [(tx_dt t, x)] ++ sides (fupto fin l))%list. rewrite !app_assoc.
      apply IH; auto. rewrite Kc, Kd. cbn [str_of]. apply bs_debit_rel; auto. apply bs_credit_rel; auto.
    + apply IH; auto.
Qed.

(** * What the relation says about lines and totals *)
Lemma rel_lines g T S d f p ts : dict_rel g T S d f p -> S = sides ts -> Forall2 (line_close ts) d f.
Proof.
  intros (A & B & N & Ty & M & _) ->.
  assert (G : forall k xs, In (k, xs) p -> (length xs <= length (on_account k ts))%nat /\ (exact_turnover xs <= exact_turnover (on_account k ts))%R).
  { intros k xs I. rewrite <- at_sides. rewrite <- (plook_in p k xs N I). apply M. }
  clear N Ty M. revert d f A B. induction p as [|[k xs] p IH]; intros d f A B; inversion A as [|[k1 v] ? d' ? [E1 E2] A']; inversion B as [|[k2 w] ? f' ? [E3 E4] B']; subst; constructor.
  - cbn [fst snd] in *. subst. split; [reflexivity|]. intros Fw. cbn [snd fst] in *. rewrite E2. destruct (G k xs (or_introl eq_refl)) as [G1 G2].
    eapply Rle_trans; [apply adds_error; eauto|]. apply Rmult_le_compat; auto using gamma_pos, turnover_pos. apply gamma_mono. lia.
  - apply IH; auto. intros k' xs' I. apply G. now right.
Qed.
Lemma fold_parts f : forall p m v, floats f p -> adds m v -> adds (m ++ flat p) (fold_left add64 (map snd f) v).
Proof.
  induction f as [|[k w] f IH]; intros p m v B H; inversion B as [|? [k2 xs] ? p' [E1 E2] B']; subst.
  - cbn. now rewrite app_nil_r.
  - cbn [map snd fold_left]. unfold flat. cbn [map snd concat]. fold (flat p'). rewrite app_assoc. apply IH; auto. apply adds_two; auto.
Qed.
Lemma total_adds f p : floats f p -> adds (flat p) (dict_sum64 f).
Proof. intros B. apply (fold_parts f p [] zero64 B). constructor. Qed.
Lemma total_exact d p : exacts d p -> Q2R (dict_sum d) = exact_sum (flat p).
Proof.
  induction 1 as [|[k v] [k2 xs] d p [E1 E2] H IH]; [apply Q2R_0_c|]. unfold dict_sum in *. cbn [map snd].
  change (Qcsum (v :: map snd d)) with (v + Qcsum (map snd d))%Qc. rewrite Q2R_plus_c, IH. unfold flat. cbn [map snd concat]. rewrite exact_sum_app.
  cbn [snd] in E2. rewrite E2. reflexivity.
Qed.
Lemma close_of ts xs v (e : Qc) : adds xs v -> Q2R e = exact_sum xs -> (length xs <= 2 * length ts)%nat -> (exact_turnover xs <= 2 * exact_turnover (map snd ts))%R -> close_to 2 ts e v.
Proof.
  intros H E L T Fv. rewrite E. change (INR 2) with 2%R. eapply Rle_trans; [apply adds_error; eauto|]. apply Rmult_le_compat; auto using gamma_pos, turnover_pos. apply gamma_mono. lia.
Qed.

Lemma bs_start g : bs_rel g [] (mkbs [] [] []) (mkfbs [] [] []).
Proof.
  assert (D : forall T, dict_rel g T [] [] [] []).
  { intros T. split; [constructor|]. split; [constructor|]. split; [constructor|]. split; [intros k []|]. split; [intros k; cbn; split; [lia|lra]|]. intros y []. }
  exists [], [], []. repeat (split; [apply D|]). cbn. split; [lia|]. unfold turn3. cbn. lra.
Qed.
Lemma sheet_rel l fin : faithful l ->
  agree (fun sh fs => exists a b c, let S := sides (fupto fin (fl_txs l)) in let g := fl_structure l in
    dict_rel g Asset S (sheet_assets sh) (fs_assets fs) a /\ dict_rel g Liability S (sheet_liab sh) (fs_liab fs) b /\ dict_rel g Equity S (sheet_equity sh) (fs_equity fs) c /\
    (size3 a b c <= length S)%nat /\ (turn3 a b c <= exact_turnover (map snd S))%R /\
    adds (flat a) (fs_total_assets fs) /\ adds (flat b) (fs_total_liab fs) /\ adds (flat c) (fs_total_equity fs) /\ adds (flat b ++ flat c) (fs_total_le fs) /\
    Q2R (sheet_total_assets sh) = exact_sum (flat a) /\ Q2R (sheet_total_liab sh) = exact_sum (flat b) /\ Q2R (sheet_total_equity sh) = exact_sum (flat c) /\
    Q2R (sheet_total_le sh) = exact_sum (flat b ++ flat c))
  (balance_sheet_report (exact_ledger l) fin) (float_balance_sheet l fin).
Proof.
  intros F. pose proof (bs_fold_rel (fl_structure l) fin (fl_txs l) [] _ _ (bs_start _) F) as R. cbn [app] in R.
  unfold balance_sheet_report, float_balance_sheet, bs_sums, exact_ledger. cbn [l_structure l_txs].
  destruct (foldM (bs_step _ _) _ _) as [s|e]; destruct (foldM (fbs_step _ _) _ _) as [f|e']; cbn [bind agree] in *; auto; try contradiction.
  destruct R as (a & b & c & Ra & Rb & Rc & N & T). exists a, b, c. cbn [sheet_assets sheet_liab sheet_equity fs_assets fs_liab fs_equity fs_total_assets fs_total_liab fs_total_equity fs_total_le sheet_total_assets sheet_total_liab sheet_total_equity sheet_total_le].
  destruct Ra as (Xa & Ya & Za), Rb as (Xb & Yb & Zb), Rc as (Xc & Yc & Zc). split; [split; auto|]. split; [split; auto|]. split; [split; auto|]. split; auto. split; auto.
  split; [now apply total_adds|]. split; [now apply total_adds|]. split; [now apply total_adds|]. split; [apply adds_two; now apply total_adds|].
  rewrite Q2R_plus_c, !(total_exact _ _ Xb), !(total_exact _ _ Xc), (total_exact _ _ Xa), exact_sum_app. auto.
Qed.

Theorem balance_sheet_rounding l fin : faithful l ->
  let ts := fupto fin (fl_txs l) in
  agree (fun sh fs =>
    Forall2 (line_close ts) (sheet_assets sh) (fs_assets fs) /\ Forall2 (line_close ts) (sheet_liab sh) (fs_liab fs) /\ Forall2 (line_close ts) (sheet_equity sh) (fs_equity fs) /\
    close_to 2 ts (sheet_total_assets sh) (fs_total_assets fs) /\ close_to 2 ts (sheet_total_liab sh) (fs_total_liab fs) /\
    close_to 2 ts (sheet_total_equity sh) (fs_total_equity fs) /\ close_to 2 ts (sheet_total_le sh) (fs_total_le fs) /\
    (finite (fs_total_assets fs) -> finite (fs_total_le fs) ->
     (Rabs (value (fs_total_assets fs) - value (fs_total_le fs) - Q2R (income_net_credit (fl_structure l) (map fst ts))) <= gamma (2 * length ts) * (2 * exact_turnover (map snd ts)))%R))
  (balance_sheet_report (exact_ledger l) fin) (float_balance_sheet l fin).
Proof.
  intros F ts. pose proof (sheet_rel l fin F) as R. pose proof (balance_sheet_equation (exact_ledger l) fin) as EQ.
  destruct (balance_sheet_report _ _) as [sh|e]; destruct (float_balance_sheet _ _) as [fs|e']; cbn [agree] in *; auto.
  destruct R as (a & b & c & Ra & Rb & Rc & N & T & Aa & Ab & Ac & Abc & Ea & Eb & Ec & Ebc). fold ts in Ra, Rb, Rc, N, T.
  rewrite sides_len in N. rewrite sides_turn in T. unfold size3 in N. unfold turn3 in T.
  pose proof (turnover_pos (flat a)). pose proof (turnover_pos (flat b)). pose proof (turnover_pos (flat c)).
  split; [eapply rel_lines; eauto|]. split; [eapply rel_lines; eauto|]. split; [eapply rel_lines; eauto|].
  split; [eapply close_of; eauto; [lia|lra]|]. split; [eapply close_of; eauto; [lia|lra]|]. split; [eapply close_of; eauto; [lia|lra]|].
  split; [eapply close_of; eauto; [rewrite app_length; lia|rewrite turnover_app; lra]|].
  intros Fa Fl. specialize (EQ sh eq_refl). unfold exact_ledger in EQ. cbn [l_structure l_txs] in EQ.
  assert (U : upto fin (map fst (fl_txs l)) = map fst ts).
  { unfold ts, upto, fupto. clear. induction (fl_txs l) as [|[t x] r IH]; [reflexivity|]. cbn [map filter fst]. destruct (py_leb (tx_date t) fin); cbn [map fst]; congruence. }
  rewrite U in EQ. rewrite <- EQ, Q2R_minus_c, Ea, Ebc.
  pose proof (adds_error _ _ Aa Fa) as Ga. pose proof (adds_error _ _ Abc Fl) as Gl. rewrite turnover_app, app_length in Gl.
  replace (value (fs_total_assets fs) - value (fs_total_le fs) - (exact_sum (flat a) - exact_sum (flat b ++ flat c)))%R
    with ((value (fs_total_assets fs) - exact_sum (flat a)) - (value (fs_total_le fs) - exact_sum (flat b ++ flat c)))%R by ring.
  eapply Rle_trans; [unfold Rminus at 1; apply Rabs_triang|]. rewrite Rabs_Ropp.
  apply Rle_trans with (gamma (2 * length ts) * exact_turnover (flat a) + gamma (2 * length ts) * (exact_turnover (flat b) + exact_turnover (flat c)))%R.
  - apply Rplus_le_compat; (eapply Rle_trans; [eassumption|]); (apply Rmult_le_compat_r; [lra|]); apply gamma_mono; lia.
  - rewrite <- Rmult_plus_distr_l. apply Rmult_le_compat_l; [apply gamma_pos|lra].
Qed.

(** * Income statement *)
Definition is_rel (g : gls) (S : list side) (s : dict * dict) (f : fdict * fdict) : Prop :=
  exists a b, dict_rel g Revenue S (fst s) (fst f) a /\ dict_rel g Expense S (snd s) (snd f) b /\
    (length (flat a) + length (flat b) <= length S)%nat /\ (exact_turnover (flat a) + exact_turnover (flat b) <= exact_turnover (map snd S))%R.
Ltac post2 x := eexists _, _; cbn [fst snd]; (split; [post1 x|]); (split; [post1 x|]);
  rewrite ?flat_upd_len, ?flat_upd_turn, ?abs_neg, side_turn, app_length by (rewrite ?abs_neg; reflexivity); cbn [length]; split; [lia|lra].
Lemma is_credit_rel g S s f ty k (v : Qc) x : is_rel g S s f -> tyb g (Some k) ty = true -> value x = Q2R v ->
  is_rel g (S ++ [(Some k, x)]) (is_credit ty k v s) (fis_credit ty k x f).
Proof.
  intros (a & b & Ra & Rb & N & T) Hk Hv. pose proof (Rabs_pos (value x)) as P. destruct s as [s1 s2], f as [f1 f2]. cbn [fst snd] in *.
  destruct ty; cbn [is_credit fis_credit fst snd]; unfold is_rel. all: post2 x.
Qed.
Lemma is_debit_rel g S s f ty k (v : Qc) x : is_rel g S s f -> tyb g (Some k) ty = true -> value x = Q2R v ->
  is_rel g (S ++ [(Some k, x)]) (is_debit ty k v s) (fis_debit ty k x f).
Proof.
  intros (a & b & Ra & Rb & N & T) Hk Hv. pose proof (Rabs_pos (value x)) as P. destruct s as [s1 s2], f as [f1 f2]. cbn [fst snd] in *.
  destruct ty; cbn [is_debit fis_debit fst snd]; unfold is_rel. all: post2 x.
Qed.
Lemma is_skip_rel g S s f k x : is_rel g S s f -> is_rel g (S ++ [(k, x)]) s f.
Proof.
  intros (a & b & Ra & Rb & N & T). pose proof (Rabs_pos (value x)) as P. exists a, b. split; [now apply rel_skip|]. split; [now apply rel_skip|].
  rewrite side_turn, app_length. cbn [length]. split; [lia|lra].
Qed.
Lemma between_leb a t b r : py_between a t b = Ok r -> r = (py_leb a t && py_leb t b)%bool.
Proof.
  unfold py_between, py_le, py_leb. destruct a as [a|a], t as [t|t], b as [b|b]; cbn; try discriminate; destruct (dt_leb a t); cbn; congruence.
Qed.
Lemma is_fold_rel g start fin path l : forall S s f, is_rel g S s f -> Forall okp l ->
  agree (is_rel g (S ++ sides (foperating (fselected start fin path l)))) (foldM (is_step g start fin path) (map fst l) s) (foldM (fis_step g start fin path) l f).
Proof.
  induction l as [|[t x] l IH]; intros S s f R F; cbn [map foldM fst snd].
  - cbn. now rewrite app_nil_r.
  - inversion F as [|? ? Hx F']; subst. cbn [fst snd] in Hx. destruct Hx as [Fx Vx]. unfold is_step at 1, fis_step at 1. cbn [fst snd].
    unfold fselected. cbn [filter fst]. fold (fselected start fin path l).
    destruct (source_starts t path) as [m|e] eqn:Em; cbn [bind]; [|reflexivity].
    assert (Es : starts_with (str_of (tx_source t)) path = m).
    { unfold source_starts in Em. destruct (tx_source t); cbn [str_of]; congruence. }
    rewrite Es. destruct m; cbn [negb bind andb]; [|apply IH; auto].
    destruct (py_between start (tx_date t) fin) as [b|e] eqn:Eb; cbn [bind]; [|reflexivity].
    rewrite <- (between_leb _ _ _ _ Eb). destruct b; cbn [negb]; [|apply IH; auto].
    destruct (account_type_of g (tx_cr t)) as [ct|e] eqn:C; cbn [bind]; [|reflexivity].
    destruct (account_type_of g (tx_dt t)) as [dt|e] eqn:D; cbn [bind]; [|reflexivity].
    destruct (tyb_type _ _ _ C) as (kc & Kc & Tc). destruct (tyb_type _ _ _ D) as (kd & Kd & Td).
    unfold foperating. cbn [filter fst]. fold (foperating (fselected start fin path l)).
    destruct (negb (tx_closing_cr t) && negb (tx_closing_dt t))%bool; cbn [andb]; [|apply IH; auto].
    change (sides ((t, x) :: foperating (fselected start fin path l))) with ([(tx_cr t, x)] ++ [(tx_dt t, x)] ++ sides (foperating (fselected start fin path l)))%list. rewrite !app_assoc.
    apply IH; auto. rewrite Kc, Kd. cbn [str_of]. 
    assert (R1 : is_rel g (S ++ [(Some kc, x)]) (if not_empty (Some kc) then is_credit ct kc (tx_amount t) s else s) (if not_empty (Some kc) then fis_credit ct kc x f else f)).
    { destruct (not_empty (Some kc)); [now apply is_credit_rel|now apply is_skip_rel]. }
    destruct (not_empty (Some kd)); [now apply is_debit_rel|now apply is_skip_rel].
Qed.

Fixpoint pfilter (P : string -> bool) (p : pdict) : pdict :=
  match p with [] => [] | q :: r => if P (fst q) then q :: pfilter P r else pfilter P r end.
Lemma exacts_filter P d p : exacts d p -> exacts (filter (fun kv => P (fst kv)) d) (pfilter P p).
Proof. induction 1 as [|[k v] [k2 xs] d p [E1 E2] H IH]; cbn [filter pfilter fst snd] in *; [constructor|]. subst k2. destruct (P k); auto. constructor; auto. Qed.
Lemma floats_filter P f p : floats f p -> floats (filter (fun kv => P (fst kv)) f) (pfilter P p).
Proof. induction 1 as [|[k v] [k2 xs] d p [E1 E2] H IH]; cbn [filter pfilter fst snd] in *; [constructor|]. subst k2. destruct (P k); auto. constructor; auto. Qed.
Lemma pfilter_flat P p : (length (flat (pfilter P p)) <= length (flat p))%nat /\ (exact_turnover (flat (pfilter P p)) <= exact_turnover (flat p))%R /\ incl (flat (pfilter P p)) (flat p).
Proof.
  unfold flat. induction p as [|[k xs] p (I1 & I2 & I3)]; [cbn; split; [lia|split; [lra|intros ? []]]|]. pose proof (turnover_pos xs).
  cbn [pfilter fst]. destruct (P k); cbn [map snd concat]; rewrite ?app_length, ?turnover_app; (split; [lia|split; [lra|]]); intros y I; apply in_or_app; [apply in_app_or in I; destruct I; auto|auto].
Qed.
Lemma lines_filter P ts d f : Forall2 (line_close ts) d f -> Forall2 (line_close ts) (filter (fun kv => P (fst kv)) d) (filter (fun kv => P (fst kv)) f).
Proof. induction 1 as [|[k v] [k2 w] d f H H' IH]; cbn [filter fst]; [constructor|]. destruct H as [E H]. cbn [fst snd] in *. subst k2. destruct (P k); auto. constructor; auto. split; auto. Qed.

Definition neg_all (l : list float64) : list float64 := map neg64 l.
Lemma neg_sum l : exact_sum (neg_all l) = (- exact_sum l)%R.
Proof. induction l as [|x l IH]; [cbn; lra|]. unfold neg_all in *. cbn [map]. rewrite !sum_cons, IH, neg_value. lra. Qed.
Lemma neg_turnover l : exact_turnover (neg_all l) = exact_turnover l.
Proof. induction l as [|x l IH]; [reflexivity|]. unfold neg_all in *. cbn [map]. rewrite !turnover_cons, IH, neg_value, Rabs_Ropp. reflexivity. Qed.
Lemma sub_error la lb x y : adds la x -> adds lb y -> finite (sub64 x y) ->
  (Rabs (value (sub64 x y) - (exact_sum la - exact_sum lb)) <= gamma (length la + length lb) * (exact_turnover la + exact_turnover lb))%R.
Proof.
  intros Hx Hy F. rewrite sub_add in *. destruct (add_finite _ _ F) as (Fx & Fy & _). apply (proj1 (neg_finite y)) in Fy.
  pose proof (adds_error _ _ Hx Fx) as Ex. pose proof (adds_error _ _ Hy Fy) as Ey. pose proof (add_err _ _ F) as E. rewrite neg_value in E.
  pose proof ulp_half_pos as U. set (n := Nat.pred (length la)) in *. set (k := Nat.pred (length lb)) in *.
  pose proof (turnover_pos la) as TL. pose proof (turnover_pos lb) as TM. pose proof (sum_turnover la) as Sa. pose proof (sum_turnover lb) as Sb.
  set (A := exact_turnover la) in *. set (B := exact_turnover lb) in *. set (g := gamma (n + k)).
  assert (Gn : (gamma n <= g)%R) by (apply gamma_mono; lia). assert (Gk : (gamma k <= g)%R) by (apply gamma_mono; lia). pose proof (gamma_pos (n + k)) as G0. fold g in G0.
  assert (D : (Rabs (value x + - value y - (exact_sum la - exact_sum lb)) <= g * (A + B))%R).
  { replace (value x + - value y - (exact_sum la - exact_sum lb))%R with ((value x - exact_sum la) + - (value y - exact_sum lb))%R by ring.
    eapply Rle_trans; [apply Rabs_triang|]. rewrite Rabs_Ropp, Rmult_plus_distr_l. apply Rplus_le_compat.
    - eapply Rle_trans; [exact Ex|]. apply Rmult_le_compat_r; auto.
    - eapply Rle_trans; [exact Ey|]. apply Rmult_le_compat_r; auto. }
  assert (V : (Rabs (value x + - value y) <= (1 + g) * (A + B))%R).
  { replace (value x + - value y)%R with ((value x + - value y - (exact_sum la - exact_sum lb)) + (exact_sum la + - exact_sum lb))%R by ring.
    eapply Rle_trans; [apply Rabs_triang|]. rewrite Rmult_plus_distr_r, Rmult_1_l, Rplus_comm. apply Rplus_le_compat; auto.
    eapply Rle_trans; [apply Rabs_triang|]. rewrite Rabs_Ropp. lra. }
  apply Rle_trans with (gamma (S (n + k)) * (A + B))%R.
  - rewrite gamma_S. fold g.
    replace (value (add64 x (neg64 y)) - (exact_sum la - exact_sum lb))%R with ((value (add64 x (neg64 y)) - (value x + - value y)) + (value x + - value y - (exact_sum la - exact_sum lb)))%R by ring.
    eapply Rle_trans; [apply Rabs_triang|].
    assert (E2 : (ulp_half * Rabs (value x + - value y) <= ulp_half * ((1 + g) * (A + B)))%R) by (apply Rmult_le_compat_l; lra). lra.
  - destruct (Nat.eq_dec (length la + length lb) 0) as [Z|Z].
    + assert (la = [] /\ lb = []) as [-> ->] by (destruct la, lb; cbn in Z; auto; lia). unfold A, B. cbn. lra.
    + apply Rmult_le_compat_r; [lra|]. apply gamma_mono. unfold n, k. destruct (length la), (length lb); cbn; lia.
Qed.
Lemma close_sub k ts la lb x y (e : Qc) : adds la x -> adds lb y -> Q2R e = (exact_sum la - exact_sum lb)%R -> (length la + length lb <= k * length ts)%nat ->
  (exact_turnover la + exact_turnover lb <= INR k * exact_turnover (map snd ts))%R -> close_to k ts e (sub64 x y).
Proof.
  intros Hx Hy E L T F. rewrite E. eapply Rle_trans; [apply sub_error; eauto|]. pose proof (turnover_pos la). pose proof (turnover_pos lb).
  apply Rmult_le_compat; auto using gamma_pos; [lra|]. apply gamma_mono. lia.
Qed.

Lemma is_start g : is_rel g [] ([], []) ([], []).
Proof.
  assert (D : forall T, dict_rel g T [] [] [] []).
  { intros T. split; [constructor|]. split; [constructor|]. split; [constructor|]. split; [intros k []|]. split; [intros k; cbn; split; [lia|lra]|]. intros y []. }
  exists [], []. repeat (split; [apply D|]). cbn. split; [lia|]. lra.
Qed.
Theorem income_statement_rounding l start fin path : faithful l ->
  let ts := foperating (fselected start fin path (fl_txs l)) in
  agree (fun r fr =>
    Forall2 (line_close ts) (inc_revenue r) (fi_revenue fr) /\ Forall2 (line_close ts) (inc_cos r) (fi_cos fr) /\ Forall2 (line_close ts) (inc_expense r) (fi_expense fr) /\
    close_to 2 ts (inc_gross r) (fi_gross fr) /\ close_to 4 ts (inc_total_expenses r) (fi_total_expenses fr) /\ close_to 2 ts (inc_net r) (fi_net fr))
  (income_statement_report (exact_ledger l) start fin path) (float_income_statement l start fin path).
Proof.
  intros F ts. pose proof (is_fold_rel (fl_structure l) start fin path (fl_txs l) [] _ _ (is_start _) F) as R. cbn [app] in R. fold ts in R.
  unfold income_statement_report, float_income_statement, is_sums, exact_ledger. cbn [l_structure l_txs].
  destruct (foldM (is_step _ _ _ _) _ _) as [[s1 s2]|e]; destruct (foldM (fis_step _ _ _ _) _ _) as [[f1 f2]|e']; cbn [bind agree] in *; auto.
  destruct R as (a & b & Ra & Rb & N & T). cbn [fst snd inc_revenue inc_cos inc_expense fi_revenue fi_cos fi_expense inc_gross inc_total_expenses inc_net fi_gross fi_total_expenses fi_net] in *.
  rewrite sides_len in N. rewrite sides_turn in T. pose proof (turnover_pos (flat a)). pose proof (turnover_pos (flat b)).
  assert (La : Forall2 (line_close ts) s1 f1) by (eapply rel_lines; eauto). assert (Lb : Forall2 (line_close ts) s2 f2) by (eapply rel_lines; eauto).
  destruct Ra as (Xa & Ya & Za), Rb as (Xb & Yb & Zb).
  split; [exact La|]. split; [now apply lines_filter|]. split; [now apply (lines_filter (fun k => negb (is_cos k)))|].
  destruct (pfilter_flat is_cos b) as (P1 & P2 & _).
  pose proof (total_adds _ _ Ya) as Aa. pose proof (total_adds _ _ Yb) as Ab. pose proof (total_adds _ _ (floats_filter is_cos _ _ Yb)) as Ac.
  pose proof (total_exact _ _ Xa) as Ea. pose proof (total_exact _ _ Xb) as Eb. pose proof (total_exact _ _ (exacts_filter is_cos _ _ Xb)) as Ec.
  split; [|split].
  - apply (close_sub 2 ts _ _ _ _ _ Aa Ac); [rewrite Q2R_minus_c, Ea, Ec; reflexivity|lia|change (INR 2) with 2%R; lra].
  - apply (close_sub 4 ts _ _ _ _ _ Ab Ac); [rewrite Q2R_minus_c, Eb, Ec; reflexivity|lia|replace (INR 4) with 4%R by (cbn; lra); lra].
  - apply (close_sub 2 ts _ _ _ _ _ Aa Ab); [rewrite Q2R_minus_c, Ea, Eb; reflexivity|lia|change (INR 2) with 2%R; lra].
Qed.

(** * Transaction list *)
Lemma finsert_fst x l : map fst (finsert x l) = insert_tx (fst x) (map fst l).
Proof. induction l as [|y l IH]; [reflexivity|]. cbn [finsert map insert_tx]. destruct (dt_leb _ _); cbn [map]; congruence. Qed.
Lemma fsorted_fst l : map fst (fsorted l) = sort_raw (map fst l).
Proof. induction l as [|y l IH]; [reflexivity|]. unfold fsorted in *. cbn [fold_right map sort_raw]. now rewrite finsert_fst, IH. Qed.
Lemma finsert_perm x l : Permutation (x :: l) (finsert x l).
Proof. induction l as [|y l IH]; [reflexivity|]. cbn [finsert]. destruct (dt_leb _ _); [reflexivity|]. rewrite perm_swap. now constructor. Qed.
Lemma fsorted_perm l : Permutation l (fsorted l).
Proof. induction l as [|y l IH]; [reflexivity|]. unfold fsorted in *. cbn [fold_right]. rewrite <- finsert_perm. now constructor. Qed.
Lemma tl_fold_rel start fin path l : forall rows (tot : Qc) shown ftot, rows = map (fun p => tl_row_of (fst p)) shown -> adds (map snd shown) ftot -> Q2R tot = exact_sum (map snd shown) -> Forall okp l ->
  agree (fun (a : list tl_row * Qc) (f : list (tx * float64) * float64) => fst a = map (fun p => tl_row_of (fst p)) (fst f) /\ fst f = (shown ++ fselected start fin path l)%list /\ adds (map snd (fst f)) (snd f) /\ Q2R (snd a) = exact_sum (map snd (fst f)))
    (foldM (tl_step start fin path) (map fst l) (rows, tot)) (foldM (ftl_step start fin path) l (shown, ftot)).
Proof.
  induction l as [|[t x] l IH]; intros rows tot shown ftot E1 E2 E3 F; cbn [map foldM fst snd].
  - cbn [agree fst snd]. cbn [fselected filter]. rewrite app_nil_r. auto.
  - inversion F as [|? ? Hx F']; subst. cbn [fst snd] in Hx. destruct Hx as [Fx Vx]. unfold tl_step at 1, ftl_step at 1. cbn [fst snd].
    unfold fselected. cbn [filter fst]. fold (fselected start fin path l).
    destruct (source_starts t path) as [m|e] eqn:Em; cbn [bind]; [|reflexivity].
    assert (Es : starts_with (str_of (tx_source t)) path = m).
    { unfold source_starts in Em. destruct (tx_source t); cbn [str_of]; congruence. }
    rewrite Es. destruct m; cbn [negb bind andb]; [|apply IH; auto].
    destruct (py_between start (tx_date t) fin) as [b|e] eqn:Eb; cbn [bind]; [|reflexivity].
    rewrite <- (between_leb _ _ _ _ Eb). destruct b; cbn [bind]; [|apply IH; auto].
    replace (shown ++ (t, x) :: fselected start fin path l)%list with ((shown ++ [(t, x)]) ++ fselected start fin path l)%list by (rewrite <- app_assoc; reflexivity).
    apply IH; auto.
    + rewrite map_app. reflexivity.
    + rewrite map_app. apply adds_two; [exact E2|constructor].
    + rewrite Q2R_plus_c, map_app, exact_sum_app, E3, <- Vx. cbn [map snd]. rewrite sum_cons. change (exact_sum []) with 0%R. lra.
Qed.
Lemma filter_perm {A} (P : A -> bool) l m : Permutation l m -> Permutation (filter P l) (filter P m).
Proof.
  induction 1; cbn [filter]; auto.
  - destruct (P x); auto.
  - destruct (P x), (P y); auto. apply perm_swap.
  - etransitivity; eauto.
Qed.
Theorem transaction_list_rounding l start fin path : faithful l ->
  let ts := fselected start fin path (fl_txs l) in
  agree (fun (a : list tl_row * Qc) (f : list (tx * float64) * float64) => fst a = map (fun p => tl_row_of (fst p)) (fst f) /\ Permutation ts (fst f) /\
    (finite (snd f) -> (Rabs (value (snd f) - Q2R (snd a)) <= gamma (Nat.pred (length ts)) * exact_turnover (map snd ts))%R))
  (transaction_list (exact_ledger l) start fin path) (float_transaction_list l start fin path).
Proof.
  intros F ts. unfold transaction_list, float_transaction_list, sorted_by_date, exact_ledger. cbn [l_structure l_txs].
  destruct (same_kind _); cbn [bind]; [|reflexivity]. rewrite <- fsorted_fst.
  assert (F' : Forall okp (fsorted (fl_txs l))).
  { apply Forall_forall. intros p I. pose proof (proj1 (Forall_forall _ _) F) as G. apply G. eapply Permutation_in; [apply Permutation_sym, fsorted_perm|exact I]. }
  pose proof (tl_fold_rel start fin path (fsorted (fl_txs l)) [] 0%Qc [] zero64 eq_refl (adds_none) Q2R_0_c F') as R.
  destruct (foldM (tl_step _ _ _) _ _) as [a|e]; destruct (foldM (ftl_step _ _ _) _ _) as [f|e']; cbn [agree] in *; auto.
  destruct R as (R1 & R2 & R3 & R4). cbn [app] in R2. split; auto.
  assert (P : Permutation ts (fst f)) by (rewrite R2; apply filter_perm, fsorted_perm). split; auto.
  intros Ff. rewrite R4, (Permutation_length P). rewrite <- (map_length snd (fst f)). rewrite (turnover_perm _ _ (Permutation_map snd P)). now apply adds_error.
Qed.
