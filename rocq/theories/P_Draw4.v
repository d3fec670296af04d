(** Numbers stand under each other in a drawn table. *)
From Verif Require Import Prelude M_Stoichiometry M_Text M_Csv M_Tables M_Print M_Json M_Tabulate Spec_Text Spec_Tables Spec_Print Spec_Tabulate P_Text P_File P_Tables P_Print P_Print3 P_General P_Tabulate P_Draw.
From Coq Require Import Reals Lra Lia.
Local Open Scope string_scope.
Local Open Scope list_scope.
Local Open Scope Z_scope.

(** * Where a point stands *)
Lemma last_at_app p a : forall b i r, last_at p i (a ++ b) r = last_at p (i + Z.of_nat (length a)) b (last_at p i a r).
Proof. induction a as [|c a IH]; intros b i r; cbn [app length]. - cbn [last_at]. f_equal. lia. - cbn [last_at]. rewrite IH. f_equal. lia. Qed.
Lemma last_at_none p a : forall i r, (forall c, In c a -> p c = false) -> last_at p i a r = r.
Proof. induction a as [|c a IH]; intros i r H; cbn [last_at]; auto. rewrite H by now left. apply IH. intros; apply H; now right. Qed.
Lemma last_at_here p a c b : (forall x, In x (a ++ b) -> p x = false) -> p c = true -> last_at p 0 (a ++ c :: b) (-1) = Z.of_nat (length a).
Proof.
  intros N C. rewrite last_at_app. cbn [last_at]. rewrite C. rewrite last_at_none; [lia|]. intros x I. apply N. apply in_app_iff. now right.
Qed.

Section S.
Variable int_of : text -> bool.
Variable float_of : text -> option pyfloat.
Hypothesis RD : reads_numerals int_of float_of.
Notation afterpoint := (afterpoint int_of float_of).
(** The two parts of a number: the second has the length that afterpoint says. *)
Definition parts (s w f : text) : Prop := s = w ++ f /\ ~ In "."%char w /\ ~ In "e"%char w /\ (f = [] \/ exists u, f = "."%char :: u \/ f = "e"%char :: u) /\ afterpoint s = Z.of_nat (length f) - 1.
Definition plain_char (c : ascii) : Prop := c <> "."%char /\ c <> "e"%char /\ c <> "E"%char.
Lemma plain_none s (p : ascii -> bool) : Forall plain_char s -> (forall c, plain_char c -> p c = false) -> forall c, In c s -> p c = false.
Proof. intros F H c I. rewrite Forall_forall in F. auto. Qed.
Lemma plain_point c : plain_char c -> Ascii.eqb "." c = false.
Proof. intros (A & _). apply Ascii.eqb_neq. congruence. Qed.
Lemma plain_e c : plain_char c -> (Ascii.eqb "e" c || Ascii.eqb "E" c)%bool = false.
Proof. intros (_ & A & B). apply Bool.orb_false_iff. split; apply Ascii.eqb_neq; congruence. Qed.
Lemma plain_whole s : Forall plain_char s -> ~ In "."%char s /\ ~ In "e"%char s.
Proof. intros F. rewrite Forall_forall in F. split; intros I; apply F in I; destruct I as (A & B & _); congruence. Qed.
Lemma parts_plain s : Forall plain_char s -> parts s s [].
Proof.
  intros F. destruct (plain_whole s F). split; [symmetry; apply app_nil_r|]. split; auto. split; auto. split; auto. unfold M_Tabulate.afterpoint. cbn [length Z.of_nat].
  destruct (float_of s); auto. destruct (int_of s); auto. cbv zeta. rewrite (last_at_none _ s 0 (-1) (plain_none s _ F plain_point)). cbn [Z.ltb Z.compare]. rewrite (last_at_none _ s 0 (-1) (plain_none s _ F plain_e)). reflexivity.
Qed.
Lemma digit_plain t : Forall (fun c => is_digit c = true) t -> Forall plain_char t.
Proof. intros F. eapply Forall_impl; [|exact F]. intros c D. cbn beta in D. repeat split; intros ->; discriminate. Qed.
Lemma int_none t : In "."%char t \/ In "e"%char t -> int_of t = false.
Proof. intros I. destruct RD as (_ & _ & H). destruct (int_of t) eqn:E; auto. destruct (H t E). tauto. Qed.
Lemma parts_denotes s neg v : denotes s neg v -> exists w f, parts s w f.
Proof.
  intros D. pose proof D as D0. destruct RD as (RF & _ & _). pose proof (RF _ _ _ D0) as NF. destruct D as (ip & fp & ex & z & E & NI & DG & _ & X).
  apply Forall_app in DG. destruct DG as [DI DF]. set (w := (if neg then ["-"%char] else []) ++ ip).
  assert (PW : Forall plain_char w). { apply Forall_app. split; [destruct neg; repeat constructor; discriminate|now apply digit_plain]. }
  destruct (plain_whole w PW) as [W1 W2]. assert (EW : s = w ++ match fp with [] => [] | _ => "."%char :: fp end ++ ex) by (rewrite E; unfold w; now rewrite <- app_assoc). clear E. clearbody w.
  assert (PX : forall c, In c ex -> Ascii.eqb "." c = false).
  { destruct X as [[-> _]|(sg & k & -> & S & _ & DK & _)]; [intros c []|]. intros c [<-|[<-|I]]; auto. - rewrite S. destruct (z <? 0); reflexivity. - apply digit_plain in DK. rewrite Forall_forall in DK. apply plain_point. auto. }
  destruct fp as [|d fp].
  - cbn [app] in EW. destruct X as [[-> _]|(sg & k & -> & S & _ & DK & _)].
    + exists w, []. rewrite app_nil_r in EW. subst s. now apply parts_plain.
    + exists w, ("e"%char :: sg :: k). split; auto. split; auto. split; auto. split; [right; eexists; right; reflexivity|]. unfold M_Tabulate.afterpoint. destruct (float_of s); [|congruence]. rewrite int_none by (right; rewrite EW; apply in_app_iff; right; now left). cbv zeta.
      rewrite last_at_none by (rewrite EW; intros c I; apply in_app_iff in I; destruct I as [I|I]; [exact (plain_none w _ PW plain_point c I)|auto]). cbn [Z.ltb Z.compare].
      rewrite EW, last_at_here; auto.
      * replace (0 <=? Z.of_nat (length w))%Z with true by (symmetry; apply Z.leb_le; lia). rewrite app_length. cbn [length]. lia.
      * intros c I. apply in_app_iff in I. destruct I as [I|[<-|I]]; [exact (plain_none w _ PW plain_e c I)|rewrite S; destruct (z <? 0); reflexivity|]. apply digit_plain in DK. rewrite Forall_forall in DK. apply plain_e. auto.
  - cbn [app] in EW. exists w, ("."%char :: (d :: fp) ++ ex). split; auto. split; auto. split; auto. split; [right; eexists; left; reflexivity|]. unfold M_Tabulate.afterpoint. destruct (float_of s); [|congruence]. rewrite int_none by (left; rewrite EW; apply in_app_iff; right; now left). cbv zeta.
    assert (L : last_at (Ascii.eqb ".") 0 s (-1) = Z.of_nat (length w)).
    { rewrite EW. apply (last_at_here (Ascii.eqb ".") w "."%char ((d :: fp) ++ ex)); auto. intros c I. apply in_app_iff in I. destruct I as [I|I]; [exact (plain_none w _ PW plain_point c I)|]. apply in_app_iff in I. destruct I as [I|I]; auto. apply digit_plain in DF. rewrite Forall_forall in DF. apply plain_point. auto. }
    rewrite L. replace (Z.of_nat (length w) <? 0) with false by (symmetry; apply Z.ltb_ge; lia). replace (0 <=? Z.of_nat (length w)) with true by (symmetry; apply Z.leb_le; lia). rewrite EW, app_length. cbn [app length]. lia.
Qed.
Lemma parts_float x : (forall neg s, x = GFin neg s -> (0 <= s)%R) -> exists w f, parts (format_g x) w f.
Proof.
  intros P. destruct x as [neg s|neg|].
  - specialize (P neg s eq_refl). destruct (format_g_shows neg s P) as [[_ D]|(_ & m & e & _ & D & _)]; eapply parts_denotes; eauto.
  - exists (format_g (GInf neg)), []. apply parts_plain. destruct neg; repeat constructor; discriminate.
  - exists (format_g GNaN), []. apply parts_plain. repeat constructor; discriminate.
Qed.
Lemma parts_int s : int_of s = true -> exists w f, parts s w f.
Proof.
  intros I. exists s, []. destruct RD as (_ & _ & H). destruct (H s I). split; [symmetry; apply app_nil_r|]. split; auto. split; auto. split; auto. unfold M_Tabulate.afterpoint. rewrite I. destruct (float_of s); reflexivity.
Qed.

(** * A column *)
Lemma maxZ_ge l : forall d, d <= maxZ d l /\ forall x, In x l -> x <= maxZ d l.
Proof. unfold maxZ. induction l as [|y l IH]; intros d; cbn [fold_left]; [split; [lia|intros x []]|]. destruct (IH (Z.max d y)) as [A B]. split; [lia|]. intros x [->|I]; [lia|auto]. Qed.
(** All numbers are filled up so that their whole parts end at the same place. *)
Lemma aligned ct col w : is_number ct = true -> (forall s, In s col -> exists a f, parts s a f) ->
  exists W p, (w <= W)%nat /\ Forall2 (fun s f => exists k m a b, f = spaces k ++ s ++ spaces m /\ length f = W /\ parts s a b /\ p = (k + length a)%nat) col (align_column int_of float_of ct col w).
Proof.
  intros N P. unfold align_column. rewrite N. cbv zeta. set (m := maxZ (-1) (map afterpoint col)). set (g := fun s : text => s ++ spaces (Z.to_nat (m - afterpoint s))). destruct (widest_ge (map g col) w) as [A B]. destruct (maxZ_ge (map afterpoint col) (-1)) as [M1 M2]. fold m in M1, M2.
  exists (widest (map g col) w), (widest (map g col) w - Z.to_nat (m + 1))%nat. split; auto. rewrite map_map. apply forall2_map. intros s I. destruct (P s I) as (a & f & H). pose proof H as (E & _ & _ & _ & L).
  pose proof (B (g s) (in_map g col s I)) as LW. pose proof (M2 (afterpoint s) (in_map afterpoint col s I)) as LM.
  exists (widest (map g col) w - length (g s))%nat, (Z.to_nat (m - afterpoint s)), a, f. split; [reflexivity|]. split; [now apply rjust_length|]. split; auto. assert (LG : length (g s) = (length s + Z.to_nat (m - afterpoint s))%nat) by (unfold g, spaces; now rewrite app_length, repeat_length). assert (LS : length s = (length a + length f)%nat) by (rewrite E; apply app_length). lia.
Qed.
Lemma number_column col : (forall t, int_of t = true -> float_of t <> None) -> (forall s, In s col -> float_of s <> None) ->
  (column_type int_of float_of col = 1 /\ forall s, In s col -> int_of s = true) \/ column_type int_of float_of col = 2 /\ exists s, In s col /\ int_of s = false.
Proof.
  intros RI F. unfold column_type. assert (G : forall l a, (a = 1 \/ a = 2) -> (forall s, In s l -> float_of s <> None) -> (a = 1 /\ fold_left (fun a s => Z.max a (cell_type int_of float_of s)) l a = 1 /\ forall s, In s l -> int_of s = true) \/ fold_left (fun a s => Z.max a (cell_type int_of float_of s)) l a = 2 /\ (a = 2 \/ exists s, In s l /\ int_of s = false)).
  { induction l as [|c l IH]; intros a A FL; cbn [fold_left]. - destruct A as [-> | ->]; [left; repeat split; intros s []|right; auto].
    - assert (C : cell_type int_of float_of c = if int_of c then 1 else 2). { unfold cell_type. destruct (int_of c); auto. specialize (FL c (or_introl eq_refl)). destruct (float_of c); congruence. }
      rewrite C. destruct (IH (Z.max a (if int_of c then 1 else 2))) as [(E1 & E2 & E3)|(E1 & E2)].
      + destruct A as [-> | ->], (int_of c); cbn; auto. + intros s I. apply FL. now right.
      + left. rewrite E2. destruct (int_of c) eqn:Ic; [|lia]. split; [lia|]. split; auto. intros s [<-|I]; auto.
      + right. split; auto. destruct (int_of c) eqn:Ic; [|right; exists c; split; auto; now left]. destruct E2 as [E2|(s & I & Es)]; [left; lia|right; exists s; split; auto; now right]. }
  destruct (G col 1 (or_introl eq_refl) F) as [(_ & A & B)|(A & [B|B])]; auto. discriminate.
Qed.

(** * A line *)
Lemma join_at ws : forall fs j, Forall2 (fun w (f : text) => length f = w) ws fs -> (j < length fs)%nat -> exists a r, join (spaces 2) fs = a ++ nth j fs [] ++ r /\ length a = start ws j.
Proof.
  induction ws as [|w ws IH]; intros fs j F L; inversion F as [|? f ? fs' H F']; subst; cbn [length] in L; [lia|].
  destruct j as [|j]; cbn [nth].
  - destruct fs' as [|f2 fs']; [exists [], []; cbn [join]; rewrite app_nil_r; auto|]. exists [], (spaces 2 ++ join (spaces 2) (f2 :: fs')). split; reflexivity.
  - destruct fs' as [|f2 fs']; [cbn [length] in L; lia|]. destruct (IH (f2 :: fs') j F' ltac:(lia)) as (a & r & E & LA). change (join (spaces 2) (f :: f2 :: fs')) with (f ++ spaces 2 ++ join (spaces 2) (f2 :: fs')). rewrite E. exists (f ++ spaces 2 ++ a), r. split; [now rewrite <- !app_assoc|]. rewrite !app_length, LA. unfold start. cbn [firstn fold_right spaces repeat length]. lia.
Qed.
Lemma keep_front (x : text) c (y l : text) k : c <> " "%char -> x ++ c :: y = l ++ repeat " "%char k -> exists y', l = x ++ c :: y'.
Proof.
  intros N. revert l. induction x as [|d x IH]; intros l E; cbn [app] in E.
  - destruct l as [|e l]; cbn [app] in E. + destruct k; [discriminate|]. injection E as -> _. congruence. + injection E as -> _. now exists l.
  - destruct l as [|e l]; cbn [app] in E. + exfalso. assert (I : In c (repeat " "%char k)) by (rewrite <- E; right; apply in_app_iff; right; now left). apply repeat_spec in I. congruence.
    + injection E as -> E. destruct (IH l E) as (y' & ->). now exists y'.
Qed.
Lemma ends_solid s c t : strip s = s -> s = t ++ [c] -> c <> " "%char.
Proof.
  intros S E ->. assert (C : core s s) by (rewrite <- S at 2; apply strip_core). destruct C as (l & r & _ & _ & _ & _ & H). specialize (H " "%char t E). discriminate.
Qed.
Lemma format_g_nonempty x : (forall neg s, x = GFin neg s -> (0 <= s)%R) -> format_g x <> [].
Proof.
  intros P. destruct x as [neg s|neg|]; [|destruct neg; discriminate|discriminate]. assert (D : exists n v, denotes (format_g (GFin neg s)) n v) by (destruct (format_g_shows neg s (P neg s eq_refl)) as [[_ D]|(_ & m & e & _ & D & _)]; eauto).
  destruct D as (n & v & ip & fp & ex & z & -> & NI & _). destruct n, ip; try discriminate; congruence.
Qed.
Lemma nth_numbered (rows : list row) (r : list text) j : (j < length r)%nat -> nth j (shown_row int_of float_of rows r) [] = strip (format_cell float_of (column_type int_of float_of (column rows j)) (nth j r [])).
Proof.
  intros L. unfold shown_row. destruct (nth_error r j) as [x|] eqn:E; [|apply nth_error_None in E; lia]. rewrite (nth_error_nth r j [] E). apply nth_error_nth. rewrite nth_error_map, (numbered_nth r 0 j x E). reflexivity.
Qed.
Lemma forall2_seq {X Y} (P : X -> Y -> Prop) (g : nat -> Y) (l : list X) : (forall i x, nth_error l i = Some x -> P x (g i)) -> Forall2 P l (map g (seq 0 (length l))).
Proof.
  assert (G : forall l k, (forall i x, nth_error l i = Some x -> P x (g (k + i)%nat)) -> Forall2 P l (map g (seq k (length l)))).
  { induction l0 as [|x l0 IH]; intros k H; cbn [length seq map]; constructor. - rewrite <- (Nat.add_0_r k). now apply H. - apply IH. intros i y E. replace (S k + i)%nat with (k + S i)%nat by lia. now apply H. }
  intros H. apply G. intros i x E. now apply H.
Qed.
Lemma forall2_map_l {X Y Z} (P : Y -> Z -> Prop) (g : X -> Y) l l' : Forall2 (fun x z => P (g x) z) l l' -> Forall2 P (map g l) l'.
Proof. induction 1; cbn [map]; constructor; auto. Qed.
Lemma forall2_imp {X Y} (P Q : X -> Y -> Prop) l l' : (forall x y, P x y -> Q x y) -> Forall2 P l l' -> Forall2 Q l l'.
Proof. induction 2; constructor; auto. Qed.
Lemma forall2_len {X Y} (P : X -> Y -> Prop) l l' : Forall2 P l l' -> length l = length l'.
Proof. induction 1; cbn [length]; auto. Qed.
Lemma printed_cells h col : snd (printed_column int_of float_of h col) = align_column int_of float_of (column_type int_of float_of col) (map (format_cell float_of (column_type int_of float_of col)) col) (length h + 2).
Proof. destruct col; reflexivity. Qed.
Theorem numbers_stand (headers : list text) (rows : list row) j : (forall t, float_of t <> None -> t <> []) -> (forall t, int_of t = true -> float_of t <> None) ->
  Forall tidy headers -> Forall (fun r => length r = length headers /\ Forall tidy r) rows -> (j < length headers)%nat ->
  (forall r, In r rows -> float_of (nth j r []) <> None /\ strip (nth j r []) = nth j r []) ->
  exists p, Forall2 (fun c l => stands_at (map (fun c => snd (fst c)) (columns_of int_of float_of headers rows)) j p (nth j c []) l) (map (shown_row int_of float_of rows) rows) (lines_of int_of float_of headers rows).
Proof.
  intros NE RI TH TR L NUM. pose proof RD as (_ & R2 & _). set (cols := columns_of int_of float_of headers rows). set (ws := map (fun c => snd (fst c)) cols).
  assert (LC : length cols = length headers). { unfold cols, columns_of. rewrite map_length, combine_length, seq_length. lia. }
  assert (PC : forall j h, nth_error headers j = Some h -> nth_error cols j = Some (printed_column int_of float_of h (column rows j))).
  { intros j' h E. unfold cols, columns_of. rewrite nth_error_map, (numbered_nth headers 0 j' h E). reflexivity. }
  assert (TC : forall j, (j < length headers)%nat -> Forall tidy (column rows j)).
  { intros j' L'. apply Forall_forall. intros x I. unfold column in I. apply in_map_iff in I. destruct I as (r & <- & I). rewrite Forall_forall in TR. destruct (TR r I) as [E T]. rewrite Forall_forall in T. apply T, nth_In. unfold row, text in *. rewrite E. exact L'. }
  set (ct := column_type int_of float_of (column rows j)).
  assert (CT : (ct = 1 /\ forall s, In s (column rows j) -> int_of s = true) \/ ct = 2).
  { destruct (number_column (column rows j) RI) as [A|[A _]]; [|now left|now right]. intros s I. unfold column in I. apply in_map_iff in I. destruct I as (r & <- & I). now apply NUM. }
  (* the cells of the column *)
  assert (CELL : forall r, In r rows -> let s := format_cell float_of ct (nth j r []) in (exists w f, parts s w f) /\ strip s = s /\ s <> []).
  { intros r I. cbv zeta. destruct (NUM r I) as [A B]. unfold format_cell. destruct CT as [[-> CI]| ->]; cbn [Z.eqb Pos.eqb].
    - split; [apply parts_int, CI; unfold column; apply in_map_iff; eauto|]. auto.
    - destruct (float_of (nth j r [])) as [x|] eqn:F; [|congruence]. assert (PX : forall neg s, x = GFin neg s -> (0 <= s)%R) by (intros neg s ->; eapply R2; eauto). split; [now apply parts_float|]. split; [apply no_space_strip, format_g_no_space|now apply format_g_nonempty]. }
  destruct (nth_error headers j) as [h|] eqn:Eh; [|apply nth_error_None in Eh; lia].
  pose proof (PC j h Eh) as PJ.
  assert (AL : exists p, Forall2 (fun s f => exists k m a b, f = spaces k ++ s ++ spaces m /\ parts s a b /\ p = (k + length a)%nat) (map (format_cell float_of ct) (column rows j)) (snd (printed_column int_of float_of h (column rows j)))).
  { rewrite printed_cells. fold ct.
    destruct (aligned ct (map (format_cell float_of ct) (column rows j)) (length h + 2)) as (W & p & _ & F).
    - destruct CT as [[-> _]| ->]; reflexivity.
    - intros s I. apply in_map_iff in I. destruct I as (x & <- & I). unfold column in I. apply in_map_iff in I. destruct I as (r & <- & I). now apply CELL.
    - exists p. eapply forall2_imp; [|exact F]. intros s f (k & m & a & b & A & _ & B & C). eauto 8. }
  destruct AL as [p AL]. exists (start ws j + p)%nat. unfold lines_of. fold cols. apply forall2_map_l, forall2_seq. intros i r E.
  assert (IR : In r rows) by (eapply nth_error_In; eauto). pose proof TR as TR'. rewrite Forall_forall in TR'. destruct (TR' r IR) as [LR T].
  assert (LR0 : (i < length rows)%nat) by (apply (proj1 (nth_error_Some rows i)); rewrite E; discriminate).
  rewrite nth_numbered by (unfold row, text in *; lia). fold ct. destruct (CELL r IR) as (_ & ST & NS). rewrite ST.
  set (s := format_cell float_of ct (nth j r [])) in *. set (fs := map (fun c : text * nat * list text => nth i (snd c) []) cols).
  assert (FL : Forall2 (fun w (f : text) => length f = w) ws fs).
  { unfold ws, fs. rewrite Forall_forall in TH. assert (G : forall c, In c cols -> length (nth i (snd c) []) = snd (fst c)).
    { intros c I. destruct (In_nth_error _ _ I) as [j' E']. assert (L' : (j' < length headers)%nat) by (rewrite <- LC; apply nth_error_Some; congruence). destruct (nth_error headers j') as [h'|] eqn:Eh'; [|apply nth_error_None in Eh'; lia]. rewrite (PC j' h' Eh') in E'. injection E' as <-.
      destruct (printed_spec int_of float_of h' (column rows j') (TH h' (nth_error_In _ _ Eh')) (TC j' L')) as (_ & _ & F). assert (LI : (i < length (column rows j'))%nat) by (unfold column; rewrite map_length; exact LR0). pose proof (forall2_nth _ _ _ [] [] i F LI) as [K _]. exact K. }
    clear - G. induction cols as [|c cols IH]; cbn [map]; constructor; [apply G; now left|apply IH; intros; apply G; now right]. }
  assert (LF : (j < length fs)%nat) by (unfold fs; rewrite map_length; lia).
  destruct (join_at ws fs j FL LF) as (a & rest & EJ & LA).
  assert (NF : nth j fs [] = nth i (snd (printed_column int_of float_of h (column rows j))) []). { apply nth_error_nth. unfold fs. rewrite nth_error_map, PJ. reflexivity. }
  assert (LI : (i < length (map (format_cell float_of ct) (column rows j)))%nat) by (unfold column; rewrite !map_length; exact LR0).
  pose proof (forall2_nth _ _ _ ([] : text) ([] : text) i AL LI) as K. cbn beta in K.
  assert (ES : nth i (map (format_cell float_of ct) (column rows j)) [] = s). { apply nth_error_nth. unfold column. rewrite map_map, nth_error_map. transitivity (option_map (fun x : row => format_cell float_of ct (nth j x [])) (Some r)); [f_equal; exact E|reflexivity]. }
  destruct K as (k & m & w & f & EF & PS & EP). apply (eq_trans NF) in EF.
  assert (ES' : nth i (map (format_cell float_of ct) (column rows j)) ([] : text) = s) by exact ES. fold ct in EF, PS. rewrite ES' in EF, PS.
  assert (LJ : length (nth j fs []) = nth j ws 0%nat) by (exact (eq_sym (forall2_nth (fun w f => w = length f) ws fs 0%nat [] j (forall2_imp _ _ _ _ (fun _ _ H => eq_sym H) FL) ltac:(rewrite (forall2_len _ _ _ FL); exact LF)))).
  destruct (exists_last NS) as (t & c & Es). pose proof (ends_solid s c t ST Es) as NC.
  assert (TJ : tidy (join (spaces 2) fs)).
  { apply join_tidy. apply Forall_forall. intros x I. unfold fs in I. apply in_map_iff in I. destruct I as (col & <- & I). destruct (In_nth_error _ _ I) as [j' E']. assert (L' : (j' < length headers)%nat) by (rewrite <- LC; apply nth_error_Some; congruence). destruct (nth_error headers j') as [h'|] eqn:Eh'; [|apply nth_error_None in Eh'; lia]. rewrite (PC j' h' Eh') in E'. injection E' as <-. rewrite Forall_forall in TH.
    destruct (printed_spec int_of float_of h' (column rows j') (TH h' (nth_error_In _ _ Eh')) (TC j' L')) as (_ & _ & F). assert (LI' : (i < length (column rows j'))%nat) by (unfold column; rewrite map_length; exact LR0). pose proof (forall2_nth _ _ _ [] [] i F LI') as (_ & _ & K). exact K. }
  destruct (rstrip_blanks _ TJ) as [kb KB]. fold (simple_row fs) in KB. rewrite EJ, EF, Es in KB.
  assert (KB' : (a ++ spaces k ++ t) ++ c :: (spaces m ++ rest) = simple_row fs ++ repeat " "%char kb) by (rewrite <- KB, <- !app_assoc; reflexivity).
  destruct (keep_front _ _ _ _ _ NC KB') as [y EY]. destruct PS as (PS1 & PS2 & PS3 & PS4 & _).
  exists (a ++ spaces k), w, f, y. split; [exact PS1|]. split; [refine (eq_trans EY _); rewrite Es, <- !app_assoc; reflexivity|]. split; [rewrite !app_length; unfold spaces; rewrite repeat_length; lia|]. split; auto. split; auto. split; auto.
  rewrite EF in LJ. rewrite !app_length in *. unfold spaces in *. rewrite !repeat_length in *. lia.
Qed.
End S.
