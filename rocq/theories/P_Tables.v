(** Proofs about printed amounts and tables. *)
From Verif Require Import Prelude M_Stoichiometry M_Lists M_Dates M_Accounts M_Ledger M_Csv M_Tables Spec_Tables Spec_Dates2 P_Dates.
From Coq Require Import Qabs.
Local Open Scope Z_scope.
Local Open Scope list_scope.

(** * Digits *)
Lemma code_chr n : 0 <= n <= 9 -> code (chr n) = 48 + n.
Proof. intros H. unfold code, chr. rewrite nat_ascii_embedding by lia. lia. Qed.
Lemma digit_chr n : 0 <= n <= 9 -> is_digit (chr n) = true.
Proof. intros H. unfold is_digit. rewrite code_chr by auto. apply andb_true_iff. split; apply Z.leb_le; lia. Qed.

Lemma value_app a c : value (a ++ [c]) = 10 * value a + (code c - 48).
Proof. unfold value. now rewrite fold_left_app. Qed.
Lemma value_from a t : fold_left (fun a c => 10 * a + (code c - 48)) t a = a * 10 ^ Z.of_nat (length t) + value t.
Proof.
  unfold value. revert a. induction t as [|c t IH]; intros a; cbn [fold_left length]; [rewrite Z.pow_0_r; lia|].
  rewrite IH. rewrite (IH (10 * 0 + _)). rewrite Nat2Z.inj_succ, Z.pow_succ_r by lia. ring.
Qed.
Lemma value_cons c t : value (c :: t) = (code c - 48) * 10 ^ Z.of_nat (length t) + value t.
Proof. unfold value at 1. cbn [fold_left]. rewrite value_from. reflexivity. Qed.

Lemma dec_loop_spec fuel : forall n acc, 0 <= n -> n < 2 ^ Z.of_nat fuel -> (0 < fuel)%nat -> exists pre, dec_loop fuel n acc = pre ++ acc /\ numeral n pre.
Proof.
  induction fuel as [|k IH]; intros n acc N L F; [lia|]. cbn [dec_loop]. destruct (n <? 10) eqn:E.
  - apply Z.ltb_lt in E. exists [chr n]. split; [reflexivity|]. split; [discriminate|]. split; [constructor; [apply digit_chr; lia|constructor]|]. split.
    + unfold value. cbn [fold_left]. rewrite code_chr by lia. lia.
    + intros u H. now injection H.
  - apply Z.ltb_ge in E. assert (K : (0 < k)%nat). { destruct k; [|lia]. cbn in L. lia. }
    rewrite Nat2Z.inj_succ, Z.pow_succ_r in L by lia. destruct (IH (n / 10) (chr (n mod 10) :: acc)) as (pre & P & (Q1 & Q2 & Q3 & Q4)); auto.
    + apply Z.div_pos; lia.
    + apply Z.div_lt_upper_bound; lia.
    + pose proof (Z.mod_pos_bound n 10) as MB. pose proof (Z.div_mod n 10) as DM. exists (pre ++ [chr (n mod 10)]). split; [rewrite P, <- app_assoc; reflexivity|]. split; [destruct pre; discriminate|]. split.
      * apply Forall_app. split; auto. constructor; [apply digit_chr; lia|constructor].
      * split; [rewrite value_app, code_chr, Q3 by lia; lia|]. intros u H. destruct pre as [|c pre]; [congruence|]. cbn [app] in H. injection H as -> H. specialize (Q4 pre eq_refl). subst pre.
        exfalso. change (value ["0"%char]) with 0 in Q3. assert (1 <= n / 10) by (apply Z.div_le_lower_bound; lia). lia.
Qed.
Lemma decimal_spec n : 0 <= n -> numeral n (decimal n).
Proof.
  intros N. destruct (dec_loop_spec (S (Z.to_nat (Z.log2 n))) n [] N) as (pre & P & H); [|lia|].
  - rewrite Nat2Z.inj_succ, Z2Nat.id by apply Z.log2_nonneg. destruct (Z.eq_dec n 0) as [->|]; [cbn; lia|]. apply Z.log2_spec. lia.
  - unfold decimal. rewrite P, app_nil_r. exact H.
Qed.

(** * Rounding *)
Lemma half_even_spec a b : 0 <= a -> 0 < b -> 0 <= half_even a b /\ 2 * Z.abs (a - half_even a b * b) <= b /\ (2 * Z.abs (a - half_even a b * b) = b -> Z.even (half_even a b) = true).
Proof.
  intros A B. unfold half_even. assert (DM : a = b * (a / b) + a mod b) by (apply Z.div_mod; lia). assert (MB : 0 <= a mod b < b) by (apply Z.mod_pos_bound; lia). assert (0 <= a / b) by (apply Z.div_pos; lia). set (q := a / b) in *. set (r := a mod b) in *.
  assert (E : a = b * q + r) by lia. destruct (2 * r <? b) eqn:L1; [apply Z.ltb_lt in L1|apply Z.ltb_ge in L1; destruct (b <? 2 * r) eqn:L2; [apply Z.ltb_lt in L2|apply Z.ltb_ge in L2; destruct (Z.even q) eqn:EV]].
  - replace (a - q * b) with r by lia. split; [lia|]. split; [lia|]. intros X. exfalso. lia.
  - replace (a - (q + 1) * b) with (r - b) by lia. split; [lia|]. split; [lia|]. intros X. exfalso. lia.
  - replace (a - q * b) with r by lia. split; [lia|]. split; [lia|]. auto.
  - replace (a - (q + 1) * b) with (r - b) by lia. split; [lia|]. split; [lia|]. intros _. rewrite Z.add_1_r, Z.even_succ, <- Z.negb_even, EV. reflexivity.
Qed.
Lemma cents_spec x : 0 <= cents x /\ nearest (cents x) (100 * Qabs x).
Proof.
  destruct x as [[p q] cx]. unfold cents. cbn [this Qnum Qden]. destruct (half_even_spec (100 * Z.abs p) (Zpos q)) as (H1 & H2 & H3); try lia. set (n := half_even (100 * Z.abs p) (Z.pos q)) in *.
  split; [auto|]. assert (E : (Qabs (100 * Qabs (p # q) - inject_Z n) == (Z.abs (100 * Z.abs p - n * Z.pos q) # q))%Q).
  { unfold Qabs, Qminus, Qplus, Qopp, Qmult, inject_Z, Qeq. cbn [Qnum Qden]. rewrite !Pos.mul_1_r, !Pos.mul_1_l. f_equal. f_equal. ring. }
  unfold nearest. rewrite E. unfold Qle, Qeq. cbn [Qnum Qden]. split; [lia|]. intros X. apply H3. lia.
Qed.
Lemma chr_is_digits n : 0 <= n -> is_digit (chr (n / 10 mod 10)) = true /\ is_digit (chr (n mod 10)) = true /\ value [chr (n / 10 mod 10); chr (n mod 10)] = n mod 100.
Proof.
  intros N. pose proof (Z.mod_pos_bound n 10). pose proof (Z.mod_pos_bound (n / 10) 10). split; [apply digit_chr; lia|]. split; [apply digit_chr; lia|].
  unfold value. cbn [fold_left]. rewrite !code_chr by lia. change 100 with (10 * 10). rewrite Z.rem_mul_r by lia. lia.
Qed.
Lemma fmt2_shows x : shows x (fmt2 x).
Proof.
  destruct (cents_spec x) as [C N]. exists (cents x). split; auto. split; auto. destruct (chr_is_digits (cents x) C) as (D1 & D2 & D3).
  exists (decimal (cents x / 100)), (chr (cents x / 10 mod 10)), (chr (cents x mod 10)). split; [|split; [apply decimal_spec, Z.div_pos; lia|auto]].
  unfold fmt2. f_equal. destruct (Qlt_le_dec x 0) as [L|L]; unfold Qlt, Qle in L; cbn [Qnum Qden] in L; rewrite ?Z.mul_1_r in L; change (0 * _) with 0 in L.
  - replace (Qnum x <? 0) with true; auto. symmetry. apply Z.ltb_lt. lia.
  - replace (Qnum x <? 0) with false; auto. symmetry. apply Z.ltb_ge. lia.
Qed.

(** * Uniqueness of what is shown *)
Lemma value_bound t : Forall (fun c => is_digit c = true) t -> 0 <= value t < 10 ^ Z.of_nat (length t).
Proof.
  induction 1 as [|c t D F IH]; [cbn; lia|]. rewrite value_cons. cbn [length]. rewrite Nat2Z.inj_succ, Z.pow_succ_r by lia. unfold is_digit in D. apply andb_true_iff in D. rewrite !Z.leb_le in D. nia.
Qed.
Lemma value_pair c d : value [c; d] = 10 * (code c - 48) + (code d - 48).
Proof. unfold value. cbn [fold_left]. lia. Qed.

Lemma amount_unique neg n neg' n' t : 0 <= n -> 0 <= n' -> amount_text neg n t -> amount_text neg' n' t -> neg = neg' /\ n = n'.
Proof.
  intros N N' (w & c & d & E & (W1 & W2 & W3 & W4) & C & D & V) (w' & c' & d' & E' & (W1' & W2' & W3' & W4') & C' & D' & V').
  assert (H : neg = neg' /\ w ++ ["."%char; c; d] = w' ++ ["."%char; c'; d']).
  { rewrite E in E'. assert (M : is_digit "-"%char = false) by reflexivity. destruct neg, neg'; cbn [app] in E'; [injection E' as E'; auto| | |auto].
    - destruct w' as [|x w']; [congruence|]. cbn [app] in E'. injection E' as <- E'. inversion W2'; congruence.
    - destruct w as [|x w]; [congruence|]. cbn [app] in E'. injection E' as -> E'. inversion W2; congruence. }
  destruct H as [-> H]. split; auto. change ["."%char; c; d] with (["."%char] ++ [c] ++ [d]) in H. change ["."%char; c'; d'] with (["."%char] ++ [c'] ++ [d']) in H. rewrite !app_assoc in H.
  apply app_inj_tail in H. destruct H as [H ->]. apply app_inj_tail in H. destruct H as [H ->]. apply app_inj_tail in H. destruct H as [-> _].
  rewrite (Z.div_mod n 100), (Z.div_mod n' 100) by lia. congruence.
Qed.

(** * Grids *)
Definition grid (n : nat) (f : nat -> nat -> text) : list row := map (fun i => map (f i) (seq 0 5)) (seq 0 n).
Definition upd (f : nat -> nat -> text) (i j : nat) (t : text) : nat -> nat -> text := fun a b => if ((a =? i) && (b =? j))%nat then t else f a b.

Lemma set_nth_map {A} (g : nat -> A) : forall n s i a, (i < n)%nat -> set_nth (map g (seq s n)) i a = Ok (map (fun k => if (k =? s + i)%nat then a else g k) (seq s n)).
Proof.
  induction n as [|n IH]; intros s i a I; [lia|]. cbn [seq map]. destruct i as [|i]; cbn [set_nth].
  - rewrite Nat.add_0_r, Nat.eqb_refl. f_equal. f_equal. apply map_ext_in. intros k K. apply in_seq in K. destruct (Nat.eqb_spec k s); [lia|reflexivity].
  - rewrite IH by lia. cbn [bind]. destruct (Nat.eqb_spec s (s + S i)); [lia|]. f_equal. f_equal. apply map_ext. intros k. replace (S s + i)%nat with (s + S i)%nat by lia. reflexivity.
Qed.
Lemma set_cell_grid n f i j t : (i < n)%nat -> (j < 5)%nat -> set_cell (grid n f) i j t = Ok (grid n (upd f i j t)).
Proof.
  intros I J. unfold set_cell, grid, get. rewrite nth_error_map. rewrite (nth_error_nth' (seq 0 n) 0%nat) by (rewrite seq_length; lia). rewrite seq_nth by lia. cbn [option_map bind].
  rewrite set_nth_map by lia. cbn [bind]. rewrite set_nth_map by lia. f_equal. apply map_ext. intros a. destruct (Nat.eqb_spec a (0 + i)) as [->|NE].
  - apply map_ext. intros b. unfold upd. cbn [Nat.add]. rewrite Nat.eqb_refl. cbn [andb]. reflexivity.
  - apply map_ext. intros b. unfold upd. destruct (Nat.eqb_spec a i); [lia|reflexivity].
Qed.
Lemma grid_ext n f g : (forall i j, (i < n)%nat -> (j < 5)%nat -> f i j = g i j) -> grid n f = grid n g.
Proof. intros H. unfold grid. apply map_ext_in. intros i I. apply in_seq in I. apply map_ext_in. intros j J. apply in_seq in J. apply H; lia. Qed.

(** The cells of a block of lines. *)
Definition block (f : nat -> nat -> text) (d : dict) (ix a b : nat) : nat -> nat -> text :=
  fun i j => if ((ix <=? i) && (i <? ix + length d))%nat
             then if (j =? b)%nat then fmt2 (snd (nth (i - ix) d (""%string, 0%Qc))) else if (j =? a)%nat then text_of (fst (nth (i - ix) d (""%string, 0%Qc))) else f i j
             else f i j.
Lemma entries_grid n a b : (a < 5)%nat -> (b < 5)%nat -> forall d ix f, (ix + length d <= n)%nat -> foldM (entry_step a b) d (ix, grid n f) = Ok ((ix + length d)%nat, grid n (block f d ix a b)).
Proof.
  intros A B. induction d as [|[k v] d IH]; intros ix f L; cbn [length] in L |- *.
  - cbn [foldM]. f_equal. f_equal; [lia|]. apply grid_ext. intros i j I J. unfold block. cbn [length]. replace ((ix <=? i) && (i <? ix + 0))%nat with false; auto. symmetry. apply andb_false_iff. rewrite Nat.leb_gt, Nat.ltb_ge. lia.
  - cbn [foldM]. unfold entry_step at 1. cbn [fst snd]. rewrite set_cell_grid by lia. cbn [bind]. rewrite set_cell_grid by lia. cbn [bind]. rewrite IH by lia. f_equal. f_equal; [lia|].
    apply grid_ext. intros i j I J. unfold block, upd. cbn [length].
    destruct (Nat.leb_spec (S ix) i), (Nat.ltb_spec i (S ix + length d)), (Nat.leb_spec ix i), (Nat.ltb_spec i (ix + S (length d))); cbn [andb]; try lia.
    + replace (i - ix)%nat with (S (i - S ix)) by lia. cbn [nth]. destruct (Nat.eqb_spec j b); auto. destruct (Nat.eqb_spec j a); auto. destruct (Nat.eqb_spec i ix); [lia|]. reflexivity.
    + destruct (Nat.eqb_spec i ix); [lia|]. reflexivity.
    + assert (i = ix) by lia. subst i. rewrite Nat.eqb_refl, Nat.sub_diag. cbn [nth fst snd andb]. destruct (Nat.eqb_spec j b), (Nat.eqb_spec j a); reflexivity.
    + destruct (Nat.eqb_spec i ix); [lia|]. reflexivity.
Qed.

(** * The balance sheet *)
Definition pair_cells (d : dict) : list row := map (fun kv : string * Qc => [text_of (fst kv); fmt2 (snd kv)]) d.
Definition triple_cells (d : dict) : list row := map (fun kv : string * Qc => [text_of (fst kv); fmt2 (snd kv); []]) d.
Definition right_side (sh : balance_sheet) : list row :=
  [[text_of "Liabilities"; []; []]; [text_of "-----------"; []; []]] ++ triple_cells (sheet_liab sh) ++
  [[text_of "Total liabilities"; []; fmt2 (sheet_total_liab sh)]; [text_of "-----------------"; []; []]; [text_of "Owners' Equity"; []; []]; [text_of "--------------"; []; []]] ++
  triple_cells (sheet_equity sh) ++ [[text_of "Total owners' equities"; []; fmt2 (sheet_total_equity sh)]].

Lemma nth_map' {A B} (g : A -> B) d d' l i : (i < length l)%nat -> nth i (map g l) d' = g (nth i l d).
Proof. intros H. rewrite (nth_indep _ d' (g d)) by (rewrite map_length; auto). apply map_nth. Qed.

Lemma balance_body_layout sh : balance_body sh = Ok (beside (A := text) [[]; []] [[]; []; []] (pair_cells (sheet_assets sh)) (right_side sh)).
Proof.
  unfold balance_body. set (A := sheet_assets sh). set (L := sheet_liab sh). set (E := sheet_equity sh). set (n := Nat.max (length A) (length L + length E + 4 + 3)).
  assert (G0 : repeat (repeat ([] : text) 5) n = grid n (fun _ _ => [])).
  { unfold grid. assert (R : forall m s, repeat (repeat ([] : text) 5) m = map (fun _ : nat => map (fun _ : nat => ([] : text)) (seq 0 5)) (seq s m)) by (induction m as [|m IH]; intros s; [reflexivity|]; cbn [repeat seq map] in *; now rewrite (IH (S s))). apply R. }
  rewrite G0. rewrite entries_grid by lia. cbn [bind fst snd]. do 2 (rewrite set_cell_grid by lia; cbn [bind]). rewrite entries_grid by lia. cbn [bind fst snd].
  do 5 (rewrite set_cell_grid by lia; cbn [bind]). rewrite entries_grid by lia. cbn [bind fst snd]. rewrite set_cell_grid by lia; cbn [bind]. rewrite set_cell_grid by lia. f_equal.
  unfold beside. assert (LR : @length (list text) (right_side sh) = (length L + length E + 4 + 3)%nat) by (unfold right_side, triple_cells; rewrite !app_length, !map_length; cbn [length]; fold L E; lia).
  assert (LL : @length (list text) (pair_cells A) = length A) by (unfold pair_cells; apply map_length). rewrite LR, LL. fold n. unfold grid. apply map_ext_in. intros i I. apply in_seq in I. cbn [seq map].
  assert (SPLIT : forall (x y : list text) a b c d e, x = [a; b] -> y = [c; d; e] -> [a; b; c; d; e] = x ++ y) by (intros; subst; reflexivity).
  apply SPLIT.
  - destruct (Nat.lt_ge_cases i (length A)) as [H|H].
    + unfold pair_cells. rewrite (nth_map' _ (""%string, 0%Qc)) by auto. unfold upd, block. cbn [Nat.eqb andb]. rewrite !andb_false_r. rewrite Nat.sub_0_r. replace ((0 <=? i) && (i <? 0 + length A))%nat with true by (symmetry; apply andb_true_iff; rewrite Nat.leb_le, Nat.ltb_lt; lia).
      repeat match goal with |- context[if ?b then _ else _] => destruct b end; reflexivity.
    + rewrite nth_overflow by lia. unfold upd, block. cbn [Nat.eqb andb]. rewrite !andb_false_r. replace ((0 <=? i) && (i <? 0 + length A))%nat with false by (symmetry; apply andb_false_iff; rewrite Nat.leb_gt, Nat.ltb_ge; lia).
      repeat match goal with |- context[if ?b then _ else _] => destruct b end; reflexivity.
  - unfold right_side. fold L E. unfold upd, block. cbn [Nat.eqb]. rewrite !andb_false_r, !andb_true_r.
    destruct (Nat.lt_ge_cases i 2) as [H0|H0].
    { destruct i as [|[|i]]; [| |lia]; cbn [app nth].
      - repeat match goal with |- context[(?a =? ?b)%nat] => destruct (Nat.eqb_spec a b); [try lia|try lia] | |- context[(?a <=? ?b)%nat] => destruct (Nat.leb_spec a b); [try lia|try lia] end; cbn [andb]; repeat match goal with |- context[if ?b then _ else _] => destruct b end; reflexivity.
      - repeat match goal with |- context[(?a =? ?b)%nat] => destruct (Nat.eqb_spec a b); [try lia|try lia] | |- context[(?a <=? ?b)%nat] => destruct (Nat.leb_spec a b); [try lia|try lia] end; cbn [andb]; repeat match goal with |- context[if ?b then _ else _] => destruct b end; reflexivity. }
    rewrite app_nth2 by (cbn [length]; lia). cbn [length].
    destruct (Nat.lt_ge_cases i (2 + length L)) as [H1|H1].
    { rewrite app_nth1 by (unfold triple_cells; rewrite map_length; lia). unfold triple_cells. rewrite (nth_map' _ (""%string, 0%Qc)) by lia.
      repeat match goal with |- context[(?a =? ?b)%nat] => destruct (Nat.eqb_spec a b); [try lia|try lia] | |- context[(?a <=? ?b)%nat] => destruct (Nat.leb_spec a b); [try lia|try lia] | |- context[(?a <? ?b)%nat] => destruct (Nat.ltb_spec a b); [try lia|try lia] end; reflexivity. }
    rewrite app_nth2 by (unfold triple_cells; rewrite map_length; lia). unfold triple_cells. rewrite map_length.
    destruct (Nat.lt_ge_cases i (2 + length L + 4)) as [H2|H2].
    { rewrite app_nth1 by (cbn [length]; lia). assert (C : (i - 2 - length L = 0 \/ i - 2 - length L = 1 \/ i - 2 - length L = 2 \/ i - 2 - length L = 3)%nat) by lia.
      destruct C as [C|[C|[C|C]]]; rewrite C; cbn [nth];
      repeat match goal with |- context[(?a =? ?b)%nat] => destruct (Nat.eqb_spec a b); [try lia|try lia] | |- context[(?a <=? ?b)%nat] => destruct (Nat.leb_spec a b); [try lia|try lia] | |- context[(?a <? ?b)%nat] => destruct (Nat.ltb_spec a b); [try lia|try lia] end; cbn [andb]; try reflexivity. }
    rewrite app_nth2 by (cbn [length]; lia). cbn [length].
    destruct (Nat.lt_ge_cases i (2 + length L + 4 + length E)) as [H3|H3].
    { rewrite app_nth1 by (rewrite map_length; lia). rewrite (nth_map' _ (""%string, 0%Qc)) by lia. replace (i - (2 + length L + 4))%nat with (i - 2 - length L - 4)%nat by lia.
      repeat match goal with |- context[(?a =? ?b)%nat] => destruct (Nat.eqb_spec a b); [try lia|try lia] | |- context[(?a <=? ?b)%nat] => destruct (Nat.leb_spec a b); [try lia|try lia] | |- context[(?a <? ?b)%nat] => destruct (Nat.ltb_spec a b); [try lia|try lia] end; cbn [andb]; try reflexivity. }
    rewrite app_nth2 by (rewrite map_length; lia). rewrite map_length.
    destruct (Nat.lt_ge_cases i (2 + length L + 4 + length E + 1)) as [H4|H4].
    { replace (i - 2 - length L - 4 - length E)%nat with 0%nat by lia. cbn [nth].
      repeat match goal with |- context[(?a =? ?b)%nat] => destruct (Nat.eqb_spec a b); [try lia|try lia] | |- context[(?a <=? ?b)%nat] => destruct (Nat.leb_spec a b); [try lia|try lia] | |- context[(?a <? ?b)%nat] => destruct (Nat.ltb_spec a b); [try lia|try lia] end; cbn [andb]; try reflexivity. }
    rewrite nth_overflow by (cbn [length]; lia).
    repeat match goal with |- context[(?a =? ?b)%nat] => destruct (Nat.eqb_spec a b); [try lia|try lia] | |- context[(?a <=? ?b)%nat] => destruct (Nat.leb_spec a b); [try lia|try lia] | |- context[(?a <? ?b)%nat] => destruct (Nat.ltb_spec a b); [try lia|try lia] end; cbn [andb]; try reflexivity.
Qed.

(** * Lines *)
Lemma lines_map layout d : lines layout d (map (fun kv : string * Qc => layout (text_of (fst kv)) (fmt2 (snd kv))) d).
Proof. unfold lines. induction d; cbn [map]; constructor; auto. exists (fmt2 (snd a)). split; auto. apply fmt2_shows. Qed.
Lemma lines_in layout d rows kv : lines layout d rows -> In kv d -> exists r, In r rows /\ entry kv r layout.
Proof. induction 1 as [|x y d rows H F IH]; intros I; [easy|]. destruct I as [->|I]; [exists y; split; cbn; auto|]. destruct (IH I) as (r & R & E). exists r. split; cbn; auto. Qed.

Lemma beside_l {A} (bl br : list A) l r x : In x l -> exists y, In (x ++ y) (beside bl br l r).
Proof.
  intros I. destruct (In_nth l x bl I) as (i & L & N). exists (nth i r br). unfold beside. apply in_map_iff. exists i. rewrite N. split; auto. apply in_seq. lia.
Qed.
Lemma beside_r {A} (bl br : list A) l r y : In y r -> exists x, (x = bl \/ In x l) /\ In (x ++ y) (beside bl br l r).
Proof.
  intros I. destruct (In_nth r y br I) as (i & L & N). exists (nth i l bl). split.
  - destruct (nth_in_or_default i l bl); auto.
  - unfold beside. apply in_map_iff. exists i. rewrite N. split; auto. apply in_seq. lia.
Qed.

(** How far apart amounts shown alike can be. *)
From Coq Require Import Lqa.
Lemma shows_close x y t : shows x t -> shows y t -> (Qabs (x - y) <= 1 # 100)%Q /\ ((x < 0)%Q <-> (y < 0)%Q).
Proof.
  intros (n & N & H1 & H2) (m & M & H3 & H4). destruct (amount_unique _ _ _ _ _ N M H2 H4) as [S ->]. destruct H1 as [H1 _], H3 as [H3 _].
  apply Qabs_Qle_condition in H1. apply Qabs_Qle_condition in H3. destruct H1 as [a b], H3 as [c d].
  destruct (Qlt_le_dec x 0) as [X|X], (Qlt_le_dec y 0) as [Y|Y]; try discriminate; (split; [|split; intros; auto; exfalso; eapply Qlt_not_le; eauto]).
  - rewrite (Qabs_neg x) in * by (apply Qlt_le_weak; auto). rewrite (Qabs_neg y) in * by (apply Qlt_le_weak; auto). apply Qabs_Qle_condition. split; lra.
  - rewrite (Qabs_pos x) in * by auto. rewrite (Qabs_pos y) in * by auto. apply Qabs_Qle_condition. split; lra.
Qed.

(** * Dates and times *)
Lemma padded_length k : forall n, length (padded k n) = k.
Proof. induction k; intros n; cbn [padded]; auto. rewrite app_length, IHk. cbn. lia. Qed.
Lemma padded_value k : forall n, 0 <= n -> value (padded k n) = n mod 10 ^ Z.of_nat k.
Proof.
  induction k as [|k IH]; intros n N; cbn [padded]; [cbn; now rewrite Z.mod_1_r|]. assert (0 <= n mod 10 < 10) by (apply Z.mod_pos_bound; lia).
  rewrite value_app, IH, code_chr by (try apply Z.div_pos; lia). rewrite Nat2Z.inj_succ, Z.pow_succ_r by lia. rewrite Z.rem_mul_r by lia. lia.
Qed.
Lemma padded_inj k n m : 0 <= n < 10 ^ Z.of_nat k -> 0 <= m < 10 ^ Z.of_nat k -> padded k n = padded k m -> n = m.
Proof. intros N M E. apply (f_equal value) in E. rewrite !padded_value, !Z.mod_small in E by lia. exact E. Qed.
Lemma app_inj_len {A} (a b c d : list A) : length a = length c -> a ++ b = c ++ d -> a = c /\ b = d.
Proof. revert c. induction a as [|x a IH]; intros [|y c] L E; try discriminate; cbn in *; auto. injection E as -> E. injection L as L. destruct (IH c L E) as [-> ->]. auto. Qed.
Lemma app_inj_cons {A} (x : A) (a b c d : list A) : length a = length c -> a ++ x :: b = c ++ x :: d -> a = c /\ b = d.
Proof. intros L E. apply app_inj_len in E; auto. destruct E as [-> E]. split; congruence. Qed.
Lemma time_str_inj u v : 0 <= u < 86400000000 -> 0 <= v < 86400000000 -> time_str u = time_str v -> u = v.
Proof.
  intros U V E. unfold time_str in E. apply app_inj_cons in E; [|now rewrite !padded_length]. destruct E as [H E].
  apply app_inj_cons in E; [|now rewrite !padded_length]. destruct E as [M E]. apply app_inj_len in E; [|now rewrite !padded_length]. destruct E as [S E].
  assert (B : forall z, 0 <= z < 86400000000 -> 0 <= z / 3600000000 < 24 /\ 0 <= z / 60000000 mod 60 < 60 /\ 0 <= z / 1000000 mod 60 < 60 /\ 0 <= z mod 1000000 < 1000000 /\ z = z / 3600000000 * 3600000000 + z / 60000000 mod 60 * 60000000 + z / 1000000 mod 60 * 1000000 + z mod 1000000).
  { intros z Z. replace (z / 3600000000) with (z / 60000000 / 60) by (rewrite Z.div_div by lia; f_equal). replace (z / 60000000) with (z / 1000000 / 60) by (rewrite Z.div_div by lia; f_equal).
    Z.div_mod_to_equations. lia. }
  pose proof (B u U) as (u1 & u2 & u3 & u4 & u5). pose proof (B v V) as (v1 & v2 & v3 & v4 & v5).
  apply padded_inj in H; [|change (10 ^ Z.of_nat 2) with 100; lia ..]. apply padded_inj in M; [|change (10 ^ Z.of_nat 2) with 100; lia ..]. apply padded_inj in S; [|change (10 ^ Z.of_nat 2) with 100; lia ..].
  assert (F : u mod 1000000 = v mod 1000000).
  { destruct (Z.eqb_spec (u mod 1000000) 0) as [X|X], (Z.eqb_spec (v mod 1000000) 0) as [Y|Y]; try discriminate; [lia|]. apply (app_inj_cons _ [] _ []) in E; auto. destruct E as [_ E]. apply padded_inj in E; auto; change (10 ^ Z.of_nat 6) with 1000000; lia. }
  lia.
Qed.
Lemma pytime_str_inj p q : valid_dt (py_raw p) -> valid_dt (py_raw q) -> (py_is_dt p = false -> dt_us (py_raw p) = 0) -> (py_is_dt q = false -> dt_us (py_raw q) = 0) -> pytime_str p = pytime_str q -> p = q.
Proof.
  assert (D : forall a b r s, valid_dt a -> valid_dt b -> date_str a ++ r = date_str b ++ s -> dt_year a = dt_year b /\ dt_month a = dt_month b /\ dt_day a = dt_day b /\ r = s).
  { intros [y m d u] [y' m' d' u'] r s V V' E. unfold valid_dt, date_str in *. cbn [dt_year dt_month dt_day dt_us] in *. pose proof (dim_bounds y m). pose proof (dim_bounds y' m').
    assert (X : days_in_month y m <= 31) by lia. assert (X' : days_in_month y' m' <= 31) by lia.
    rewrite <- !app_assoc, <- !app_comm_cons, <- !app_assoc in E. cbn [app] in E. apply app_inj_cons in E; [|now rewrite !padded_length]. destruct E as [E1 E]. apply app_inj_cons in E; [|now rewrite !padded_length]. destruct E as [E2 E].
    apply app_inj_len in E; [|now rewrite !padded_length]. destruct E as [E3 E]. apply padded_inj in E1; [|change (10 ^ Z.of_nat 4) with 10000; lia ..]. apply padded_inj in E2; [|change (10 ^ Z.of_nat 2) with 100; lia ..]. apply padded_inj in E3; [|change (10 ^ Z.of_nat 2) with 100; lia ..]. auto. }
  intros V V' P Q E. destruct p as [a|a], q as [b|b]; cbn [pytime_str py_raw py_is_dt] in *.
  - specialize (P eq_refl). specialize (Q eq_refl). rewrite <- (app_nil_r (date_str a)), <- (app_nil_r (date_str b)) in E. apply D in E; auto. destruct a, b; cbn in *. f_equal. destruct E as (-> & -> & -> & _). congruence.
  - exfalso. rewrite <- (app_nil_r (date_str a)) in E. apply D in E; auto. destruct E as (_ & _ & _ & E). discriminate.
  - exfalso. rewrite <- (app_nil_r (date_str b)) in E. apply D in E; auto. destruct E as (_ & _ & _ & E). discriminate.
  - apply D in E; auto. destruct E as (E1 & E2 & E3 & E4). apply (app_inj_cons _ [] _ []) in E4; auto. destruct E4 as [_ E4]. assert (dt_us a = dt_us b). { apply time_str_inj; auto; unfold valid_dt, us_per_day in *; lia. } destruct a, b; cbn in *. congruence.
Qed.

(** * No carriage returns *)
Lemma digit_not_cr c : is_digit c = true -> c <> cr.
Proof. intros H ->. discriminate. Qed.
Lemma padded_digits k : forall n, Forall (fun c => is_digit c = true) (padded k n).
Proof. induction k; intros n; cbn [padded]; constructor || apply Forall_app. split; auto. constructor; [|constructor]. assert (0 <= n mod 10 < 10) by (apply Z.mod_pos_bound; lia). apply digit_chr. lia. Qed.
Lemma shows_no_cr x t : shows x t -> ~ In cr t.
Proof.
  intros (n & _ & _ & w & c & d & -> & (_ & W & _) & C & D & _) I. apply in_app_or in I. destruct I as [I|I].
  - destruct (Qlt_le_dec x 0); cbn in I; intuition discriminate.
  - apply in_app_or in I. rewrite Forall_forall in W. destruct I as [I|I]; [apply W in I; discriminate|]. destruct I as [I|[I|[I|[]]]]; [discriminate|rewrite I in C; discriminate|rewrite I in D; discriminate].
Qed.
Lemma padded_no_cr k n : ~ In cr (padded k n).
Proof. intros I. pose proof (padded_digits k n) as P. rewrite Forall_forall in P. apply P in I. discriminate. Qed.
Lemma pytime_no_cr p : ~ In cr (pytime_str p).
Proof.
  assert (D : forall t, ~ In cr (date_str t)).
  { intros t. unfold date_str. intros I. apply in_app_or in I. destruct I as [I|[I|I]]; [now apply padded_no_cr in I|discriminate|]. apply in_app_or in I. destruct I as [I|[I|I]]; [now apply padded_no_cr in I|discriminate|now apply padded_no_cr in I]. }
  destruct p as [t|t]; cbn [pytime_str]; [apply D|]. intros I. apply in_app_or in I. destruct I as [I|[I|I]]; [now apply D in I|discriminate|]. unfold time_str in I.
  apply in_app_or in I. destruct I as [I|[I|I]]; [now apply padded_no_cr in I|discriminate|]. apply in_app_or in I. destruct I as [I|[I|I]]; [now apply padded_no_cr in I|discriminate|]. apply in_app_or in I. destruct I as [I|I]; [now apply padded_no_cr in I|].
  destruct (_ =? 0); [easy|]. destruct I as [I|I]; [discriminate|now apply padded_no_cr in I].
Qed.
Lemma lines_no_cr layout d rows r f : lines layout d rows -> (forall kv, In kv d -> ~ In cr (text_of (fst kv))) -> (forall a b c, In c (layout a b) -> c = a \/ c = b \/ c = []) -> In r rows -> In f r -> ~ In cr f.
Proof.
  induction 1 as [|kv x d rows (a & S & ->) F IH]; intros D L R Hf; [easy|]. destruct R as [<-|R].
  - apply L in Hf. destruct Hf as [->|[->| ->]]; [apply D; now left|eapply shows_no_cr; eauto|easy].
  - apply IH; auto. intros kv' K. apply D. now right.
Qed.

Lemma nearest_self n x : (this x == n # 100)%Q -> cents x = Z.abs n.
Proof.
  intros H. destruct (cents_spec x) as [C [N _]]. rewrite H in N. apply Qabs_Qle_condition in N. unfold Qabs, Qminus, Qplus, Qopp, Qmult, inject_Z, Qle in N. cbn -[Z.mul Z.add] in N. lia.
Qed.
Lemma cents_inj x y n m : (this x == n # 100)%Q -> (this y == m # 100)%Q -> fmt2 x = fmt2 y -> x = y.
Proof.
  intros X Y E. assert (SX := fmt2_shows x). assert (SY := fmt2_shows y). rewrite E in SX. destruct (shows_close _ _ _ SX SY) as [_ SG].
  destruct SX as (a & A & NA & TA). destruct SY as (b & B & NB & TB). destruct (amount_unique _ _ _ _ _ A B TA TB) as [_ ->].
  assert (U : forall k x n, (this x == n # 100)%Q -> nearest k (100 * Qabs x) -> k = Z.abs n).
  { clear. intros k x n H [N _]. rewrite H in N. apply Qabs_Qle_condition in N. unfold Qabs, Qminus, Qplus, Qopp, Qmult, inject_Z, Qle in N. cbn -[Z.mul Z.add] in N. lia. }
  pose proof (U _ _ _ X NA) as U1. pose proof (U _ _ _ Y NB) as U2. apply Qc_is_canon. rewrite X, Y in *. unfold Qlt in SG. cbn [Qnum Qden] in SG. assert (n = m) by lia. now subst.
Qed.
Lemma date_str_iso y m d u : 0 <= y <= 9999 -> 0 <= m <= 99 -> 0 <= d <= 99 -> date_str (mkdt y m d u) = Spec_Dates2.iso y m d.
Proof.
  intros Y M D. unfold date_str. cbn [dt_year dt_month dt_day padded app]. unfold Spec_Dates2.iso.
  replace (y / 10 / 10 / 10) with (y / 1000) by (rewrite !Z.div_div by lia; reflexivity). replace (y / 10 / 10) with (y / 100) by (rewrite !Z.div_div by lia; reflexivity).
  rewrite (Z.mod_small (y / 1000) 10), (Z.mod_small (m / 10) 10), (Z.mod_small (d / 10) 10); [reflexivity|..]; (split; [apply Z.div_pos; lia|apply Z.div_lt_upper_bound; lia]).
Qed.
Lemma beside_cells {A} (bl br : list A) l r x f : In x (beside bl br l r) -> In f x -> In f bl \/ In f br \/ (exists y, In y l /\ In f y) \/ (exists y, In y r /\ In f y).
Proof.
  intros I F. unfold beside in I. apply in_map_iff in I. destruct I as (i & <- & _). apply in_app_or in F. destruct F as [F|F].
  - destruct (nth_in_or_default i l bl) as [H|H]; [right; right; left; eauto|rewrite H in F; auto].
  - destruct (nth_in_or_default i r br) as [H|H]; [right; right; right; eauto|rewrite H in F; auto].
Qed.
