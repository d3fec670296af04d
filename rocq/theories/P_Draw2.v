(** Proofs about the drawn transaction list. *)
From Verif Require Import Prelude M_Stoichiometry M_Text M_Dates M_Accounts M_Ledger M_Csv M_Tables M_Print M_Json M_Tabulate M_Render Spec_Ledger Spec_Text Spec_Tables Spec_Print Spec_Tabulate P_Text P_File P_Tables P_Print P_Print3 P_General P_Tabulate P_Draw.
From Coq Require Import Qabs Reals Lra Lia.
From Flocq Require Raux.
Local Open Scope string_scope.
Local Open Scope list_scope.

(** * Dates *)
Lemma padded_tidy k n : tidy (padded k n). Proof. apply tidy_no_space, digits_no_space, padded_digits. Qed.
Lemma tidy_cons c t : is_space c = false \/ c = " "%char -> tidy t -> tidy (c :: t).
Proof. intros H T d [<-|I] S; [destruct H; congruence|auto]. Qed.
Lemma pytime_tidy p : tidy (pytime_str p).
Proof.
  assert (D : forall t, tidy (date_str t)). { intros t. unfold date_str. apply tidy_app; [apply padded_tidy|]. apply tidy_cons; [now left|]. apply tidy_app; [apply padded_tidy|]. apply tidy_cons; [now left|]. apply padded_tidy. }
  destruct p as [t|t]; cbn [pytime_str]; auto. apply tidy_app; auto. apply tidy_cons; [now right|]. unfold time_str.
  apply tidy_app; [apply padded_tidy|]. apply tidy_cons; [now left|]. apply tidy_app; [apply padded_tidy|]. apply tidy_cons; [now left|]. apply tidy_app; [apply padded_tidy|]. destruct (_ =? 0)%Z; [intros c []|]. apply tidy_cons; [now left|]. apply padded_tidy.
Qed.
(** * Six digits *)
Lemma scale n : (0 < n < 10 ^ 6)%Z -> exists j, (0 <= j <= 5)%Z /\ (10 ^ 5 <= n * 10 ^ j < 10 ^ 6)%Z.
Proof.
  intros H. change (10 ^ 6)%Z with 1000000%Z in *. change (10 ^ 5)%Z with 100000%Z.
  destruct (Z_lt_le_dec n 10); [exists 5%Z; change (10 ^ 5)%Z with 100000%Z; lia|]. destruct (Z_lt_le_dec n 100); [exists 4%Z; change (10 ^ 4)%Z with 10000%Z; lia|]. destruct (Z_lt_le_dec n 1000); [exists 3%Z; change (10 ^ 3)%Z with 1000%Z; lia|].
  destruct (Z_lt_le_dec n 10000); [exists 2%Z; change (10 ^ 2)%Z with 100%Z; lia|]. destruct (Z_lt_le_dec n 100000); [exists 1%Z; change (10 ^ 1)%Z with 10%Z; lia|]. exists 0%Z. change (10 ^ 0)%Z with 1%Z. lia.
Qed.
Lemma ten_pow_R j : (0 <= j)%Z -> IZR (10 ^ j) = powerRZ 10 j.
Proof. intros J. rewrite <- (Z2Nat.id j J) at 2. rewrite <- pow_powerRZ, pow_IZR, Z2Nat.id by auto. reflexivity. Qed.
Lemma small_error : (powerRZ 2 (-53) * 1000000 <= / 100)%R.
Proof. change (powerRZ 2 (-53)) with (/ 2 ^ 53)%R. replace (2 ^ 53)%R with (9007199254740992)%R by (cbn [pow]; lra). lra. Qed.
Lemma small_exact neg n s : (0 < n < 10 ^ 6)%Z -> (Rabs (s - IZR n / 100) <= powerRZ 2 (-53) * (IZR n / 100))%R -> exists m e, six s = (m, e) /\ (10 ^ 5 <= m < 10 ^ 6)%Z /\ (IZR m * powerRZ 10 (e - 5) = IZR n / 100)%R /\ denotes (minus neg ++ general (six s)) neg (IZR n / 100).
Proof.
  intros N H. destruct (scale n N) as (j & J & M). assert (V : (IZR (n * 10 ^ j) * powerRZ 10 (-2 - j) = IZR n / 100)%R).
  { rewrite mult_IZR, ten_pow_R by lia. rewrite Rmult_assoc, <- ten_add. replace (j + (-2 - j))%Z with (-2)%Z by lia. change (powerRZ 10 (-2)) with (/ (10 * (10 * 1)))%R. lra. }
  assert (S : six s = (n * 10 ^ j, -2 - j + 5)%Z).
  { apply six_near; auto. rewrite V. apply Rle_trans with (1 := H). rewrite <- V. rewrite <- Rmult_assoc. apply Rmult_le_compat_r; [left; apply ten_pos|]. apply Rle_trans with (powerRZ 2 (-53) * 1000000)%R; [|apply small_error].
    apply Rmult_le_compat_l; [left; apply powerRZ_lt; lra|]. change 1000000%R with (IZR (10 ^ 6)). apply IZR_le. lia. }
  exists (n * 10 ^ j)%Z, (-2 - j + 5)%Z. split; auto. split; auto. replace (-2 - j + 5 - 5)%Z with (-2 - j)%Z by lia. split; auto. rewrite S, <- V. replace (-2 - j)%Z with (-2 - j + 5 - 5)%Z at 2 by lia. now apply general_denotes.
Qed.

Section S.
Variable int_of : text -> bool.
Variable float_of : text -> option pyfloat.
Hypothesis RN : reads_numbers int_of float_of.
Notation column_type := (column_type int_of float_of).
Notation cell_type := (cell_type int_of float_of).
Notation format_cell := (format_cell float_of).
Notation shown_row := (shown_row int_of float_of).
Notation tabulate := (tabulate int_of float_of).

Lemma amount_cell t neg n : (0 <= n < 10 ^ 300)%Z -> amount_text neg n t -> cell_type t = 2%Z /\ amount_shown neg n (strip (format_cell 2 t)).
Proof.
  intros N A. destruct RN as (_ & _ & R3). destruct (R3 t neg n N A) as (I & s & F & P & E). unfold M_Tabulate.cell_type. rewrite I, F. split; auto.
  unfold M_Tabulate.format_cell. cbn [Z.eqb Pos.eqb]. rewrite F. rewrite (no_space_strip _ (format_g_no_space _)). split; [exists s; split; auto; now apply format_g_shows|]. intros L. 
  destruct (Z.eq_dec n 0) as [->|Z0].
  - assert (Z1 : (0 / 100 = 0)%R) by lra. assert (s = 0)%R. { rewrite Z1 in E. rewrite Rmult_0_r, Rminus_0_r in E. pose proof (Rabs_pos s). destruct (Req_dec s 0); auto. apply Rabs_pos_lt in H0. lra. } subst s. rewrite Z1. destruct (format_g_shows neg 0 ltac:(lra)) as [[_ D]|[X _]]; [exact D|lra].
  - destruct (small_exact neg n s ltac:(lia) E) as (m & e & S & M & V & D). unfold format_g. destruct (Req_EM_T s 0) as [->|]; auto. exfalso. pose proof (six_spec 0) as _. apply Raux.Rabs_le_inv in E. assert (X : (1 <= IZR n)%R) by (apply IZR_le; lia). pose proof small_error. assert (0 <= powerRZ 2 (-53))%R by (left; apply powerRZ_lt; lra). 
    assert (powerRZ 2 (-53) * (IZR n / 100) < IZR n / 100)%R; [|lra]. rewrite <- (Rmult_1_l (IZR n / 100)) at 2. apply Rmult_lt_compat_r; lra.
Qed.
Lemma cents_bound (x : Qc) : (Qabs x <= inject_Z (10 ^ 297))%Q -> (0 <= cents x < 10 ^ 300)%Z.
Proof.
  intros H. destruct (cents_spec x) as [P [N _]]. split; auto. apply Qabs_Qle_condition in N. destruct N as [N _].
  assert (X : (inject_Z (cents x) <= 100 * inject_Z (10 ^ 297) + (1 # 2))%Q). { apply Qle_trans with (100 * Qabs x + (1 # 2))%Q. - assert (- (1 # 2) + inject_Z (cents x) <= 100 * Qabs x)%Q. { apply Qle_minus_iff in N. apply Qle_minus_iff. setoid_replace (100 * Qabs x + - (- (1 # 2) + inject_Z (cents x)))%Q with (100 * Qabs x - inject_Z (cents x) + - - (1 # 2))%Q by ring. exact N. } apply Qle_minus_iff in H0. apply Qle_minus_iff. setoid_replace (100 * Qabs x + (1 # 2) + - inject_Z (cents x))%Q with (100 * Qabs x + - (- (1 # 2) + inject_Z (cents x)))%Q by ring. exact H0.
    - apply Qplus_le_compat; [|apply Qle_refl]. apply Qmult_le_l; [reflexivity|exact H]. }
  destruct (Z_lt_le_dec (cents x) (10 ^ 300)) as [L|L]; auto. exfalso. assert (Y : (inject_Z (10 ^ 300) <= 100 * inject_Z (10 ^ 297) + (1 # 2))%Q) by (apply Qle_trans with (2 := X); now rewrite <- Zle_Qle).
  apply Y. vm_compute. reflexivity.
Qed.
Lemma fmt2_amount (x : Qc) : amount_text (if Qlt_le_dec x 0 then true else false) (cents x) (fmt2 x).
Proof. destruct (fmt2_shows x) as (n & P & N & A). assert (E : n = cents x). { destruct (cents_spec x) as [Q C]. assert (U : forall a b q, nearest a q -> nearest b q -> a = b). { intros a b q [A1 A2] [B1 B2]. clear - A1 A2 B1 B2. assert (D : (Z.abs (a - b) <= 1)%Z). { apply Qabs_Qle_condition in A1, B1. destruct q as [qn qd]. unfold Qle, Qminus, Qplus, Qopp, inject_Z in A1, B1. cbn [Qnum Qden] in A1, B1. nia. }
    destruct (Z.eq_dec a b) as [|NE]; auto. exfalso. assert (HA : (Qabs (q - inject_Z a) == 1 # 2)%Q /\ (Qabs (q - inject_Z b) == 1 # 2)%Q).
    { clear A2 B2. apply Qabs_Qle_condition in A1, B1. destruct q as [qn qd]. unfold Qle, Qeq, Qabs, Qminus, Qplus, Qopp, inject_Z in *. cbn [Qnum Qden] in *. assert (a = b + 1 \/ b = a + 1)%Z as [-> | ->] by lia; lia. }
    destruct HA as [HA HB]. specialize (A2 HA). specialize (B2 HB). assert (a = b + 1 \/ b = a + 1)%Z as [-> | ->] by lia; rewrite Z.even_add in *; rewrite ?A2, ?B2 in *; discriminate. }
    eauto. } now rewrite <- E. Qed.

(** A line of the drawn list. *)
Definition line_shown (r c : list text) : Prop := exists d s n dt cr t a e, r = [d; s; n; dt; cr; t; e] /\ c = [strip d; strip s; strip n; strip dt; strip cr; a; strip e] /\
  forall neg k, (0 <= k)%Z -> amount_text neg k t -> amount_shown neg k a.
Lemma shown_line (rows : list row) d s n dt cr (x : Qc) e : (forall j, (j < 7)%nat -> j <> 5%nat -> column_type (column rows j) = 4%Z) -> column_type (column rows 5) = 2%Z -> (Qabs x <= inject_Z (10 ^ 297))%Q ->
  line_shown [d; s; n; dt; cr; fmt2 x; e] (shown_row rows [d; s; n; dt; cr; fmt2 x; e]).
Proof.
  intros H4 H2 B. exists d, s, n, dt, cr, (fmt2 x), (strip (format_cell 2 (fmt2 x))), e. split; auto. split.
  - unfold P_Tabulate.shown_row. cbn [length seq combine map fst snd]. rewrite H2, !H4 by lia. reflexivity.
  - intros neg k K A. pose proof (fmt2_amount x) as F. pose proof (cents_bound x B) as C. destruct (amount_unique _ _ _ _ _ K (proj1 C) A F) as [-> ->]. now apply amount_cell.
Qed.
Lemma transaction_shows l start fin path rs tot : transaction_list l start fin path = Ok (rs, tot) ->
  (forall r, In r rs -> tidy (text_of (r_source r)) /\ tidy (text_of (r_name r)) /\ tidy (opt_str (r_dt r)) /\ tidy (opt_str (r_cr r)) /\ tidy (text_of (r_desc r)) /\ (Qabs (r_amount r) <= inject_Z (10 ^ 297))%Q) -> (Qabs tot <= inject_Z (10 ^ 297))%Q ->
  exists table cells, transaction_table l start fin path = Ok table /\ shows_table (tabulate table) (map strip (hd [] table)) cells /\ Forall2 line_shown (tl table) cells.
Proof.
  intros H G BT. set (head := map text_of ["Date"; "Source"; "Tx Name"; "Debit Account"; "Credit Account"; "Amount"; "Description"]). set (last := [[]; []; text_of "Total"; []; []; fmt2 tot; []]). set (rows := map tl_cells rs ++ [last]).
  exists (head :: rows), (map (shown_row rows) rows). split; [unfold transaction_table; rewrite H; reflexivity|]. cbn [hd tl].
  assert (C4 : forall j, (j < 7)%nat -> j <> 5%nat -> column_type (column rows j) = 4%Z).
  { intros j J N. apply (text_column int_of float_of RN (column rows j) (nth j last [])). - unfold column. apply in_map_iff. exists last. split; auto. apply in_or_app. right. now left. - apply unread_check. do 7 (destruct j as [|j]; [vm_compute; first [reflexivity|congruence]|]). lia. }
  assert (AC : forall x : Qc, (Qabs x <= inject_Z (10 ^ 297))%Q -> cell_type (fmt2 x) = 2%Z) by (intros x B; exact (proj1 (amount_cell _ _ _ (cents_bound x B) (fmt2_amount x)))).
  assert (C5 : column_type (column rows 5) = 2%Z).
  { apply float_column. - unfold column, rows. rewrite map_app. intros X. apply app_eq_nil in X. destruct X. discriminate. - intros t I. unfold column in I. apply in_map_iff in I. destruct I as (r & <- & I). apply in_app_or in I. destruct I as [I|[<-|[]]].
    + apply in_map_iff in I. destruct I as (x & <- & I). cbn [tl_cells nth]. apply AC. now apply G. + cbn [nth last]. auto. }
  split.
  - apply tabulate_shows; [discriminate|unfold head; repeat (constructor; [apply fixed_in; vm_compute; reflexivity|]); constructor|]. apply Forall_app. split.
    + apply Forall_forall. intros r I. apply in_map_iff in I. destruct I as (x & <- & I). destruct (G x I) as (G1 & G2 & G3 & G4 & G5 & _). split; [reflexivity|]. unfold tl_cells. repeat (constructor; [first [assumption|apply pytime_tidy|apply fmt2_tidy]|]). constructor.
    + constructor; [|constructor]. split; [reflexivity|]. unfold last. repeat (constructor; [first [apply fmt2_tidy|apply fixed_in; vm_compute; reflexivity]|]). constructor.
  - assert (X : forall r, In r rows -> line_shown r (shown_row rows r)). { intros r I. apply in_app_or in I. destruct I as [I|[<-|[]]]. - apply in_map_iff in I. destruct I as (x & <- & I). unfold tl_cells. apply shown_line; auto. now apply G. - unfold last. now apply shown_line. }
    apply forall2_map. exact X.
Qed.
End S.
