(** Proofs about the drawn reports of the ledger. *)
From Verif Require Import Prelude M_Stoichiometry M_Text M_Dates M_Accounts M_Ledger M_Csv M_Tables M_Print M_Json M_Tabulate M_Render Spec_Ledger Spec_Text Spec_Tables Spec_Print Spec_Tabulate P_Text P_File P_Tables P_Print P_Print3 P_General P_Tabulate.
From Coq Require Import Qabs Reals Lra Lia.
From Flocq Require Raux.
Local Open Scope string_scope.
Local Open Scope list_scope.

Definition tidyb (t : text) : bool := forallb (fun c => negb (is_space c) || Ascii.eqb c " ")%bool t.
Lemma tidy_check t : tidyb t = true -> tidy t.
Proof. unfold tidyb. rewrite forallb_forall. intros H c I S. specialize (H c I). rewrite S in H. now apply Ascii.eqb_eq in H. Qed.
Lemma shows_no_space x t : shows x t -> no_space t.
Proof.
  intros (n & _ & _ & w & c & d & -> & (_ & W & _) & C & D & _). apply no_space_app; [destruct (Qlt_le_dec x 0); intros z I; cbn in I; intuition; now subst|]. apply no_space_app; [now apply digits_no_space|].
  intros z [<-|[<-|[<-|[]]]]; auto; [apply (digits_no_space [c])|apply (digits_no_space [d])]; cbn; auto.
Qed.
Lemma fmt2_tidy x : tidy (fmt2 x). Proof. eapply tidy_no_space, shows_no_space, fmt2_shows. Qed.
Lemma no_space_strip t : no_space t -> strip t = t.
Proof. intros N. apply core_strip. exists [], []. rewrite app_nil_r. repeat split; auto; intros c u ->; apply N; [now left|apply in_or_app; right; now left]. Qed.

Section S.
Variable int_of : text -> bool.
Variable float_of : text -> option pyfloat.
Hypothesis RN : reads_numbers int_of float_of.
Notation column_type := (column_type int_of float_of).
Notation cell_type := (cell_type int_of float_of).
Notation shown_row := (shown_row int_of float_of).
Notation tabulate := (tabulate int_of float_of).

(** ** Types of columns *)
Lemma cell_type_le t : (1 <= cell_type t <= 4)%Z.
Proof. unfold M_Tabulate.cell_type. destruct (int_of t); [lia|]. destruct (float_of t); lia. Qed.
Lemma column_from col : forall a, (1 <= a <= 4)%Z -> (a <= fold_left (fun a s => Z.max a (cell_type s)) col a <= 4)%Z /\ forall t, In t col -> (cell_type t <= fold_left (fun a s => Z.max a (cell_type s)) col a)%Z.
Proof.
  induction col as [|t col IH]; intros a A; cbn [fold_left]; [split; [lia|intros t []]|]. pose proof (cell_type_le t). destruct (IH (Z.max a (cell_type t))) as [B C]; [lia|]. split; [lia|]. intros u [->|I]; [lia|auto].
Qed.
Definition unread (t : text) : Prop := forall c, In c t -> is_digit c = false /\ ~ In c ["i"; "I"; "n"; "N"]%char.
Lemma unread_check t : forallb (fun c => negb (is_digit c) && negb (existsb (Ascii.eqb c) ["i"; "I"; "n"; "N"]%char))%bool t = true -> unread t.
Proof.
  rewrite forallb_forall. intros H c I. specialize (H c I). apply andb_prop in H. destruct H as [E1 E2]. split; [now destruct (is_digit c)|]. intros K.
  assert (X : existsb (Ascii.eqb c) ["i"; "I"; "n"; "N"]%char = true) by (apply existsb_exists; exists c; split; auto; apply Ascii.eqb_refl). rewrite X in E2. discriminate.
Qed.
Lemma unread_type t : unread t -> cell_type t = 4%Z.
Proof.
  intros U. destruct RN as (R1 & R2 & _). assert (F : float_of t = None). { destruct (float_of t) eqn:E; auto. exfalso. destruct (R1 t) as (c & I & [H|H]); [congruence|destruct (U c I); congruence|destruct (U c I); contradiction]. }
  unfold M_Tabulate.cell_type. destruct (int_of t) eqn:E; [exfalso; now apply (R2 t)|]. now rewrite F.
Qed.
Lemma text_column col t : In t col -> unread t -> column_type col = 4%Z.
Proof. intros I U. unfold M_Tabulate.column_type. destruct (column_from col 1) as [A B]; [lia|]. specialize (B t I). rewrite (unread_type t U) in B. lia. Qed.
Lemma float_column col : col <> [] -> (forall t, In t col -> cell_type t = 2%Z) -> column_type col = 2%Z.
Proof.
  intros N H. unfold M_Tabulate.column_type. assert (G : forall col a, (forall t, In t col -> cell_type t = 2%Z) -> (1 <= a <= 2)%Z -> fold_left (fun a s => Z.max a (cell_type s)) col a = if match col with [] => true | _ => false end then a else 2%Z).
  { clear. induction col as [|t col IH]; intros a H A; cbn [fold_left]; auto. rewrite IH; [|intros; apply H; now right|rewrite (H t (or_introl eq_refl)); lia]. rewrite (H t (or_introl eq_refl)). destruct col; lia. }
  rewrite G; auto; [|lia]. destruct col; congruence.
Qed.
(** ** A table with a row that has no numbers at all *)
Lemma shown_text (rows : list row) r0 n : In r0 rows -> Forall unread r0 -> length r0 = n -> (forall r, In r rows -> length r = n) -> map (shown_row rows) rows = map (map strip) rows.
Proof.
  intros I U L LR. apply map_ext_in. intros r IR. unfold P_Tabulate.shown_row. specialize (LR r IR).
  assert (G : forall k (r' : row), (k + length r' <= n)%nat -> map (fun jc => strip (format_cell float_of (column_type (column rows (fst jc))) (snd jc))) (combine (seq k (length r')) r') = map strip r').
  { intros k r'. revert k. induction r' as [|c r' IH]; intros k K; cbn [length seq combine map] in *; auto. f_equal; [|apply IH; lia]. cbn [fst snd]. f_equal.
    rewrite (text_column (column rows k) (nth k r0 [])); [reflexivity| |]. - unfold column. apply in_map_iff. eauto. - rewrite Forall_forall in U. apply U, nth_In. unfold row, text in *. rewrite L. clear - K. lia. }
  apply G. unfold row, text in *. lia.
Qed.

(** ** Balance sheet *)
Definition fixed : list text := map text_of [""; "Liabilities"; "-----------"; "Total liabilities"; "-----------------"; "Owners' Equity"; "--------------"; "Total owners' equities"; "-----"; "--------"; "----------------------"; "Total";
  "Revenues"; "Cost of Sales"; "-------------"; "Gross Revenues (including interest income)"; "Expenses"; "Total Expenses"; "Net Income"; "Debit"; "Credit"; "Assets"; " "; "Liabilities and Equity"; "  ";
  "Date"; "Source"; "Tx Name"; "Debit Account"; "Credit Account"; "Amount"; "Description"].
Lemma fixed_tidy : Forall tidy fixed.
Proof. assert (H : forallb tidyb fixed = true) by (vm_compute; reflexivity). rewrite forallb_forall in H. apply Forall_forall. intros t I. apply tidy_check. auto. Qed.
Lemma fixed_in t : existsb (fun u => if list_eq_dec ascii_dec t u then true else false) fixed = true -> tidy t.
Proof. rewrite existsb_exists. intros (u & I & E). destruct (list_eq_dec ascii_dec t u) as [->|]; [|discriminate]. pose proof fixed_tidy as F. rewrite Forall_forall in F. auto. Qed.
Ltac fx := first [apply fmt2_tidy | apply fixed_in; vm_compute; reflexivity].
Definition good_row (n : nat) (r : row) : Prop := length r = n /\ Forall tidy r.
Lemma good_pair d : (forall s, In s (keys d) -> tidy (text_of s)) -> Forall (good_row 2) (pair_cells d).
Proof. intros H. apply Forall_forall. intros r I. apply in_map_iff in I. destruct I as (kv & <- & I). split; auto. constructor; [apply H, in_map, I|]. constructor; [apply fmt2_tidy|constructor]. Qed.
Lemma good_triple d : (forall s, In s (keys d) -> tidy (text_of s)) -> Forall (good_row 3) (triple_cells d).
Proof. intros H. apply Forall_forall. intros r I. apply in_map_iff in I. destruct I as (kv & <- & I). split; auto. constructor; [apply H, in_map, I|]. constructor; [apply fmt2_tidy|constructor; [fx|constructor]]. Qed.
Ltac fixed_row := split; [reflexivity|]; repeat (constructor; [fx|]); constructor.
Ltac fixed_rows := repeat (constructor; [fixed_row|]); constructor.
Lemma good_beside bl br a b (l r : list row) : good_row a bl -> good_row b br -> Forall (good_row a) l -> Forall (good_row b) r -> Forall (good_row (a + b)) (beside (A := text) bl br l r).
Proof.
  intros BL BR L R. apply Forall_forall. intros x I. unfold beside in I. apply in_map_iff in I. destruct I as (i & <- & _).
  assert (G : forall k d (m : list row) i, good_row k d -> Forall (good_row k) m -> good_row k (nth i m d)). { intros k d m j D M. destruct (nth_in_or_default j m d) as [J| ->]; auto. rewrite Forall_forall in M. auto. }
  destruct (G a bl l i BL L) as [A1 A2]. destruct (G b br r i BR R) as [B1 B2]. split; [rewrite app_length; unfold row, text in *; congruence|apply Forall_app; auto].
Qed.
Lemma balance_shows sh table : balance_table sh = Ok table -> (forall s, In s (keys (sheet_assets sh) ++ keys (sheet_liab sh) ++ keys (sheet_equity sh)) -> tidy (text_of s)) ->
  shows_table (tabulate table) (map strip (hd [] table)) (map (map strip) (tl table)).
Proof.
  intros H P. unfold balance_table in H. rewrite balance_body_layout in H. cbn [bind] in H. apply (f_equal (fun r => match r with Ok x => x | Err _ => [] end)) in H. cbn beta iota in H. subst table. cbn [hd tl].
  assert (PA : forall s, In s (keys (sheet_assets sh)) -> tidy (text_of s)) by (intros; apply P, in_or_app; auto).
  assert (PL : forall s, In s (keys (sheet_liab sh)) -> tidy (text_of s)) by (intros; apply P, in_or_app; right; apply in_or_app; auto).
  assert (PE : forall s, In s (keys (sheet_equity sh)) -> tidy (text_of s)) by (intros; apply P, in_or_app; right; apply in_or_app; auto).
  set (dash := map text_of ["-----"; "--------"; "----------------------"; ""; "--------"]).
  set (tot := [text_of "Total"; fmt2 (sheet_total_assets sh); text_of "Total"; []; fmt2 (sheet_total_le sh)]).
  set (rows := beside (A := text) [[]; []] [[]; []; []] (pair_cells (sheet_assets sh)) (right_side sh) ++ [dash; tot]).
  assert (GR : Forall (good_row 5) rows).
  { apply Forall_app. split; [|fixed_rows]. apply (good_beside _ _ 2 3); [fixed_row|fixed_row|now apply good_pair|]. unfold right_side. apply Forall_app. split; [fixed_rows|]. apply Forall_app. split; [now apply good_triple|]. apply Forall_app. split; [fixed_rows|]. apply Forall_app. split; [now apply good_triple|fixed_rows]. }
  assert (X : shows_table (tabulate (map text_of ["Assets"; " "; "Liabilities and Equity"; ""; "  "] :: rows)) (map strip (map text_of ["Assets"; " "; "Liabilities and Equity"; ""; "  "])) (map (shown_row rows) rows)).
  { apply tabulate_shows; [discriminate|repeat (constructor; [fx|]); constructor|exact GR]. }
  rewrite (shown_text rows dash 5) in X; [exact X|..].
  - apply in_or_app. right. now left.
  - repeat (constructor; [apply unread_check; vm_compute; reflexivity|]). constructor.
  - reflexivity.
  - intros r I. rewrite Forall_forall in GR. now apply GR.
Qed.
(** ** Income statement *)
Lemma parens_tidy t : tidy t -> tidy ("("%char :: t ++ [")"%char]).
Proof. intros T c [<-|I]; [discriminate|]. apply in_app_or in I. destruct I as [I|[<-|[]]]; [now apply T|discriminate]. Qed.
Lemma income_shows st : (forall s, In s (keys (inc_revenue st) ++ keys (inc_cos st) ++ keys (inc_expense st)) -> tidy (text_of s)) ->
  shows_table (tabulate (income_table st)) (map strip (hd [] (income_table st))) (map (map strip) (tl (income_table st))).
Proof.
  intros P. 
  assert (PA : forall s, In s (keys (inc_revenue st)) -> tidy (text_of s)) by (intros; apply P, in_or_app; auto).
  assert (PL : forall s, In s (keys (inc_cos st)) -> tidy (text_of s)) by (intros; apply P, in_or_app; right; apply in_or_app; auto).
  assert (PE : forall s, In s (keys (inc_expense st)) -> tidy (text_of s)) by (intros; apply P, in_or_app; right; apply in_or_app; auto).
  assert (LN : forall (d : dict) (f : string * Qc -> row), (forall s, In s (keys d) -> tidy (text_of s)) -> (forall kv, f kv = [text_of (fst kv); []; fmt2 (snd kv)] \/ f kv = [text_of (fst kv); fmt2 (snd kv); []]) -> Forall (good_row 3) (map f d)).
  { intros d f H F. apply Forall_forall. intros r I. apply in_map_iff in I. destruct I as (kv & <- & I). assert (T : tidy (text_of (fst kv))) by apply H, in_map, I. destruct (F kv) as [-> | ->]; (split; [reflexivity|]); repeat (constructor; [first [exact T|fx]|]); constructor. }
  assert (T0 : exists rows, income_table st = map text_of ["" ; "Debit"; "Credit"] :: rows /\ In [[]; []; []] rows /\ Forall (good_row 3) rows).
  { eexists. split; [reflexivity|]. cbn beta zeta. split. - cbn [app map]. do 2 right. apply in_or_app. right. left. reflexivity.
    - cbv beta zeta. apply Forall_cons; [fixed_row|]. apply Forall_cons; [fixed_row|]. apply Forall_app. split; [apply LN; auto|]. apply Forall_app. split; [fixed_rows|]. apply Forall_app. split; [apply LN; auto|]. apply Forall_app. split; [fixed_rows|]. apply Forall_app. split; [apply LN; auto|].
      constructor; [fixed_row|]. constructor; [fixed_row|]. constructor; [fixed_row|]. constructor; [|constructor]. split; [reflexivity|]. constructor; [fx|]. constructor; [fx|]. constructor; [|constructor]. destruct (Qnum (this (inc_net st)) <? 0)%Z; [apply parens_tidy|]; apply fmt2_tidy. }
  destruct T0 as (rows & -> & I & GR). cbn [hd tl]. 
  assert (X : shows_table (tabulate (map text_of ["" ; "Debit"; "Credit"] :: rows)) (map strip (map text_of ["" ; "Debit"; "Credit"])) (map (shown_row rows) rows)).
  { apply tabulate_shows; [discriminate|repeat (constructor; [fx|]); constructor|exact GR]. }
  rewrite (shown_text rows [[]; []; []] 3) in X; auto.
  - repeat (constructor; [intros c []|]); constructor.
  - intros r J. rewrite Forall_forall in GR. now apply GR.
Qed.
End S.
