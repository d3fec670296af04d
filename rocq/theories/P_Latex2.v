(** The tables of the reports are tidy, and LaTeX tables show what the plain ones show. *)
From Verif Require Import Prelude M_Stoichiometry M_Text M_Dates M_Accounts M_Ledger M_Csv M_Tables M_Print M_Json M_Tabulate M_Latex M_Render Spec_Accounts Spec_Ledger Spec_Text Spec_Tables Spec_Print Spec_Tabulate Spec_Latex P_Text P_File P_Tables P_Print P_Print3 P_Tabulate P_Draw P_Draw2 P_Latex.
From Coq Require Import Lia.
Local Open Scope string_scope.
Local Open Scope list_scope.

(** A header and rows as long as it. *)
Definition tidy_table (table : list row) : Prop :=
  exists (h : list text) (rows : list row), table = h :: rows /\ h <> [] /\ rows <> [] /\ Forall tidy h /\ Forall (fun r => length r = length h /\ Forall tidy r) rows.
Lemma same_cells int_of float_of table h cs : tidy_table table -> shows_table (tabulate int_of float_of table) h cs -> exists letters, tex_table letters h cs (tabulate_latex int_of float_of table).
Proof.
  intros (hd_ & rows & -> & N & NR & TH & TR) S. destruct (shows_unique _ _ _ _ _ S (tabulate_shows int_of float_of hd_ rows N TH TR)) as [-> ->]. exists (letters_of int_of float_of hd_ rows). now apply latex_shows.
Qed.
Ltac fx := first [apply fmt2_tidy | apply fixed_in; vm_compute; reflexivity].
Ltac fixed_row := split; [reflexivity|]; repeat (constructor; [fx|]); constructor.
Ltac fixed_rows := repeat (constructor; [fixed_row|]); constructor.
Lemma balance_tidy sh table : balance_table sh = Ok table -> (forall s, In s (keys (sheet_assets sh) ++ keys (sheet_liab sh) ++ keys (sheet_equity sh)) -> tidy (text_of s)) -> tidy_table table.
Proof.
  intros H P. unfold balance_table in H. rewrite balance_body_layout in H. cbn [bind] in H. apply (f_equal (fun r => match r with Ok x => x | Err _ => [] end)) in H. cbn beta iota in H. subst table.
  assert (PA : forall s, In s (keys (sheet_assets sh)) -> tidy (text_of s)) by (intros; apply P, in_or_app; auto).
  assert (PL : forall s, In s (keys (sheet_liab sh)) -> tidy (text_of s)) by (intros; apply P, in_or_app; right; apply in_or_app; auto).
  assert (PE : forall s, In s (keys (sheet_equity sh)) -> tidy (text_of s)) by (intros; apply P, in_or_app; right; apply in_or_app; auto).
  set (dash := map text_of ["-----"; "--------"; "----------------------"; ""; "--------"]).
  set (tot := [text_of "Total"; fmt2 (sheet_total_assets sh); text_of "Total"; []; fmt2 (sheet_total_le sh)]).
  set (rows := beside (A := text) [[]; []] [[]; []; []] (pair_cells (sheet_assets sh)) (right_side sh) ++ [dash; tot]).
  assert (GR : Forall (good_row 5) rows).
  { apply Forall_app. split; [|fixed_rows]. apply (good_beside _ _ 2 3); [fixed_row|fixed_row|now apply good_pair|]. unfold right_side. apply Forall_app. split; [fixed_rows|]. apply Forall_app. split; [now apply good_triple|]. apply Forall_app. split; [fixed_rows|]. apply Forall_app. split; [now apply good_triple|fixed_rows]. }
  exists (map text_of ["Assets"; " "; "Liabilities and Equity"; ""; "  "]), rows. split; [reflexivity|]. split; [discriminate|]. split; [unfold rows; intros X; apply app_eq_nil in X; destruct X; discriminate|]. split; [repeat (constructor; [fx|]); constructor|exact GR].
Qed.
Lemma income_tidy st : (forall s, In s (keys (inc_revenue st) ++ keys (inc_cos st) ++ keys (inc_expense st)) -> tidy (text_of s)) -> tidy_table (income_table st).
Proof.
  intros P. 
  assert (PA : forall s, In s (keys (inc_revenue st)) -> tidy (text_of s)) by (intros; apply P, in_or_app; auto).
  assert (PL : forall s, In s (keys (inc_cos st)) -> tidy (text_of s)) by (intros; apply P, in_or_app; right; apply in_or_app; auto).
  assert (PE : forall s, In s (keys (inc_expense st)) -> tidy (text_of s)) by (intros; apply P, in_or_app; right; apply in_or_app; auto).
  assert (LN : forall (d : dict) (f : string * Qc -> row), (forall s, In s (keys d) -> tidy (text_of s)) -> (forall kv, f kv = [text_of (fst kv); []; fmt2 (snd kv)] \/ f kv = [text_of (fst kv); fmt2 (snd kv); []]) -> Forall (good_row 3) (map f d)).
  { intros d f H F. apply Forall_forall. intros r I. apply in_map_iff in I. destruct I as (kv & <- & I). assert (T : tidy (text_of (fst kv))) by apply H, in_map, I. destruct (F kv) as [-> | ->]; (split; [reflexivity|]); repeat (constructor; [first [exact T|fx]|]); constructor. }
  assert (T0 : exists rows, income_table st = map text_of ["" ; "Debit"; "Credit"] :: rows /\ rows <> [] /\ Forall (good_row 3) rows).
  { eexists. split; [reflexivity|]. cbn beta zeta. split. - cbn [app map]. discriminate.
    - cbv beta zeta. apply Forall_cons; [fixed_row|]. apply Forall_cons; [fixed_row|]. apply Forall_app. split; [apply LN; auto|]. apply Forall_app. split; [fixed_rows|]. apply Forall_app. split; [apply LN; auto|]. apply Forall_app. split; [fixed_rows|]. apply Forall_app. split; [apply LN; auto|].
      constructor; [fixed_row|]. constructor; [fixed_row|]. constructor; [fixed_row|]. constructor; [|constructor]. split; [reflexivity|]. constructor; [fx|]. constructor; [fx|]. constructor; [|constructor]. destruct (Qnum (this (inc_net st)) <? 0)%Z; [apply parens_tidy|]; apply fmt2_tidy. }
  destruct T0 as (rows & -> & NR & GR). exists (map text_of ["" ; "Debit"; "Credit"]), rows. split; [reflexivity|]. split; [discriminate|]. split; [exact NR|]. split; [repeat (constructor; [fx|]); constructor|exact GR].
Qed.
Lemma transaction_tidy l start fin path rs tot table : transaction_list l start fin path = Ok (rs, tot) ->
  (forall r, In r rs -> tidy (text_of (r_source r)) /\ tidy (text_of (r_name r)) /\ tidy (opt_str (r_dt r)) /\ tidy (opt_str (r_cr r)) /\ tidy (text_of (r_desc r))) ->
  transaction_table l start fin path = Ok table -> tidy_table table.
Proof.
  intros H G T. set (head := map text_of ["Date"; "Source"; "Tx Name"; "Debit Account"; "Credit Account"; "Amount"; "Description"]). set (last := [[]; []; text_of "Total"; []; []; fmt2 tot; []]). set (rows := map tl_cells rs ++ [last]).
  exists head, rows. split; [unfold transaction_table in T; rewrite H in T; cbn [bind] in T; now injection T as <-|]. split; [discriminate|]. split; [unfold rows; intros X; apply app_eq_nil in X; destruct X; discriminate|]. split; [unfold head; repeat (constructor; [apply fixed_in; vm_compute; reflexivity|]); constructor|]. apply Forall_app. split.
  - apply Forall_forall. intros r I. apply in_map_iff in I. destruct I as (x & <- & I). destruct (G x I) as (G1 & G2 & G3 & G4 & G5). split; [reflexivity|]. unfold tl_cells. repeat (constructor; [first [assumption|apply pytime_tidy|apply fmt2_tidy]|]). constructor.
  - constructor; [|constructor]. split; [reflexivity|]. unfold last. repeat (constructor; [first [apply fmt2_tidy|apply fixed_in; vm_compute; reflexivity]|]). constructor.
Qed.
(** The letter over a column. *)
Lemma letters_nth int_of float_of (headers : list text) (rows : list row) j : (forall t, int_of t = true -> float_of t <> None) -> (j < length headers)%nat ->
  nth j (letters_of int_of float_of headers rows) "l"%char = "r"%char <-> (forall r, In r rows -> float_of (nth j r []) <> None).
Proof.
  intros RI L. unfold letters_of. rewrite (nth_indep _ _ (latex_align (column_type int_of float_of (column rows 0)))) by (rewrite map_length, seq_length; exact L). rewrite (map_nth (fun j => latex_align (column_type int_of float_of (column rows j)))), seq_nth by exact L. cbn [Nat.add].
  destruct (column_from int_of float_of (column rows j) 1) as [A B]; [lia|]. fold (column_type int_of float_of (column rows j)) in A, B. split.
  - intros E r I F. assert (C : cell_type int_of float_of (nth j r []) = 4%Z) by (unfold cell_type; destruct (int_of (nth j r [])) eqn:Ei; [exfalso; now apply (RI _ Ei)|now rewrite F]). specialize (B (nth j r [])). rewrite C in B. assert (IC : In (nth j r []) (column rows j)) by (unfold column; apply in_map_iff; eauto). specialize (B IC).
    unfold latex_align, is_number in E. assert (X : column_type int_of float_of (column rows j) = 4%Z) by (unfold column_type in *; lia). rewrite X in E. discriminate.
  - intros F. assert (FC : forall s, In s (column rows j) -> float_of s <> None) by (intros s I; unfold column in I; apply in_map_iff in I; destruct I as (r & <- & I); auto).
    unfold column_type. clear A B. assert (G : forall l a, (a = 1 \/ a = 2)%Z -> (forall s, In s l -> float_of s <> None) -> (fold_left (fun a s => Z.max a (cell_type int_of float_of s)) l a = 1 \/ fold_left (fun a s => Z.max a (cell_type int_of float_of s)) l a = 2)%Z).
    { induction l as [|c l IH]; intros a Ha FL; cbn [fold_left]; [tauto|]. apply IH; [|intros s I; apply FL; now right]. assert (C : (cell_type int_of float_of c = 1 \/ cell_type int_of float_of c = 2)%Z) by (unfold cell_type; destruct (int_of c); auto; specialize (FL c (or_introl eq_refl)); destruct (float_of c); [auto|congruence]). lia. }
    destruct (G (column rows j) 1%Z ltac:(auto) FC) as [-> | ->]; reflexivity.
Qed.
