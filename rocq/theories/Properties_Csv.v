(** C71: reports rendered as csv; C72: data set files. *)
From Verif Require Import Prelude M_Stoichiometry M_Csv Spec_Csv P_Csv.
Local Open Scope list_scope.

(** * C71 *)
(** What is written is a csv file that says exactly the table (whatever commas,
    quotes and line feeds the cells have) ... *)
Theorem C71_rendered_says_the_table : forall table, (forall r f, In r table -> In f r -> ~ In cr f) -> file_text table (render_csv table).
Proof. intros table H. apply written; [now left|]. apply Forall_forall. intros r R. apply Forall_forall. intros f F. right. eauto. Qed.
Print Assumptions C71_rendered_says_the_table.
(** ... and Python's csv.reader gives the table back. *)
Theorem C71_round_trip : forall table, (forall r f, In r table -> In f r -> ~ In cr f) -> csv_read (render_csv table) = (table, None).
Proof. intros table H. apply read_file. now apply C71_rendered_says_the_table. Qed.
Print Assumptions C71_round_trip.
(** Different tables are rendered differently. *)
Theorem C71_injective : forall a b, (forall r f, In r a \/ In r b -> In f r -> ~ In cr f) -> render_csv a = render_csv b -> a = b.
Proof.
  intros a b H E. assert (A : csv_read (render_csv a) = (a, None)) by (apply C71_round_trip; eauto). assert (B : csv_read (render_csv b) = (b, None)) by (apply C71_round_trip; eauto). rewrite E, B in A. congruence.
Qed.
Print Assumptions C71_injective.
(** The reader reads every csv file as what it says. *)
Theorem C71_reader_exact : forall rows t, file_text rows t -> csv_read t = (rows, None).
Proof. exact read_file. Qed.
Print Assumptions C71_reader_exact.
(** A cell with a carriage return is not read back: the terminator given to the
    writer is LF alone, so that the cell is not quoted. *)
Theorem C71_carriage_return_refuted : exists table, csv_read (render_csv table) <> (table, None).
Proof. exists [[text_of "a" ++ cr :: text_of "b"; text_of "c"]]. vm_compute. discriminate. Qed.
Print Assumptions C71_carriage_return_refuted.

Definition w (s : string) : text := text_of s.
Example C71_case : render_csv [[w "Date"; w "Amount, R"]; [w "say ""x"""; []]; [[]]; []] = w "Date,""Amount, R""
""say """"x"""""",
""""

" /\ csv_read (render_csv [[w "Date"; w "Amount, R"]; [w "say ""x"""; []]; [[]]; []]) = ([[w "Date"; w "Amount, R"]; [w "say ""x"""; []]; [[]]; []], None).
Proof. vm_compute. split; reflexivity. Qed.

(** * C72 *)
(** The header of a data set file: seven rows; the first three name the material,
    describe the data and give a reference, the others give one entry per
    column. *)
Theorem C72_header : forall path content k1 m x1 k2 d x2 k3 r x3 names display units symbols data,
  file_text ([k1 :: m :: x1; k2 :: d :: x2; k3 :: r :: x3; names; display; units; symbols] ++ data) content ->
  exists ds, read_header path content = Ok ds /\ ds_material ds = m /\ ds_description ds = d /\ ds_reference ds = r /\
    ds_col_names ds = names /\ ds_col_display ds = display /\ ds_col_units ds = units /\ ds_col_symbols ds = symbols /\ ds_name ds = basename path.
Proof.
  intros path content k1 m x1 k2 d x2 k3 r x3 names display units symbols data F. unfold read_header. rewrite (read_file _ _ F). cbn [app]. unfold next_row, second. cbn [fst snd bind]. eexists. split; [reflexivity|]. cbn. auto 10.
Qed.
Print Assumptions C72_header.
(** With distinct symbols the three dictionaries translate every symbol to the
    entry of its own column. *)
Theorem C72_dictionaries : forall path content rows names display units symbols data ds j s,
  file_text (rows ++ [names; display; units; symbols] ++ data) content -> length rows = 3%nat -> read_header path content = Ok ds ->
  NoDup symbols -> length names = length symbols -> length display = length symbols -> length units = length symbols -> nth_error symbols j = Some s ->
  tget (ds_names ds) s = Ok (nth j names []) /\ tget (ds_displays ds) s = Ok (nth j display []) /\ tget (ds_units ds) s = Ok (nth j units []).
Proof.
  intros path content rows names display units symbols data ds j s F L H N L1 L2 L3 J. destruct rows as [|r1 [|r2 [|r3 [|r4 rows]]]]; try discriminate L.
  unfold read_header in H. rewrite (read_file _ _ F) in H. cbn [app] in H. unfold next_row in H. cbn [fst snd bind] in H.
  destruct (second r1); [|discriminate H]. destruct (second r2); [|discriminate H]. destruct (second r3); [|discriminate H]. cbn [bind] in H. injection H as <-. cbn [ds_names ds_displays ds_units].
  rewrite !tdict_of_spec by auto. assert (B : (j < length symbols)%nat) by (apply nth_error_Some; congruence).
  repeat split; apply (tget_nth _ _ j); auto; apply nth_error_nth'; congruence.
Qed.
Print Assumptions C72_dictionaries.

(** A symbol that is not in the file is in none of the dictionaries, whatever the
    widths of the rows. *)
Lemma tput_keys d kv : map fst (tput d kv) = map fst d \/ map fst (tput d kv) = map fst d ++ [fst kv].
Proof.
  unfold tput. destruct (existsb (fun e => if list_eq_dec ascii_dec (fst e) (fst kv) then true else false) d); [left|right; rewrite map_app; reflexivity]. rewrite map_map. apply map_ext. intros e. match goal with |- context[if ?b then _ else _] => destruct b end; reflexivity.
Qed.
Lemma tdict_keys k l : forall d, ~ In k (map fst d) -> ~ In k (map fst l) -> ~ In k (map fst (fold_left tput l d)).
Proof.
  induction l as [|kv l IH]; intros d D L; cbn [fold_left]; auto. cbn [map] in L. apply IH; [|intros I; apply L; now right].
  destruct (tput_keys d kv) as [-> | ->]; auto. rewrite in_app_iff. intros [I|[I|[]]]; auto. apply L. left. auto.
Qed.
Lemma tget_absent d k : ~ In k (map fst d) -> tget d k = Err KeyError.
Proof. induction d as [|[c v] d IH]; cbn [tget map fst]; auto. intros N. destruct (list_eq_dec ascii_dec c k) as [->|]; [exfalso; apply N; now left|]. apply IH. intros I. apply N. now right. Qed.
Theorem C72_unknown_symbol : forall path content rows names display units symbols data ds s,
  file_text (rows ++ [names; display; units; symbols] ++ data) content -> length rows = 3%nat -> read_header path content = Ok ds -> ~ In s symbols ->
  tget (ds_names ds) s = Err KeyError /\ tget (ds_displays ds) s = Err KeyError /\ tget (ds_units ds) s = Err KeyError.
Proof.
  intros path content rows names display units symbols data ds s F L H N. destruct rows as [|r1 [|r2 [|r3 [|r4 rows]]]]; try discriminate L.
  unfold read_header in H. rewrite (read_file _ _ F) in H. cbn [app] in H. unfold next_row in H. cbn [fst snd bind] in H.
  destruct (second r1); [|discriminate H]. destruct (second r2); [|discriminate H]. destruct (second r3); [|discriminate H]. cbn [bind] in H. injection H as <-. cbn [ds_names ds_displays ds_units].
  assert (G : forall values, tget (tdict_of symbols values) s = Err KeyError).
  { intros values. apply tget_absent. unfold tdict_of. apply tdict_keys; [intros []|]. intros I. apply N. clear -I. revert values I. induction symbols as [|x symbols IH]; intros [|v values]; cbn; try tauto. intros [->|I]; [now left|right; eauto]. }
  auto.
Qed.
Print Assumptions C72_unknown_symbol.
(** Of two columns with one symbol the last is kept. *)
Theorem C72_repeated_symbols_refuted : exists ds, read_header (w "x.csv") (csv_write [cr; lf] [[w "Name"; w "Air"]; [w "D"; w "d"]; [w "R"; w "r"]; [w "Temperature"; w "time"]; [w "T"; w "t"]; [w "K"; w "s"]; [w "T"; w "T"]]) = Ok ds /\
  tget (ds_names ds) (w "T") = Ok (w "time") /\ tget (ds_units ds) (w "T") = Ok (w "s").
Proof. eexists. split; [vm_compute; reflexivity|]. vm_compute. auto. Qed.
Print Assumptions C72_repeated_symbols_refuted.
(** A file with fewer than seven rows, or with a short row among the first three,
    cannot be loaded. *)
Theorem C72_short_files_raise : forall path content rows, file_text rows content -> (length rows < 7)%nat \/ Exists (fun r => (length r < 2)%nat) (firstn 3 rows) ->
  exists e, read_header path content = Err e /\ (e = PyException \/ e = IndexError).
Proof.
  intros path content rows F H. unfold read_header. rewrite (read_file _ _ F). unfold next_row, second. cbn [fst snd bind].
  do 7 (destruct rows as [|? rows]; cbn [fst snd bind]; [eauto| repeat match goal with |- context[match ?r with [] => Err IndexError | _ => _ end] => destruct r as [|? [|? ?]]; cbn [bind fst snd]; [eauto|eauto|] end; try (cbn [fst snd bind])]).
  exfalso. destruct H as [H|H]; [cbn [length] in H; lia|]. cbn [firstn] in H. repeat match goal with H : Exists _ _ |- _ => inversion H; clear H; subst end; cbn [length] in *; lia.
Qed.
Print Assumptions C72_short_files_raise.
(** A template can be loaded: it names the material, whatever characters the name
    has, and its placeholder symbols translate to their own columns. *)
Theorem C72_template : forall material dir, exists ds, read_header (fst (create_template material dir)) (snd (create_template material dir)) = Ok ds /\
  ds_material ds = material /\ ds_col_names ds = map w ["Temperature"; "<parameter 1 name>"; "<parameter 2 name>"; "<parameter 3 name>"]%string /\
  ds_col_symbols ds = map w ["T"; "<parameter 1 symbol>"; "<parameter 2 symbol>"; "<parameter 3 symbol>"]%string /\
  tget (ds_names ds) (w "T") = Ok (w "Temperature") /\ tget (ds_units ds) (w "T") = Ok (w "K") /\ tget (ds_units ds) (w "<parameter 2 symbol>") = Ok (w "<parameter 2 units>").
Proof.
  intros material dir. cbn [create_template fst snd].
  assert (F : file_text (template_rows material) (csv_write [cr; lf] (template_rows material))).
  { apply written; [now right|]. apply Forall_forall. intros r R. apply Forall_forall. intros f I. now left. }
  destruct (C72_header (template_path dir material) _ _ _ _ _ _ _ _ _ _ _ _ _ _ _ F) as (ds & R & A1 & A2 & A3 & A4 & A5 & A6 & A7 & A8).
  exists ds. split; [exact R|]. split; [exact A1|]. split; [exact A4|]. split; [exact A7|].
  assert (N : NoDup (map w ["T"; "<parameter 1 symbol>"; "<parameter 2 symbol>"; "<parameter 3 symbol>"]%string)) by (repeat constructor; cbn; intuition discriminate).
  pose proof (fun j s => C72_dictionaries (template_path dir material) (csv_write [cr; lf] (template_rows material)) (firstn 3 (template_rows material)) _ _ _ _ _ ds j s F eq_refl R N eq_refl eq_refl eq_refl) as D.
  destruct (D 0%nat (w "T") eq_refl) as (D1 & _ & D2). destruct (D 2%nat (w "<parameter 2 symbol>") eq_refl) as (_ & _ & D3). auto.
Qed.
Print Assumptions C72_template.
(** The numbers in the template. *)
Theorem C72_template_data : forall material dir, skipn 7 (fst (csv_read (snd (create_template material dir)))) =
  map (map w) [["100.0"; "0.0"; "10.0"; "100.0"]; ["150.0"; "1.0"; "11.0"; "101.0"]; ["200.0"; "2.0"; "12.0"; "102.0"]; ["250.0"; "3.0"; "13.0"; "103.0"]; ["300.0"; "4.0"; "14.0"; "104.0"];
    ["350.0"; "5.0"; "15.0"; "105.0"]; ["400.0"; "6.0"; "16.0"; "106.0"]; ["450.0"; "7.0"; "17.0"; "107.0"]; ["500.0"; "8.0"; "18.0"; "108.0"]; ["550.0"; "9.0"; "19.0"; "109.0"]]%string.
Proof.
  intros material dir. cbn [create_template snd]. erewrite read_file. 2:{ apply written; [now right|]. apply Forall_forall. intros r R. apply Forall_forall. intros f I. now left. }
  vm_compute. reflexivity.
Qed.
Print Assumptions C72_template_data.
(** The data set is named after its file. *)
Theorem C72_template_name : forall material dir ds, ~ In "/"%char material -> read_header (fst (create_template material dir)) (snd (create_template material dir)) = Ok ds ->
  ds_name ds = w "dataset-" ++ lower material ++ w ".csv".
Proof.
  intros material dir ds N H.
  assert (E : ds_name ds = basename (template_path dir material)).
  { destruct (C72_header (template_path dir material) (csv_write [cr; lf] (template_rows material)) _ _ _ _ _ _ _ _ _ _ _ _ _ _
      (written [cr; lf] (template_rows material) (or_intror eq_refl) (proj2 (Forall_forall _ _) (fun r R => proj2 (Forall_forall _ _) (fun f I => or_introl eq_refl))))) as (ds' & R & A). cbn [create_template fst snd] in H. rewrite H in R. injection R as <-. apply A. }
  rewrite E. unfold template_path, w. set (b := text_of "dataset-" ++ lower material ++ text_of ".csv").
  assert (NB : ~ In "/"%char b). { unfold b. rewrite !in_app_iff. intros [X|[X|X]]; [cbn in X; intuition discriminate|now apply lower_slash in X|cbn in X; intuition discriminate]. }
  unfold path_join. assert (B0 : exists c b', b = c :: b' /\ c = "d"%char) by (unfold b; cbn; eauto). destruct B0 as (c & b' & B1 & B2). rewrite B1. subst c. cbv beta iota. rewrite <- B1.
  destruct (rev dir) as [|c dir'] eqn:RD; [now apply basename_no_slash|]. destruct (Ascii.eqb c "/") eqn:Q.
  - apply Ascii.eqb_eq in Q. subst c. assert (X : dir = rev dir' ++ ["/"%char]) by (rewrite <- (rev_involutive dir), RD; reflexivity). rewrite X, <- app_assoc. cbn [app]. now apply basename_from_app.
  - now apply basename_from_app.
Qed.
Print Assumptions C72_template_name.
(** Names that differ only in case get the same file, so that one template
    overwrites the other. *)
Theorem C72_case_collision_refuted : forall dir, fst (create_template (w "CO") dir) = fst (create_template (w "Co") dir) /\ snd (create_template (w "CO") dir) <> snd (create_template (w "Co") dir).
Proof. intros dir. split; [reflexivity|]. vm_compute. discriminate. Qed.
Print Assumptions C72_case_collision_refuted.
Example C72_case : exists ds, read_header (w "/data/x.csv") (w "Name,""Air, dry""
Description,d
Reference,r
Temperature,Density
T,\rho
K,kg/m3
T,rho
300,1.1") = Ok ds /\ ds_material ds = w "Air, dry" /\ ds_name ds = w "x.csv" /\ tget (ds_displays ds) (w "rho") = Ok (w "\rho").
Proof. eexists. split; [vm_compute; reflexivity|]. vm_compute. auto. Qed.
