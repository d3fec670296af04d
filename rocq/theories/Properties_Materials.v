(** Theorems C37-C42, C60, C61: material files, and packages of the chem, psd
    and slurry modules.  [M_Chem.add p (APackage q)] is Python's [p + q], and so
    on; a method that changes its object returns the object afterwards too. *)
From Verif Require Import Prelude M_Elements M_Stoichiometry M_Text M_Lists M_Float Spec_Stoich Spec_Text Spec_Material
  P_Loan P_Count P_Convert P_Text P_Table P_Content P_Float.
From Verif Require M_Chem Spec_Chem M_Psd M_Slurry P_Chem P_Psd P_Slurry.
From Coq Require Import Field.
Local Open Scope string_scope.
Local Open Scope list_scope.
Local Open Scope Z_scope.

Definition q (a : Z) (b : positive) : Qc := Q2Qc (a # b).

(** * C37: file lines *)
(** However many rounds (at least as many as characters) the loop is given, it
    ends with the words of the line, without the white space at its ends, joined
    by single spaces. *)
Theorem C37_line_normal_form : forall (t : text) (n : nat), (length t <= n)%nat ->
  exists s ws, core t s /\ has_words s ws /\ prepare_line n t = Some (joined ws).
Proof. intros t n H. exists (strip t), (words (strip t)). split; [apply strip_core|]. split; [apply words_ok|]. now apply prepare_total. Qed.
Print Assumptions C37_line_normal_form.
Theorem C37_words_unique : forall t ws ws', has_words t ws -> has_words t ws' -> ws = ws'.
Proof. intros t ws ws' H K. apply words_unique in H, K. congruence. Qed.
Print Assumptions C37_words_unique.
(** Splitting the prepared line at spaces gives the words back. *)
Theorem C37_split : forall t s ws, core t s -> has_words s ws -> ws <> [] -> split_sp (prepared t) = ws.
Proof.
  intros t s ws (l & r & E & Bl & Br & F & L) W N. apply split_prepared; auto. replace (strip t) with s; auto. rewrite E. unfold strip.
  assert (Sl : forall a b, forallb is_space a = true -> (forall c u, b = c :: u -> is_space c = false) -> b <> [] -> lstrip (a ++ b) = b).
  { intros a b. induction a as [|c a IH]; cbn [app forallb]; intros A B Nb. - destruct b as [|d b]; [congruence|]. cbn [lstrip]. now rewrite (B d b eq_refl).
    - apply andb_true_iff in A. destruct A as [A1 A2]. cbn [lstrip]. rewrite A1. auto. }
  assert (Ns : s <> []). { intros ->. apply words_unique in W. cbn in W. congruence. }
  rewrite Sl; auto.
  - rewrite rev_app_distr, Sl; [now rewrite rev_involutive|now rewrite forallb_rev| |].
    + intros c u H. apply (L c (rev u)). apply (f_equal (@rev ascii)) in H. rewrite rev_involutive in H. exact H.
    + intros H. apply Ns. apply (f_equal (@rev ascii)) in H. now rewrite rev_involutive in H.
  - intros c u H. destruct s as [|d s]; [congruence|]. injection H as -> _. apply (F c s). reflexivity.
  - destruct s; [congruence|discriminate].
Qed.
Print Assumptions C37_split.
Example C37_example : prepare_line 40 (text_of "  FeO   0.5	  0.25 
") = Some (text_of "FeO 0.5 0.25") /\ prepare_line 1 (text_of "a    b") = None /\ prepare_line 2 (text_of "a    b") = Some (text_of "a b").
Proof. repeat split; vm_compute; reflexivity. Qed.

(** * C60: reading a table *)
(** [cells] are the components and numbers of the full lines.  When the assay
    names differ, every assay is its column and as long as the component list. *)
Theorem C60_columns : forall C (float_of : text -> res Qc) (read_first : text -> res C) header lines cs d,
  NoDup (assay_names (prepared header)) ->
  read_table float_of read_first (header :: lines) = Ok (cs, d) ->
  exists cells, table_of float_of read_first (length (assay_names (prepared header))) (map (fun l => split_sp (prepared l)) lines) cells /\
    cs = map fst cells /\ map fst d = assay_names (prepared header) /\
    forall j n col, nth_error d j = Some (n, col) -> length col = length cs /\ col = map (fun cell => nth j (snd cell) 0%Qc) cells.
Proof.
  intros C f g header lines cs d N H. destruct (read_table_ok f g header lines cs d N H) as (cells & T & A & B & D). exists cells. split; auto. split; auto. split; auto.
  intros j n col E. pose proof (D j n col E) as ->. split; auto. subst cs. unfold column. now rewrite !map_length.
Qed.
Print Assumptions C60_columns.
Theorem C60_readable : forall C (float_of : text -> res Qc) (read_first : text -> res C) header lines cells,
  NoDup (assay_names (prepared header)) ->
  table_of float_of read_first (length (assay_names (prepared header))) (map (fun l => split_sp (prepared l)) lines) cells ->
  exists r, read_table float_of read_first (header :: lines) = Ok r.
Proof. intros. eapply read_table_total; eauto. Qed.
Print Assumptions C60_readable.
Theorem C60_empty_file : forall float_of id, M_Chem.read_material float_of id [] = Err IndexError /\ M_Psd.read_material float_of id [] = Err IndexError /\ M_Slurry.read_material float_of id [] = Err IndexError.
Proof. intros. repeat split; reflexivity. Qed.
Print Assumptions C60_empty_file.
(** Two assays with one name: their columns are mixed and the last assay loses its values. *)
Theorem C60_repeated_name_refuted : exists float_of lines m, M_Chem.read_material float_of 1 lines = Ok m /\
  M_Chem.m_compounds m = ["FeO"] /\ M_Chem.find_assay "A" (M_Chem.m_assays m) = Ok [M_Chem.NFloat (q 1 1); M_Chem.NFloat (q 2 1)] /\ M_Chem.find_assay "B" (M_Chem.m_assays m) = Ok [].
Proof.
  exists (fun t => if list_eq_dec ascii_dec t (text_of "1") then Ok (q 1 1) else Ok (q 2 1)), [text_of "Compound A A B"; text_of "FeO 1 2 2"].
  eexists. split; [vm_compute; reflexivity|]. repeat split; try (vm_compute; reflexivity).
Qed.
Print Assumptions C60_repeated_name_refuted.
Definition digit_float (t : text) : res Qc := match t with [c] => if is_digit c then Ok (q (code c - 48) 1) else Err ValueError | _ => Err ValueError end.
Example C60_example : exists m, M_Chem.read_material digit_float 1 [text_of "Compound	A   B"; text_of " FeO  1 2 "; text_of ""; text_of "Fe2O3 3	4"] = Ok m /\
  M_Chem.m_compounds m = ["FeO"; "Fe2O3"] /\ M_Chem.m_elements m = ["Fe"; "O"] /\
  M_Chem.find_assay "A" (M_Chem.m_assays m) = Ok [M_Chem.NFloat (q 1 1); M_Chem.NFloat (q 3 1)] /\ M_Chem.find_assay "B" (M_Chem.m_assays m) = Ok [M_Chem.NFloat (q 2 1); M_Chem.NFloat (q 4 1)].
Proof. eexists. split; [vm_compute; reflexivity|]. repeat split; vm_compute; reflexivity. Qed.
