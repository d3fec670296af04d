(** Proofs about printed thermo packages and streams. *)
From Verif Require Import Prelude M_Stoichiometry M_Text M_Lists M_Csv M_Tables M_Thermochem M_ThermoMat M_Streams M_Print Spec_Stoich Spec_Thermo Spec_ThermoMat Spec_Text Spec_File Spec_Tables Spec_Print.
From Verif Require Import P_Convert P_Content P_Text P_File P_ThermoMat P_Print P_Print2 P_Print3 Properties_Amounts.
From Verif Require M_Chem.
From Coq Require Import Reals Lra Permutation.
Local Open Scope string_scope.
Local Open Scope list_scope.
Local Open Scope R_scope.

Lemma moles_pos c f : proper c f -> has_atoms f -> 0 < moles_per_kg f.
Proof.
  intros P H. unfold moles_per_kg. apply Rdiv_lt_0_compat; [lra|]. pose proof (molar_pos c f P H) as X. unfold Qclt in X. apply Qreals.Qlt_Rlt in X. replace (Q2R (this 0%Qc)) with 0 in X; auto. unfold Q2R. cbn. lra.
Qed.
Lemma weigh_nonneg w cs ms : (forall c, In c cs -> 0 < w c) -> (forall x, In x ms -> 0 <= x) -> 0 <= weigh_list w cs ms /\ (weigh_list w cs ms = 0 -> length cs = length ms -> forall x, In x ms -> x = 0).
Proof.
  revert ms. induction cs as [|c cs IH]; intros [|m ms] W N.
  - unfold weigh_list. cbn. split; [lra|]. intros _ _ x [].
  - unfold weigh_list. cbn. split; [lra|discriminate].
  - unfold weigh_list. cbn. split; [lra|discriminate].
  - rewrite weigh_cons. destruct (IH ms) as [A B]; [intros; apply W; cbn; auto|intros; apply N; cbn; auto|]. assert (Wc : 0 < w c) by (apply W; cbn; auto). assert (Nm : 0 <= m) by (apply N; cbn; auto).
    assert (P : 0 <= w c * m) by (apply Rmult_le_pos; lra). split; [lra|]. intros E L x [<-|I]; [|apply B; auto; lra]. assert (Z : w c * m = 0) by lra. apply Rmult_integral in Z. lra.
Qed.
Lemma rsum_weigh p : wf p -> get_mass p = mass_of p.
Proof. intros [_ L]. unfold get_mass, mass_of, weigh. symmetry. now apply weigh_rsum. Qed.

(** * Lines *)
Lemma hw_join ws t rest : ws <> [] -> Forall solid ws -> ends_here t -> has_words t rest -> has_words (joined ws ++ t) (ws ++ rest).
Proof.
  induction ws as [|w ws IH]; intros N S E H; [congruence|]. inversion S as [|? ? W S']; subst. destruct ws as [|v ws].
  - cbn [joined app]. now apply hw_solid.
  - change (joined (w :: v :: ws)) with (w ++ sp :: joined (v :: ws)). rewrite <- app_assoc. cbn [app]. apply hw_solid; auto; [right; eexists; reflexivity|]. apply hw_sep; [now left|]. apply IH; auto. discriminate.
Qed.
Lemma quantity_says l ws x u : ws <> [] -> joined ws = text_of l -> Forall solid ws -> (length (text_of l) < 20)%nat -> solid u ->
  exists q, quantity l x u = q ++ nl /\ one_line q /\ quantity_line ws x u q.
Proof.
  intros N J S L U. exists (ljust 20 (text_of l) ++ rjust 15 (sci x) ++ sp :: u). split; [|split].
  - unfold quantity. rewrite <- !app_assoc. reflexivity.
  - apply one_line_app; [apply one_line_ljust; rewrite <- J|apply one_line_app; [apply one_line_rjust, one_line_solid, sci_solid|apply one_line_cons; try discriminate; now apply one_line_solid]].
    clear - S N. induction ws as [|w ws IH]; [congruence|]. inversion S; subst. destruct ws as [|v ws]; [now apply one_line_solid|].
    change (joined (w :: v :: ws)) with (w ++ sp :: joined (v :: ws)). apply one_line_app; [now apply one_line_solid|]. apply one_line_cons; try discriminate. apply IH; auto. discriminate.
  - exists (sci x). split; [apply sci_shows|]. apply says_solid.
    + unfold ljust. rewrite <- app_assoc. rewrite <- J. apply hw_join; auto. * rewrite J. apply ends_blanks. lia.
      * apply hw_blanks. apply hw_rjust; [apply sci_solid|right; eexists; reflexivity|]. apply hw_sep; [now left|]. rewrite <- (app_nil_r u) at 1. apply hw_solid; auto; [now left|constructor].
    + apply Forall_app. split; auto. constructor; [apply sci_solid|]. constructor; auto.
Qed.
Lemma rule_ok c n : (0 < n)%nat -> c <> "010"%char -> c <> "013"%char -> one_line (repeat c n) /\ ruled c (repeat c n).
Proof. intros N A B. split; [|split]. - intros d I. apply repeat_spec in I. subst. auto. - destruct n; [lia|discriminate]. - intros d I. now apply repeat_spec in I. Qed.

(** * Compounds *)
Lemma has_nth p i c x : wf p -> nth_error (tm_compounds (tp_material p)) i = Some c -> nth_error (tp_masses p) i = Some x -> has p c = x.
Proof.
  intros W I X. pose proof (get_compound_mass_has p c W) as H. unfold get_compound_mass, get_compound_index in H. rewrite (proj2 (member_In string_dec c _) (nth_error_In _ _ I)) in H.
  rewrite (index_nth string_dec (tm_compounds (tp_material p)) i c (proj1 W) I) in H. cbn [bind] in H. unfold get in H. rewrite X in H. now injection H.
Qed.
Section Body.
Variables (p : package) (F : string -> formula).
Hypothesis W : wf p.
Hypothesis N : not_negative p.
Hypothesis G : forall c, In c (tm_compounds (tp_material p)) -> cell 20 (text_of c) /\ proper c (F c) /\ has_atoms (F c).
Definition kmoles : R := weigh (fun c => moles_per_kg (F c)) p.
Definition compound_line (c : string) (l : text) : Prop := exists a b d,
  shows9 (has p c) a /\ shows9 (fraction (has p c) (mass_of p)) b /\ shows9 (fraction (moles_per_kg (F c) * has p c) kmoles) d /\ says l [text_of c; a; b; d].
Lemma positive : forall c, In c (tm_compounds (tp_material p)) -> 0 < moles_per_kg (F c).
Proof. intros c I. apply G in I. destruct I as (_ & A & B). eapply moles_pos; eauto. Qed.
Lemma kmoles_zero : kmoles = 0 <-> mass_of p = 0.
Proof.
  destruct (weigh_nonneg (fun c => moles_per_kg (F c)) (tm_compounds (tp_material p)) (tp_masses p) positive N) as [_ A].
  destruct (weigh_nonneg (fun _ => 1) (tm_compounds (tp_material p)) (tp_masses p) ltac:(intros; lra) N) as [_ B]. destruct W as [_ L]. symmetry in L.
  split; intros E; unfold mass_of, weigh; [apply weigh_zero, A|apply weigh_zero, B]; auto.
Qed.
Lemma row_line c a b d : cell 20 (text_of c) -> exists u, ljust 20 (text_of c) ++ sci a ++ spaces 2 ++ sci b ++ spaces 2 ++ sci d ++ nl = u ++ nl /\ one_line u /\ says u [text_of c; sci a; sci b; sci d].
Proof.
  intros C. exists (ljust 20 (text_of c) ++ sci a ++ spaces 2 ++ sci b ++ spaces 2 ++ sci d). pose proof (cell_solid _ _ C) as S. split; [now rewrite <- !app_assoc|]. split.
  - repeat apply one_line_app; auto using one_line_spaces, one_line_solid, sci_solid.
  - apply says_solid; [|repeat (constructor; auto using sci_solid)]. apply hw_ljust; auto. apply hw_solid; [apply sci_solid|apply ends_blanks; lia|]. apply hw_blanks. apply hw_solid; [apply sci_solid|apply ends_blanks; lia|].
    apply hw_blanks. rewrite <- (app_nil_r (sci d)) at 1. apply hw_solid; [apply sci_solid|now left|constructor].
Qed.
Lemma compound_rows_ok : exists t ls, compound_rows p = Ok t /\ lines_are t ls /\ Forall2 compound_line (tm_compounds (tp_material p)) ls.
Proof.
  assert (G' : forall c, In c (tm_compounds (tp_material p)) -> proper c (F c) /\ has_atoms (F c)) by (intros c I; now apply G).
  destruct (C41_thermo_amounts p F W G') as (ns & E & L & V & S). rewrite (P_ThermoElem.get_amount_ok p F W G') in S. injection S as S. fold kmoles in S.
  unfold compound_rows. rewrite E. cbn [bind]. rewrite <- S, (rsum_weigh p W).
  assert (PM : 0 <= mass_of p) by (apply (weigh_nonneg (fun _ => 1)); auto; intros; lra).
  destruct (Rlt_dec 0 (mass_of p)) as [M|M].
  - apply each_lines. intros c I. destruct (G c I) as (C & _). apply In_nth_error in I. destruct I as [i I].
    assert (J : exists x, nth_error (tp_masses p) i = Some x). { destruct (nth_error (tp_masses p) i) as [x|] eqn:X; eauto. apply nth_error_None in X. destruct W as [_ Lw]. assert ((i < length (tm_compounds (tp_material p)))%nat) by (apply nth_error_Some; congruence). lia. }
    destruct J as [x J]. pose proof (has_nth p i c x W I J) as H. unfold get_compound_index. rewrite (index_nth string_dec _ i c (proj1 W) I). cbn [bind]. unfold get at 1. rewrite J. cbn [bind].
    unfold ndiv at 1. destruct (Req_EM_T (mass_of p) 0) as [Z|Z]; [lra|]. cbn [bind]. unfold get. rewrite (V i c x I J). cbn [bind]. unfold ndiv. destruct (Req_EM_T kmoles 0) as [Y|Y]; [apply (proj1 kmoles_zero) in Y; lra|]. cbn [bind].
    destruct (row_line c x (x / mass_of p) (x * moles_per_kg (F c) / kmoles) C) as (u & E1 & E2 & E3). exists u. split; [now rewrite E1|]. split; auto.
    exists (sci x), (sci (x / mass_of p)), (sci (x * moles_per_kg (F c) / kmoles)). unfold fraction. destruct (Req_EM_T (mass_of p) 0); [lra|]. destruct (Req_EM_T kmoles 0); [lra|].
    rewrite H. split; [apply sci_shows|]. split; [apply sci_shows|]. split; [|exact E3]. rewrite (Rmult_comm (moles_per_kg (F c)) x). apply sci_shows.
  - assert (Z : mass_of p = 0) by lra. apply each_lines. intros c I. destruct (G c I) as (C & _). unfold get_compound_index. destruct (index_total string_dec c _ I) as [i Ei]. rewrite Ei. cbn [bind].
    destruct (row_line c 0 0 0 C) as (u & E1 & E2 & E3). exists u. split; [now rewrite E1|]. split; auto. exists (sci 0), (sci 0), (sci 0).
    assert (H : has p c = 0). { apply weigh_zero. intros x X. destruct (weigh_nonneg (fun _ => 1) (tm_compounds (tp_material p)) (tp_masses p) ltac:(intros; lra) N) as [_ B]. apply B; auto. symmetry. apply W. }
    rewrite H. unfold fraction. destruct (Req_EM_T (mass_of p) 0) as [?|?]; [|lra]. destruct (Req_EM_T kmoles 0) as [?|Y]; [|exfalso; apply Y, kmoles_zero; lra]. auto using sci_shows.
Qed.
End Body.

Definition property_line (props : list (string * R)) (k : string) (l : text) : Prop := exists x t, In (k, x) props /\ shows9 x t /\ says l [text_of k; t].
Lemma own_ok props : NoDup (map fst props) -> (forall k, In k (map fst props) -> cell 20 (text_of k)) ->
  exists t ls, own_properties props = Ok t /\ lines_are t ls /\
    Forall2 (fun (P : text -> Prop) l => P l) (match props with [] => [] | _ => [ruled "-"%char; eq (text_of "Custom Properties:"); ruled "-"%char] ++ map (property_line props) (M_Chem.sorted (map fst props)) end) ls.
Proof.
  intros D C. destruct props as [|kv props0] eqn:P. { exists [], []. split; auto. split; constructor. }
  replace (own_properties (kv :: props0)) with (do ls <- each (fun k => match lookup k props with Some x => Ok (ljust 20 (text_of k) ++ sci x ++ nl) | None => Err KeyError end) (M_Chem.sorted (map fst props)); Ok (rule "-" 67 ++ text_of "Custom Properties:" ++ nl ++ rule "-" 67 ++ ls)) by (rewrite P; reflexivity).
  rewrite <- P in *. clear P kv props0.
  destruct (each_lines (fun k => match lookup k props with Some x => Ok (ljust 20 (text_of k) ++ sci x ++ nl) | None => Err KeyError end) (property_line props) (M_Chem.sorted (map fst props))) as (t & ls & E & L & R).
  - intros k I. apply (Permutation_in k (Permutation_sym (sorted_perm _))) in I. pose proof (C k I) as K.
    assert (X : exists x, lookup k props = Some x /\ In (k, x) props). { clear - I. induction props as [|[j v] l IH]; [destruct I|]. cbn [lookup fst map] in *. destruct (string_dec j k) as [->|Ne]. - exists v. split; [|now left]. now rewrite ?String.eqb_refl. - destruct I as [I|I]; [congruence|]. destruct (IH I) as (x & A & B). exists x. split; [|now right]. rewrite (proj2 (String.eqb_neq k j)) by congruence. exact A. }
    destruct X as (x & Ex & Ix). rewrite Ex. exists (ljust 20 (text_of k) ++ sci x). split; [now rewrite <- app_assoc|]. split.
    + apply one_line_app; [apply one_line_ljust, one_line_solid; eapply cell_solid; eauto|apply one_line_solid, sci_solid].
    + exists x, (sci x). split; auto. split; [apply sci_shows|]. apply package_line; auto. apply sci_solid.
  - destruct (rule_ok "-"%char 67) as [R1 R2]; [lia|discriminate|discriminate|]. rewrite E. cbn [bind]. eexists. exists (repeat "-"%char 67 :: text_of "Custom Properties:" :: repeat "-"%char 67 :: ls). split; [reflexivity|]. split.
    + unfold rule. rewrite <- !app_assoc. apply lines_cons; auto. apply lines_cons; [|apply lines_cons; auto]. intros c I. cbn in I. repeat (destruct I as [<-|I]; [split; discriminate|]). destruct I.
    + cbn [app]; constructor; auto; constructor; [reflexivity|]; constructor; auto; now apply Forall2_map_l.
Qed.
