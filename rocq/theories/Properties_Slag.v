(** C48: slag viscosity. *)
From Verif Require Import Prelude M_Lists M_Thermochem M_ThermoMat M_Coals M_Stoichiometry M_Physical Spec_Physical P_Content P_Convert P_Poly P_Physical P_Slag.
From Coq Require Import Reals Qreals Lra Lia.
Local Open Scope list_scope.
Local Open Scope R_scope.

(** * Only proportions count *)
(** Multiplying every amount by the same number changes neither the viscosity nor the error. *)
Theorem C48_urbain_scale : forall k T x, k <> 0 -> urbain T (times k x) = urbain T x.
Proof. exact (fun k T x H => urbain_times k T x H). Qed.
Print Assumptions C48_urbain_scale.
Theorem C48_riboud_scale : forall k T x, k <> 0 -> snd (riboud T (times k x)) = snd (riboud T x).
Proof. exact (fun k T x H => riboud_times k T x H). Qed.
Print Assumptions C48_riboud_scale.

(** * Dependence on temperature: the Weymann-Frenkel law *)
(** A composition with a viscosity at some temperature has one at every other one
    (not zero), of the form A T exp (E / T), and with Urbain's relation between A and E. *)
Theorem C48_urbain_weymann : forall x T y, urbain T x = Ok y -> exists A E, 0 < A /\ ln (10 * A) = - 0.2693 * (E / 1000) - 11.6725 /\ forall T', T' <> 0 -> urbain T' x = Ok (weymann A E T').
Proof.
  intros x T y H. destruct (urbain_form x T y H) as [B F]. exists (exp (- (2693 / 10000) * B - 116725 / 10000) / 10), (1000 * B). split; [apply Rdiv_lt_0_compat; [apply exp_pos|lra]|]. split; [|exact F].
  replace (10 * (exp (- (2693 / 10000) * B - 116725 / 10000) / 10)) with (exp (- (2693 / 10000) * B - 116725 / 10000)) by field. rewrite ln_exp. lra.
Qed.
Print Assumptions C48_urbain_weymann.
Theorem C48_riboud_weymann : forall x T y, snd (riboud T x) = Ok y -> exists A E, 0 < A /\ forall T', T' <> 0 -> snd (riboud T' x) = Ok (weymann A E T').
Proof. intros x T y H. destruct (riboud_form T x y H) as (A & P & F). exists A. eexists. split; [exact P|exact F]. Qed.
Print Assumptions C48_riboud_weymann.
(** Hence positive. *)
Theorem C48_positive : forall x T y, 0 < T -> urbain T x = Ok y \/ snd (riboud T x) = Ok y -> 0 < y.
Proof.
  intros x T y P [H|H].
  - destruct (C48_urbain_weymann x T y H) as (A & E & PA & _ & F). rewrite F in H by lra. injection H as <-. now apply weymann_pos.
  - destruct (C48_riboud_weymann x T y H) as (A & E & PA & F). rewrite F in H by lra. injection H as <-. now apply weymann_pos.
Qed.
Print Assumptions C48_positive.
(** With amounts that are not negative, Urbain's viscosity falls strictly with
    temperature up to 9680 K. *)
Theorem C48_urbain_decreasing : forall x T1 T2 y1 y2, (forall c a, In (c, a) x -> 0 <= a) -> urbain T1 x = Ok y1 -> urbain T2 x = Ok y2 -> 0 < T1 -> T1 < T2 -> T2 <= 9680 -> y2 < y1.
Proof.
  intros x T1 T2 y1 y2 N H1 H2 P L M. destruct (urbain_B_of x T1 y1 N H1) as (B & HB & F). rewrite F in H1 by lra. rewrite F in H2 by lra. injection H1 as <-. injection H2 as <-.
  apply weymann_decreasing; try lra. apply Rdiv_lt_0_compat; [apply exp_pos|lra].
Qed.
Print Assumptions C48_urbain_decreasing.
(** * Where the models have a value *)
Theorem C48_urbain_defined : forall x T c a, (forall c a, In (c, a) x -> 0 <= a) -> NoDup (map fst x) ->
  In c ["CaO"; "MgO"; "Na2O"; "K2O"; "CaF2"; "FeO"; "MnO"; "TiO2"; "ZrO2"; "Al2O3"; "Fe2O3"; "B2O3"]%string -> In (c, a) x -> 0 < a -> T <> 0 -> exists y, urbain T x = Ok y.
Proof.
  intros x T c a N D K I A P. apply (urbain_defined x T c a); auto. clear - D I. induction x as [|[d b] x IH]; cbn [map fst lookup] in *; [contradiction|]. inversion D; subst.
  destruct I as [I|I]; [injection I as -> ->; now rewrite String.eqb_refl|]. destruct (String.eqb_spec c d) as [->|E]; auto. exfalso. apply H1. apply in_map_iff. exists (d, a). auto.
Qed.
Print Assumptions C48_urbain_defined.
(** Not for pure silica. *)
Theorem C48_urbain_silica_refuted : forall T a, a <> 0 -> urbain T [("SiO2"%string, a)] = Err ZeroDivisionError.
Proof.
  intros T a N. rewrite urbain_unfold, shares_ok by (cbn [total snd]; lra). cbn [bind]. unfold shares. cbn [map fst snd total]. unfold urbain_of, get0. cbn [lookup String.eqb Ascii.eqb Bool.eqb].
  do 3 (rewrite rdiv_ok by lra; cbn [bind]). replace ((0 + 0 + 0 + 0 + 3 * 0 + 0 + 0 + 2 * 0 + 2 * 0) / (1 + 0 + 0 + 0 + 0) + (0 + 0 + 0) / (1 + 0 + 0 + 0 + 0)) with 0 by field. now rewrite rdiv_0.
Qed.
Print Assumptions C48_urbain_silica_refuted.
(** A composition whose amounts sum to zero, or a temperature of zero, raises. *)
Theorem C48_zero_total : forall T x, x <> [] -> total snd x = 0 -> urbain T x = Err ZeroDivisionError.
Proof. intros T x N Z. rewrite urbain_unfold, shares_0; auto. Qed.
Print Assumptions C48_zero_total.
Theorem C48_zero_temperature : forall x y, urbain 0 x <> Ok y /\ snd (riboud 0 x) <> Ok y.
Proof.
  intros x y. split; intros H.
  - rewrite urbain_unfold in H. match type of H with bind ?d _ = _ => destruct d as [s|e] end; [|discriminate]. cbn [bind] in H. unfold urbain_of in H.
    do 4 (match type of H with bind ?d _ = _ => destruct d end; [|discriminate]; cbn [bind] in H). rewrite rdiv_0 in H. discriminate.
  - destruct (Req_EM_T (total (get0 (riboud_prepare x)) riboud_all) 0) as [Z|Z]; [rewrite riboud_0 in H by auto; discriminate|]. rewrite riboud_ok in H by auto. unfold riboud_of in H. rewrite rdiv_0 in H. discriminate.
Qed.
Print Assumptions C48_zero_temperature.
(** * The caller's composition *)
(** Riboud's model writes into the caller's dictionary if it contains P2O5, Fe2O3 or B2O3. *)
Theorem C48_riboud_mutates_refuted : forall T x v, lookup "Fe2O3" x = Some v -> lookup "FeO1.5" x <> Some (2 * v) -> fst (riboud T x) <> x.
Proof.
  intros T x v F N E. apply N. rewrite <- E at 1. unfold riboud. cbn [fst]. unfold riboud_prepare. rewrite lookup_double by discriminate. rewrite lookup_double_to, lookup_double by discriminate. now rewrite F.
Qed.
Print Assumptions C48_riboud_mutates_refuted.
(** Without any of them the dictionary is left alone, and in any case every other entry is. *)
Theorem C48_riboud_keeps : forall T x, lookup "P2O5" x = None -> lookup "Fe2O3" x = None -> lookup "B2O3" x = None -> fst (riboud T x) = x.
Proof. intros T x P F B. unfold riboud. cbn [fst]. apply prepare_fixed; [rewrite P|rewrite F|rewrite B]; exact I. Qed.
Print Assumptions C48_riboud_keeps.
Theorem C48_riboud_other_entries : forall T x c, c <> "PO2.5"%string -> c <> "FeO1.5"%string -> c <> "BO1.5"%string -> lookup c (fst (riboud T x)) = lookup c x.
Proof. intros T x c A B C. unfold riboud. cbn [fst]. now apply prepare_other. Qed.
Print Assumptions C48_riboud_other_entries.
(** Calling it again with the dictionary it left gives the same viscosity and leaves the dictionary as it is. *)
Theorem C48_riboud_again : forall T T' x, riboud T' (fst (riboud T x)) = (fst (riboud T x), snd (riboud T' x)).
Proof. intros T T' x. unfold riboud. cbn [fst snd]. now rewrite prepare_idem. Qed.
Print Assumptions C48_riboud_again.
(** Riboud's model sees P2O5 only as twice PO2.5, and ignores every compound it does not know. *)
Theorem C48_riboud_ignores_unknown : forall T x c v, ~ In c riboud_all -> ~ In c ["P2O5"; "Fe2O3"; "B2O3"]%string -> snd (riboud T (dict_set x c v)) = snd (riboud T x).
Proof.
  intros T x c v N N'. assert (P : forall d, In d riboud_all -> get0 (riboud_prepare (dict_set x c v)) d = get0 (riboud_prepare x) d).
  { intros d I. unfold get0. replace (lookup d (riboud_prepare (dict_set x c v))) with (lookup d (riboud_prepare x)); auto.
    assert (Q : forall e, In e (riboud_all ++ ["P2O5"; "Fe2O3"; "B2O3"]%string) -> lookup e (dict_set x c v) = lookup e x).
    { intros e J. rewrite lookup_set. destruct (string_dec e c) as [->|]; auto. apply in_app_or in J. tauto. }
    assert (S : forall y z k w, (forall e, In e (riboud_all ++ ["P2O5"; "Fe2O3"; "B2O3"]%string) -> lookup e y = lookup e z) -> forall e, In e (riboud_all ++ ["P2O5"; "Fe2O3"; "B2O3"]%string) -> lookup e (dict_set y k w) = lookup e (dict_set z k w)).
    { intros y z k w H e J. rewrite !lookup_set. destruct (string_dec e k); auto. }
    assert (DC : forall y z f t, In f ["P2O5"; "Fe2O3"; "B2O3"]%string -> (forall e, In e (riboud_all ++ ["P2O5"; "Fe2O3"; "B2O3"]%string) -> lookup e y = lookup e z) -> forall e, In e (riboud_all ++ ["P2O5"; "Fe2O3"; "B2O3"]%string) -> lookup e (double_cation y f t) = lookup e (double_cation z f t)).
    { intros y z f t J H e K. unfold double_cation. rewrite (H f) by (apply in_or_app; auto). destruct (lookup f z); auto. }
    symmetry. unfold riboud_prepare. apply DC; [cbn; tauto| |apply in_or_app; now left].
    apply DC; [cbn; tauto|]. apply DC; [cbn; tauto|]. exact Q. }
  assert (TT : total (get0 (riboud_prepare (dict_set x c v))) riboud_all = total (get0 (riboud_prepare x)) riboud_all).
  { clear - P. revert P. generalize riboud_all. induction l as [|d l IH]; intros P; cbn [total]; auto. rewrite P by now left. rewrite IH; auto. intros e J. apply P. now right. }
  destruct (Req_EM_T (total (get0 (riboud_prepare x)) riboud_all) 0) as [Z|Z].
  - rewrite (riboud_0 T x Z). apply riboud_0. now rewrite TT.
  - rewrite (riboud_ok T x Z). rewrite riboud_ok by (now rewrite TT). f_equal. unfold riboud_shares. rewrite TT. apply map_ext_in. intros d I. now rewrite P.
Qed.
Print Assumptions C48_riboud_ignores_unknown.

Example C48_example : exists y z, urbain 1800 [("SiO2"%string, 50); ("CaO"%string, 40); ("Al2O3"%string, 10)] = Ok y /\ snd (riboud 1800 [("SiO2"%string, 50); ("CaO"%string, 40); ("Al2O3"%string, 10)]) = Ok z /\ 0 < y /\ 0 < z.
Proof.
  set (x := [("SiO2"%string, 50); ("CaO"%string, 40); ("Al2O3"%string, 10)]).
  assert (N : forall c a, In (c, a) x -> 0 <= a) by (intros c a I; unfold x in I; cbn [In] in I; repeat destruct I as [I|I]; try contradiction; injection I as <- <-; lra).
  destruct (C48_urbain_defined x 1800 "CaO" 40 N) as [y Y]; [repeat constructor; cbn; intuition discriminate|cbn; tauto|cbn; tauto|lra|lra|].
  assert (Z : exists z, snd (riboud 1800 x) = Ok z). { rewrite riboud_ok; [unfold riboud_of; rewrite rdiv_ok by lra; cbn [bind]; eauto|]. unfold x, riboud_prepare, double_cation, get0. cbn [lookup String.eqb Ascii.eqb Bool.eqb total riboud_all riboud_cao riboud_na2o app]. lra. }
  destruct Z as [z Z]. exists y, z. split; auto. split; auto. split; [apply (C48_positive x 1800 y); auto; lra|apply (C48_positive x 1800 z); auto; lra].
Qed.
