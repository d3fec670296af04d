(** C101: polynomial and ideal gas property models in binary64. *)
From Verif Require Import Prelude M_Lists M_Thermochem M_Stoichiometry Spec_Stoich M_Ieee Spec_Ieee P_Ieee M_FloatCompare M_FloatMix P_FloatMix M_FloatLoan P_FloatLoan M_FloatStoich Spec_FloatStoich P_Within P_Convert
  Spec_Special Spec_Physical M_Data_Fluids P_Fluids M_FloatPoly Spec_FloatPoly P_FloatPoly P_FloatPoly2 P_FloatPoly3 P_FloatGas.
From Coq Require Import Reals Qreals List Lra Lia.
From Flocq Require Import Core BinarySingleNaN.
Import ListNotations.
Local Open Scope list_scope.
Local Open Scope R_scope.

(** ** C101: rounding in property models *)
(** Any polynomial at any temperature: whenever the result is a number, it is
    the exact sum but for two roundings per power of T, relative to the sum of
    the sizes of the terms, and the underflow of products. *)
Theorem C101_polynomial_error : forall cs T, finite (polyval64 cs T) ->
  let k := (List.length cs - 1)%nat in
  Rabs (value (polyval64 cs T) - power_sum (map value cs) (value T)) <= gamma (2 * k) * size_sum cs (value T) + (1 + gamma (2 * k)) * tiny * powers k (value T).
Proof. intros cs T F. cbv zeta. rewrite Nat.sub_1_r. now apply polynomial_error. Qed.
Print Assumptions C101_polynomial_error.
(** The result is a number unless the terms come near the largest float. *)
Theorem C101_polynomial_finite : forall cs T, finite T -> Forall finite cs -> INR (2 * List.length cs) <= 2 ^ 50 ->
  power_sum (map (fun c => 1 + Rabs (value c)) cs) (Rmax 1 (Rabs (value T))) <= 2 ^ 1000 -> finite (polyval64 cs T).
Proof. exact polynomial_finite. Qed.
Print Assumptions C101_polynomial_finite.
Theorem C101_polynomial_at_zero : forall cs c T, finite (polyval64 (cs ++ [c]) T) -> value T = 0 -> value (polyval64 (cs ++ [c]) T) = value c.
Proof. exact polynomial_at_zero. Qed.
Print Assumptions C101_polynomial_at_zero.
(** A model calculates exactly for the states {T} that are not out of its limits. *)
Theorem C101_accepts : forall cs lo hi st v, NoDup (map fst st) ->
  fpoly_calculate (mkfpoly cs lo (Some hi)) st = Ok v <-> exists T, st = [("T"%string, FNum T)] /\ lt64 T lo = false /\ gt64 T hi = false /\ v = polyval64 cs T.
Proof. exact poly_accepts. Qed.
Print Assumptions C101_accepts.
(** The shipped models: positive, and as accurate as [accuracy] says. *)
Theorem C101_shipped : forall f p cs lo hi T v, In (f, p) fluid_data -> f <> "water-beta"%string -> reads_model p cs lo hi -> T <> B754_nan ->
  fpoly_calculate (mkfpoly cs lo (Some hi)) [("T"%string, FNum T)] = Ok v ->
  let exact := power_sum (map Q2R (qp_coeffs p)) (value T) in
  finite v /\ 0 < exact /\ Rabs (value v - exact) <= Q2R (accuracy f) * exact /\ 0 < value v.
Proof.
  intros f p cs lo hi T v I N RM NN H exact. apply poly_accepts in H; [|constructor; [intros []|constructor]]. destruct H as (T' & E & L1 & L2 & ->). injection E as <-.
  assert (RM' := RM). destruct RM' as (_ & [Fl _] & [Fh _]). assert (FT : finite T).
  { destruct T as [s|s| |s m e B]; [reflexivity| |contradiction|reflexivity]. exfalso. destruct s; [destruct lo; cbv in Fl; try discriminate; cbv in L1; discriminate|destruct hi; cbv in Fh; try discriminate; cbv in L2; discriminate]. }
  apply lt_spec in L1; auto. apply gt64_spec in L2; auto. assert (FF := file_finite f p cs lo hi T I RM FT L1 L2). assert (FE := file_error f p cs lo hi T I RM FT L1 L2).
  destruct (temp_range f p cs lo hi T I RM L1 L2) as [X1 X2]. assert (P := sum_positive f p (value T) I N X1 ltac:(lra)). assert (B := terms_bounded f p (value T) I N X1 ltac:(lra)). change (Psum p (value T)) with exact in *.
  assert (D : Rabs (value (polyval64 cs T) - exact) <= Q2R (accuracy f) * exact).
  { eapply Rle_trans; [exact FE|]. replace (Q2R (accuracy f) * exact) with (/ 2 ^ 48 * (Q2R (accuracy f) * 2 ^ 48 * exact)); [|field; apply pow_nonzero; lra]. apply Rmult_le_compat_l; [left; apply Rinv_0_lt_compat, pow_lt; lra|exact B]. }
  split; [exact FF|]. split; [exact P|]. split; [exact D|]. assert (A : Q2R (accuracy f) <= / 2).
  { replace (/ 2) with (Q2R (1 # 2)) by (unfold Q2R; cbn; lra). apply Qle_Rle. unfold accuracy. repeat (match goal with |- context [if ?b then _ else _] => destruct b end); discriminate. }
  apply abs_split in D. assert (Q2R (accuracy f) * exact <= / 2 * exact) by (apply Rmult_le_compat_r; lra). lra.
Qed.
Print Assumptions C101_shipped.
(** Water's thermal expansion changes its sign near 277 K: no relative bound, but within 10^-8 per kelvin. *)
Theorem C101_water_beta : forall p cs lo hi T v, In ("water-beta"%string, p) fluid_data -> reads_model p cs lo hi -> T <> B754_nan ->
  fpoly_calculate (mkfpoly cs lo (Some hi)) [("T"%string, FNum T)] = Ok v ->
  finite v /\ Rabs (value v - power_sum (map Q2R (qp_coeffs p)) (value T)) <= / 10 ^ 8.
Proof.
  intros p cs lo hi T v I RM NN H. apply poly_accepts in H; [|constructor; [intros []|constructor]]. destruct H as (T' & E & L1 & L2 & ->). injection E as <-.
  assert (RM' := RM). destruct RM' as (_ & [Fl _] & [Fh _]). assert (FT : finite T).
  { destruct T as [s|s| |s m e B]; [reflexivity| |contradiction|reflexivity]. exfalso. destruct s; [destruct lo; cbv in Fl; try discriminate; cbv in L1; discriminate|destruct hi; cbv in Fh; try discriminate; cbv in L2; discriminate]. }
  apply lt_spec in L1; auto. apply gt64_spec in L2; auto. split; [exact (file_finite _ p cs lo hi T I RM FT L1 L2)|]. assert (FE := file_error _ p cs lo hi T I RM FT L1 L2).
  destruct (temp_range _ p cs lo hi T I RM L1 L2) as [X1 X2]. assert (B := beta_terms p (value T) I X1). fold (Psum p (value T)). eapply Rle_trans; [exact FE|].
  apply Rle_trans with (/ 2 ^ 48 * 2814749); [apply Rmult_le_compat_l; [left; apply Rinv_0_lt_compat, pow_lt; lra|exact B]|]. replace (2 ^ 48) with 281474976710656 by (cbn; lra). replace (10 ^ 8) with 100000000 by (cbn; lra). lra.
Qed.
Print Assumptions C101_water_beta.
(** Ideal gases: at most five roundings for the density, one for the expansion. *)
Theorem C101_ideal_rho_T : forall mm P T, ordinary mm -> ordinary P -> ordinary T ->
  exists v, frho_T mm P [("T"%string, FNum T)] = Ok v /\ finite v /\ within 5 (value v) (value mm / 1000 * value P / (8314462618 / 1000000000) / value T).
Proof. exact rho_T_ok. Qed.
Print Assumptions C101_ideal_rho_T.
Theorem C101_ideal_rho_TP : forall mm P T, ordinary mm -> ordinary P -> ordinary T ->
  exists v, frho_TP mm [("T"%string, FNum T); ("P"%string, FNum P)] = Ok v /\ finite v /\ within 5 (value v) (value mm / 1000 * value P / (8314462618 / 1000000000) / value T).
Proof. exact rho_TP_ok. Qed.
Print Assumptions C101_ideal_rho_TP.
Theorem C101_ideal_beta : forall T, ordinary T -> exists v, fbeta_T [("T"%string, FNum T)] = Ok v /\ finite v /\ within 1 (value v) (1 / value T).
Proof. exact beta_ok. Qed.
Print Assumptions C101_ideal_beta.
(** A mixture: one more rounding per compound and per kind of atom. *)
Theorem C101_ideal_rho_TPx : forall K x fs P T, compounds K x fs -> INR (List.length x) <= 2 ^ 50 -> (exists kv, In kv x /\ value (snd kv) <> 0) -> ordinary P -> ordinary T ->
  exists v, frho_TPx [("T"%string, FNum T); ("P"%string, FNum P); ("x"%string, FDict x)] = Ok v /\ finite v /\
    within (List.length x + K + 7) (value v) (Rtotal (each Rmult x fs) / 1000 * value P / (8314462618 / 1000000000) / value T).
Proof. exact rho_TPx_ok. Qed.
Print Assumptions C101_ideal_rho_TPx.
(** Temperatures below zero are refused with a ValidationError. *)
Theorem C101_negative_refused : forall cs hi mm P T, lt64 T zero64 = true ->
  fpoly_calculate (mkfpoly cs zero64 hi) [("T"%string, FNum T)] = Err ValidationError /\ fbeta_T [("T"%string, FNum T)] = Err ValidationError /\ frho_T mm P [("T"%string, FNum T)] = Err ValidationError.
Proof. intros cs hi mm P T L. exact (refused_negative cs hi mm P T L). Qed.
Print Assumptions C101_negative_refused.
(** Absolute zero passes the validation and raises a ZeroDivisionError. *)
Theorem C101_zero_refused_as_invalid_refuted : forall mm P T, finite T -> value T = 0 ->
  fbeta_T [("T"%string, FNum T)] = Err ZeroDivisionError /\ frho_T mm P [("T"%string, FNum T)] = Err ZeroDivisionError /\ frho_TP mm [("T"%string, FNum T); ("P"%string, FNum zero64)] = Err ZeroDivisionError.
Proof. exact absolute_zero. Qed.
Print Assumptions C101_zero_refused_as_invalid_refuted.
(** A nan passes every limit: the models answer nan. *)
Theorem C101_limits_refuse_nan_refuted : forall cs lo hi, cs <> [] ->
  fpoly_calculate (mkfpoly cs lo hi) [("T"%string, FNum B754_nan)] = Ok B754_nan /\ fbeta_T [("T"%string, FNum B754_nan)] = Ok B754_nan.
Proof. exact nan_accepted. Qed.
Print Assumptions C101_limits_refuse_nan_refuted.

(** A state without a number T, without what else the model needs, or with anything
    more, is refused with a ValidationError. *)
Definition no_number (k : string) (st : fstate) : Prop := match lookup k st with Some (FNum _) => False | _ => True end.
Definition no_dictionary (k : string) (st : fstate) : Prop := match lookup k st with Some (FDict _) => False | _ => True end.
Definition more_than (ks : list string) (st : fstate) : Prop := exists kv, In kv st /\ ~ In (fst kv) ks.
Lemma refused sc st k f : In (k, f) sc -> match lookup k st with Some v => frule_ok f v | None => false end = false -> fcheck_state sc st = Err ValidationError.
Proof.
  intros I H. unfold fcheck_state. destruct (forallb _ sc) eqn:E; [|reflexivity]. rewrite forallb_forall in E. specialize (E (k, f) I). cbn [fst snd] in E. rewrite H in E. discriminate.
Qed.
Lemma refused_more sc st ks : map fst sc = ks -> more_than ks st -> fcheck_state sc st = Err ValidationError.
Proof.
  intros <- (kv & I & N). unfold fcheck_state. destruct (forallb _ sc); [|reflexivity]. cbn [andb]. destruct (forallb _ st) eqn:E; [|reflexivity]. exfalso. rewrite forallb_forall in E. specialize (E kv I). apply N. unfold member in E. destruct (in_dec _ _ _); [assumption|discriminate].
Qed.
Lemma refused_number sc st k lo hi : In (k, mkffield false lo hi) sc -> no_number k st -> fcheck_state sc st = Err ValidationError.
Proof. intros I H. apply (refused sc st k _ I). unfold no_number in H. destruct (lookup k st) as [[x|d|]|]; auto. contradiction. Qed.
Lemma refused_dictionary sc st k lo hi : In (k, mkffield true lo hi) sc -> no_dictionary k st -> fcheck_state sc st = Err ValidationError.
Proof. intros I H. apply (refused sc st k _ I). unfold no_dictionary in H. destruct (lookup k st) as [[x|d|]|]; auto. contradiction. Qed.
Theorem C101_refuses_other_states : forall cs lo hi mm P st,
  (no_number "T" st \/ more_than ["T"%string] st -> fpoly_calculate (mkfpoly cs lo hi) st = Err ValidationError /\ fbeta_T st = Err ValidationError /\ frho_T mm P st = Err ValidationError) /\
  (no_number "T" st \/ no_number "P" st \/ more_than ["T"%string; "P"%string] st -> frho_TP mm st = Err ValidationError) /\
  (no_number "T" st \/ no_number "P" st \/ no_dictionary "x" st \/ more_than ["T"%string; "P"%string; "x"%string] st -> frho_TPx st = Err ValidationError).
Proof.
  intros cs lo hi mm P st. split; [|split].
  - intros H. assert (C : forall l h, fcheck_state [("T"%string, mkffield false l h)] st = Err ValidationError). { intros l h. destruct H as [H | H]; [eapply refused_number; [left; reflexivity|exact H]|now apply (refused_more _ _ ["T"%string])]. }
    unfold fpoly_calculate, fbeta_T, frho_T, fpositive. rewrite !C. auto.
  - intros H. unfold frho_TP, fpositive. assert (C : fcheck_state [("T"%string, mkffield false (Some zero64) None); ("P"%string, mkffield false (Some zero64) None)] st = Err ValidationError); [|rewrite C; reflexivity].
    destruct H as [H | [H | H]]; [eapply refused_number; [left; reflexivity|exact H]|eapply refused_number; [right; left; reflexivity|exact H]|now apply (refused_more _ _ ["T"%string; "P"%string])].
  - intros H. unfold frho_TPx, fpositive, fdictionary. assert (C : fcheck_state [("T"%string, mkffield false (Some zero64) None); ("P"%string, mkffield false (Some zero64) None); ("x"%string, mkffield true None None)] st = Err ValidationError); [|rewrite C; reflexivity].
    destruct H as [H | [H | [H | H]]]; [eapply refused_number; [left; reflexivity|exact H]|eapply refused_number; [right; left; reflexivity|exact H]|eapply refused_dictionary; [right; right; left; reflexivity|exact H]|now apply (refused_more _ _ ["T"%string; "P"%string; "x"%string])].
Qed.
Print Assumptions C101_refuses_other_states.

(** *** The hypotheses can be met *)
(** Every shipped model can be read, and calculates somewhere. *)
Lemma bound_1000 q k : Rabs q <= k -> k <= 2 ^ 30 -> Rabs q <= 2 ^ 1000.
Proof. intros A B. eapply Rle_trans; [exact A|]. eapply Rle_trans; [exact B|]. apply Rle_pow; [lra|lia]. Qed.
Example C101_shipped_met : forall f p, In (f, p) fluid_data -> Rabs (Q2R (qp_min p)) <= 2000 -> Rabs (Q2R (qp_max p)) <= 2000 -> Q2R (qp_min p) <= Q2R (qp_max p) ->
  exists cs lo hi T v, reads_model p cs lo hi /\ T <> B754_nan /\ fpoly_calculate (mkfpoly cs lo (Some hi)) [("T"%string, FNum T)] = Ok v.
Proof.
  intros f p I B1 B2 LH. assert (K : 2000 <= 2 ^ 30) by (cbn; lra). destruct (simple_in f p I) as (_ & _ & _ & _ & C). destruct (reads_exists (qp_min p) (bound_1000 _ _ B1 K)) as [lo Rlo]. destruct (reads_exists (qp_max p) (bound_1000 _ _ B2 K)) as [hi Rhi].
  destruct (reads_all (qp_coeffs p)) as [cs Rcs]. { intros q Iq. apply (bound_1000 _ 100000000); [now apply C|cbn; lra]. }
  exists cs, lo, hi, lo, (polyval64 cs lo). split; [repeat split; auto; apply Rlo || apply Rhi|]. destruct Rlo as [Fl Vl], Rhi as [Fh Vh]. split; [intros E; rewrite E in Fl; discriminate|].
  apply poly_accepts; [constructor; [intros []|constructor]|]. exists lo. split; [reflexivity|]. split; [apply lt_spec; auto; lra|]. split; [|reflexivity]. apply gt64_spec; auto. rewrite Vl, Vh. apply rnd_le. exact LH.
Qed.
(** For instance all of them. *)
Example C101_shipped_limits : forall f p, In (f, p) fluid_data -> Rabs (Q2R (qp_min p)) <= 2000 /\ Rabs (Q2R (qp_max p)) <= 2000 /\ Q2R (qp_min p) <= Q2R (qp_max p).
Proof.
  intros f p I. assert (A : forallb (fun fp => Qle_bool 0 (qp_min (snd fp)) && Qle_bool (qp_min (snd fp)) (qp_max (snd fp)) && Qle_bool (qp_max (snd fp)) 2000)%bool fluid_data = true) by (vm_compute; reflexivity).
  assert (B := proj1 (forallb_forall _ _) A _ I). cbn [snd] in B. apply andb_prop in B as [B B3]. apply andb_prop in B as [B1 B2]. apply Qle_bool_iff, Qle_Rle in B1, B2, B3.
  replace (Q2R 0) with 0 in B1 by (unfold Q2R; cbn; lra). replace (Q2R 2000) with 2000 in B3 by (unfold Q2R; cbn; lra). rewrite !Rabs_right by lra. lra.
Qed.
(** 1 - T^2 at 1: the sum of the sizes of the terms is 2, and the result is 0. *)
Example C101_small : value (polyval64 [neg64 one64; zero64; one64] one64) = 0 /\ finite (polyval64 [neg64 one64; zero64; one64] one64).
Proof. vm_compute. split; reflexivity. Qed.
(** Nitrogen at 101325 Pa and 300 K: all numbers are ordinary. *)
Definition number64 (z : Z) : float64 := binary_normalize 53 1024 _ _ mode_NE z 0 false.
Lemma number_ordinary z : (1 <= z <= 2 ^ 50)%Z -> ordinary (number64 z).
Proof.
  intros H. destruct (P_FloatStoich.normal_whole z ltac:(unfold P_FloatStoich.B53; lia)) as [F V]. fold (number64 z) in F, V. split; [exact F|]. rewrite V. assert (1 <= IZR z) by (apply IZR_le; lia). assert (IZR z <= IZR (2 ^ 50)) by (apply IZR_le; lia).
  split; [apply Rle_trans with (/ 2 ^ 0); [apply P_FloatStoich2.inv_pow_le; lia|rewrite pow_O, Rinv_1; lra]|]. eapply Rle_trans; [exact H1|]. change (2 ^ 50)%Z with (2 ^ Z.of_nat 50)%Z. rewrite <- pow_IZR. apply Rle_pow; [lra|lia].
Qed.
Example C101_nitrogen : exists v, frho_T (number64 28) (number64 101325) [("T"%string, FNum (number64 300))] = Ok v /\ finite v.
Proof. destruct (C101_ideal_rho_T (number64 28) (number64 101325) (number64 300)) as (v & E & F & _); try (apply number_ordinary; lia). exists v. auto. Qed.
Example C101_no_temperature : fbeta_T [] = Err ValidationError /\ fbeta_T [("T"%string, FOther)] = Err ValidationError /\ fbeta_T [("T"%string, FNum one64); ("P"%string, FNum one64)] = Err ValidationError.
Proof.
  destruct (C101_refuses_other_states [] zero64 None one64 one64 []) as (A & _). destruct (C101_refuses_other_states [] zero64 None one64 one64 [("T"%string, FOther)]) as (B & _).
  destruct (C101_refuses_other_states [] zero64 None one64 one64 [("T"%string, FNum one64); ("P"%string, FNum one64)]) as (C & _).
  destruct A as (_ & A & _); [left; exact I|]. destruct B as (_ & B & _); [left; exact I|]. destruct C as (_ & C & _); [right|auto]. exists ("P"%string, FNum one64). split; [right; left; reflexivity|]. intros [E | []]. discriminate E.
Qed.
