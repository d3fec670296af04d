(** The ideal gas models in binary64, and what the validation of a state lets through. *)
From Verif Require Import Prelude M_Lists M_Thermochem M_Stoichiometry Spec_Stoich M_Ieee Spec_Ieee P_Ieee M_FloatCompare M_FloatMix P_FloatMix M_FloatLoan P_FloatLoan M_FloatStoich Spec_FloatStoich P_Within P_FloatReports2 P_FloatLoan2
  P_FloatStoich P_FloatStoich2 P_FloatStoich3 P_FloatStoich4 P_FloatStoich5 Properties_FloatLoan M_FloatPoly Spec_FloatPoly.
From Coq Require Import Reals Qreals List Lra Lia.
From Flocq Require Import Core BinarySingleNaN.
Import ListNotations.
Local Open Scope list_scope.
Local Open Scope R_scope.

Lemma thousand_val : finite thousand64 /\ value thousand64 = 1000.
Proof. exact (normal_whole 1000 ltac:(lia)). Qed.
Lemma R64_ok : finite R64 /\ within 1 (value R64) (8314462618 / 1000000000) /\ 1 <= value R64 <= 2 ^ 4.
Proof.
  destruct (normal_whole 8314462618 ltac:(lia)) as [Fn Vn]. destruct (normal_whole 1000000000 ltac:(lia)) as [Fd Vd].
  assert (B : 1 <= 8314462618 / 1000000000 <= 2 ^ 4) by (cbn [pow]; lra).
  destruct (div_ok _ (binary_normalize 53 1024 _ _ mode_NE 1000000000 0 false) Fn) as [F V]; [rewrite Vd; lra| |].
  { rewrite Vn, Vd. apply rnd_small. rewrite Rabs_pos_eq by lra. eapply Rle_trans; [apply (proj2 B)|apply two_pow_le; lia]. }
  change (div64 _ _) with R64 in F, V. rewrite Vn, Vd in V. split; [exact F|]. rewrite V. split.
  - apply rnd_within1. apply Rle_trans with (/ 2 ^ 0); [apply inv_pow_le; lia|rewrite pow_O, Rinv_1; lra].
  - split; [rewrite <- rnd_1; apply rnd_le; lra|]. assert (E : rnd (2 ^ 4) = 2 ^ 4). { destruct (normal_whole 16 ltac:(lia)) as [_ V16]. replace (2 ^ 4) with (IZR 16) by (cbn; lra). rewrite <- V16. apply rnd_fix. } rewrite <- E. apply rnd_le. lra.
Qed.
Lemma nn_div a b : 0 <= a -> 0 < b -> 0 <= a / b.
Proof. intros A B. apply Rmult_le_pos; [exact A|]. left. now apply Rinv_0_lt_compat. Qed.
Lemma within_div_same n a b c : 0 <= a -> 0 <= b -> 0 < c -> within n a b -> within n (a / c) (b / c).
Proof. intros A B C W. replace n with (n + 0)%nat by lia. apply within_div; auto. apply within_refl. lra. Qed.
Lemma within_mul_same n a b c : 0 <= a -> 0 <= b -> 0 <= c -> within n a b -> within n (a * c) (b * c).
Proof. intros A B C W. replace n with (n + 0)%nat by lia. apply within_mul; auto. now apply within_refl. Qed.
(** [x] lies between 2^-200 and 2^200. *)
Definition ordinary (x : float64) : Prop := finite x /\ / 2 ^ 200 <= value x <= 2 ^ 200.
Definition Rgas : R := 8314462618 / 1000000000.
Theorem density_ok m P T : finite m -> / 2 ^ 540 <= value m <= 2 ^ 540 -> ordinary P -> ordinary T ->
  exists v, ideal_density m P T = Ok v /\ finite v /\ within 4 (value v) (value m * value P / Rgas / value T).
Proof.
  intros Fm Rm [FP RP] [FT RT]. destruct R64_ok as (FR & WR & BR). pose proof (ip2 540). pose proof (ip2 200).
  pose proof (mul_range 540 200 _ _ Rm RP) as R1. destruct (mul_step 740 m P ltac:(lia) Fm FP R1) as (F1 & W1). pose proof (near_range 740 1 _ _ ltac:(lia) W1 R1) as N1.
  assert (RR : / 2 ^ 4 <= value R64 <= 2 ^ 4). { split; [|lra]. apply Rle_trans with (/ 2 ^ 0); [apply inv_pow_le; lia|rewrite pow_O, Rinv_1; lra]. }
  pose proof (div_range 741 4 _ _ N1 RR) as R2. destruct (div_step 745 (mul64 m P) R64 ltac:(lia) F1 ltac:(lra) R2) as (F2 & W2 & E2). pose proof (near_range 745 1 _ _ ltac:(lia) W2 R2) as N2.
  pose proof (div_range 746 200 _ _ N2 RT) as R3. destruct (div_step 946 (div64 (mul64 m P) R64) T ltac:(lia) F2 ltac:(lra) R3) as (F3 & W3 & E3).
  unfold ideal_density. rewrite E2. cbn [bind]. rewrite E3. eexists. split; [reflexivity|]. split; [exact F3|]. pose proof (ip2 741). pose proof (ip2 746). assert (G : 0 < Rgas) by (unfold Rgas; lra).
  assert (MP : 0 <= value m * value P) by (apply Rmult_le_pos; lra). assert (MG : 0 <= value m * value P / Rgas) by (apply nn_div; auto).
  change 4%nat with (1 + 3)%nat. eapply within_trans; [exact W3|]. apply within_div_same; [lra|exact MG|lra|].
  change 3%nat with (1 + (1 + 1))%nat. eapply within_trans; [exact W2|]. apply within_div; auto; lra.
Qed.
(** ** Validation *)
Lemma check_T hi T : fcheck_state [("T"%string, mkffield false (Some zero64) hi)] [("T"%string, FNum T)] =
  if negb (lt64 T zero64) && (match hi with Some m => negb (gt64 T m) | None => true end) then Ok tt else Err ValidationError.
Proof. unfold fcheck_state, frule_ok. cbn. destruct (negb (lt64 T zero64)), hi; cbn; rewrite ?andb_true_r; try reflexivity; destruct (negb (gt64 T f)); reflexivity. Qed.
Lemma lt_zero T : finite T -> 0 <= value T -> lt64 T zero64 = false.
Proof. intros F H. unfold lt64. rewrite (Bcompare_correct 53 1024 T zero64 F eq_refl). fold (value T) (value zero64). rewrite zero_value. destruct (Rcompare_spec (value T) 0); auto; lra. Qed.
Lemma ordinary_pos T : ordinary T -> finite T /\ 0 < value T.
Proof. intros [F R]. pose proof (ip2 200). split; auto. lra. Qed.
Lemma ordinary_ok T : ordinary T -> lt64 T zero64 = false.
Proof. intros O. apply ordinary_pos in O. apply lt_zero; [tauto|lra]. Qed.
Lemma kilo m a : (a <= 900)%nat -> finite m -> / 2 ^ a <= value m <= 2 ^ a -> exists k, pydiv64 m thousand64 = Ok k /\ finite k /\ within 1 (value k) (value m / 1000) /\ / 2 ^ (a + 11) <= value k <= 2 ^ (a + 11).
Proof.
  intros A F Rm. destruct thousand_val as [Ft Vt]. assert (RT : / 2 ^ 10 <= value thousand64 <= 2 ^ 10). { rewrite Vt. split; [|cbn; lra]. apply Rle_trans with (/ 2 ^ 0); [apply inv_pow_le; lia|rewrite pow_O, Rinv_1; lra]. }
  pose proof (div_range a 10 _ _ Rm RT) as R1. destruct (div_step (a + 10) m thousand64 ltac:(lia) F ltac:(lra) R1) as (F1 & W1 & E1). exists (div64 m thousand64). split; [exact E1|]. split; [exact F1|]. rewrite Vt in W1, R1. split; [exact W1|].
  pose proof (near_range (a + 10) 1 _ _ ltac:(lia) W1 R1) as N1. replace (S (a + 10)) with (a + 11)%nat in N1 by lia. exact N1.
Qed.
Theorem rho_T_ok mm P T : ordinary mm -> ordinary P -> ordinary T ->
  exists v, frho_T mm P [("T"%string, FNum T)] = Ok v /\ finite v /\ within 5 (value v) (value mm / 1000 * value P / Rgas / value T).
Proof.
  intros [Fm Rm] OP OT. unfold frho_T, fpositive. rewrite check_T, (ordinary_ok T OT). cbn [negb andb bind fnumber_of lookup String.eqb Ascii.eqb Bool.eqb].
  destruct (kilo mm 200 ltac:(lia) Fm Rm) as (k & -> & Fk & Wk & Rk). cbn [bind]. destruct (density_ok k P T Fk (wide_range 211 540 _ ltac:(lia) Rk) OP OT) as (v & -> & Fv & Wv). exists v. split; [reflexivity|]. split; [exact Fv|].
  pose proof (ip2 200). apply ordinary_pos in OP, OT. assert (G : 0 < Rgas) by (unfold Rgas; lra). change (200 + 11)%nat with 211%nat in Rk. pose proof (ip2 211).
  assert (Mm : 0 <= value mm / 1000) by (apply nn_div; lra).
  assert (kP : 0 <= value k * value P) by (apply Rmult_le_pos; lra). assert (mP : 0 <= value mm / 1000 * value P) by (apply Rmult_le_pos; lra).
  change 5%nat with (4 + 1)%nat. eapply within_trans; [exact Wv|]. apply within_div_same; [now apply nn_div|now apply nn_div|lra|]. apply within_div_same; auto. apply within_mul_same; auto; lra.
Qed.
Lemma check_TP T P : fcheck_state [("T"%string, fpositive); ("P"%string, fpositive)] [("T"%string, FNum T); ("P"%string, FNum P)] =
  if negb (lt64 T zero64) && negb (lt64 P zero64) then Ok tt else Err ValidationError.
Proof. unfold fcheck_state, frule_ok, fpositive. cbn. destruct (lt64 T zero64), (lt64 P zero64); reflexivity. Qed.
Lemma check_TPx T P x : fcheck_state [("T"%string, fpositive); ("P"%string, fpositive); ("x"%string, fdictionary)] [("T"%string, FNum T); ("P"%string, FNum P); ("x"%string, FDict x)] =
  if negb (lt64 T zero64) && negb (lt64 P zero64) then Ok tt else Err ValidationError.
Proof. unfold fcheck_state, frule_ok, fpositive, fdictionary. cbn. destruct (lt64 T zero64), (lt64 P zero64); reflexivity. Qed.
Theorem rho_TP_ok mm P T : ordinary mm -> ordinary P -> ordinary T ->
  exists v, frho_TP mm [("T"%string, FNum T); ("P"%string, FNum P)] = Ok v /\ finite v /\ within 5 (value v) (value mm / 1000 * value P / Rgas / value T).
Proof.
  intros OM OP OT. destruct (rho_T_ok mm P T OM OP OT) as (v & E & R). exists v. split; [|exact R]. rewrite <- E. unfold frho_TP, frho_T. rewrite check_TP. unfold fpositive. rewrite check_T, (ordinary_ok T OT), (ordinary_ok P OP). reflexivity.
Qed.
Theorem beta_ok T : ordinary T -> exists v, fbeta_T [("T"%string, FNum T)] = Ok v /\ finite v /\ within 1 (value v) (1 / value T).
Proof.
  intros OT. unfold fbeta_T, fpositive. rewrite check_T, (ordinary_ok T OT). cbn [negb andb bind fnumber_of lookup String.eqb Ascii.eqb Bool.eqb]. destruct OT as [F RT].
  assert (R1 : / 2 ^ 0 <= value one64 <= 2 ^ 0) by (rewrite one_value; cbn [pow]; lra). pose proof (div_range 0 200 _ _ R1 RT) as R. pose proof (ip2 200).
  destruct (div_step 200 one64 T ltac:(lia) one_finite ltac:(lra) R) as (Fd & Wd & Ed). rewrite Ed. eexists. split; [reflexivity|]. rewrite one_value in Wd. auto.
Qed.
(** ** Mixtures *)
Lemma avg_fold d : forall ns acc, mapM (fun kv => do n <- fmass (fst kv) (snd kv); Ok (fst kv, n)) d = Ok ns ->
  foldM (fun a (cx : string * float64) => do m <- fmolar_mass (Some (fst cx)); Ok (add64 a (mul64 (snd cx) m))) d acc = Ok (fold_left add64 (map snd ns) acc).
Proof.
  induction d as [|[k x] d IH]; intros ns acc E; cbn [mapM foldM fst snd] in *; [injection E as <-; reflexivity|].
  unfold fmass in E at 1. destruct (fmolar_mass (Some k)) as [m|e]; cbn [bind] in *; [|discriminate]. destruct (mapM _ d) as [ns'|e] eqn:E2; cbn [bind] in E; [|discriminate]. injection E as <-. cbn [map snd fold_left]. now apply IH.
Qed.
Lemma ranged_sum a l : Forall (ranged a) l -> 0 <= exact_sum l <= INR (List.length l) * 2 ^ a /\ ((exists x, In x l /\ value x <> 0) -> / 2 ^ a <= exact_sum l).
Proof.
  induction 1 as [|x l R H IH]; [cbn; split; [lra|intros (y & [] & _)]|]. rewrite sum_cons. cbn [List.length]. rewrite S_INR. destruct IH as [B L]. pose proof (ranged_nonneg _ _ R) as P. destruct R as [F R]. pose proof (p2 a). pose proof (ip2 a).
  assert (value x <= 2 ^ a) by (destruct R as [->|[_ R]]; lra). split; [lra|]. intros (y & [<-|I] & N); [destruct R as [R|R]; [contradiction|lra]|]. assert (/ 2 ^ a <= exact_sum l) by (apply L; eauto). lra.
Qed.
Theorem rho_TPx_ok K x fs P T : compounds K x fs -> INR (List.length x) <= 2 ^ 50 -> (exists kv, In kv x /\ value (snd kv) <> 0) -> ordinary P -> ordinary T ->
  exists v, frho_TPx [("T"%string, FNum T); ("P"%string, FNum P); ("x"%string, FDict x)] = Ok v /\ finite v /\
    within (List.length x + K + 7) (value v) (Rtotal (each Rmult x fs) / 1000 * value P / Rgas / value T).
Proof.
  intros C N X OP OT. unfold frho_TPx. rewrite check_TPx, (ordinary_ok T OT), (ordinary_ok P OP). cbn [negb andb bind fnumber_of fdict_of lookup String.eqb Ascii.eqb Bool.eqb].
  destruct (entries fmass Rmult ltac:(intros; apply Rmult_le_pos; lra) mass_entry K x fs C) as (ns & E & Kn & R & W2 & Ws & Nn & Z). unfold faverage. rewrite (avg_fold _ _ zero64 E). cbn [bind].
  change (fold_left add64 (map snd ns) zero64) with (sum64 (map snd ns)). set (l := map snd ns) in *. assert (Ll : List.length l = List.length x) by (unfold l; rewrite map_length, <- (map_length fst ns), Kn, map_length; reflexivity).
  assert (RL : Forall (ranged 473) l). { unfold l. rewrite Forall_map. exact R. } destruct (ranged_sum 473 l RL) as [B L]. rewrite Ll in B.
  assert (L2 : / 2 ^ 473 <= exact_sum l). { apply L. destruct (Z X) as (kv & I & V). exists (snd kv). split; [now apply in_map|exact V]. }
  assert (B2 : exact_sum l <= 2 ^ 523). { apply Rle_trans with (2 ^ 50 * 2 ^ 473); [|rewrite <- pow_add; apply Rle_pow; [lra|lia]]. eapply Rle_trans; [apply (proj2 B)|]. apply Rmult_le_compat_r; [left; apply p2|exact N]. }
  destruct (sum_within l) as (Fs & Wsum & Ps). { eapply Forall_impl; [|exact RL]. intros a Ra. split; [apply Ra|eapply ranged_nonneg, Ra]. } { now rewrite Ll. } { eapply Rle_trans; [exact B2|]. apply two_pow_le. lia. }
  assert (Wl : within (List.length x) (value (sum64 l)) (exact_sum l)) by (apply (within_mono (Nat.pred (List.length l))); auto; [lia|apply B]).
  assert (RS : / 2 ^ 524 <= value (sum64 l) <= 2 ^ 524).
  { assert (G := g_small _ N). assert (G1 := gp (List.length x)). destruct Wl as [Wa Wb]. fold g1 in Wa, Wb. pose proof (ip2 473). set (y := value (sum64 l)) in *. set (g := g1 ^ List.length x) in *.
    assert (exact_sum l <= 2 * y) by nra. assert (y <= 2 * exact_sum l) by nra. split.
    - apply Rle_trans with (/ 2 ^ 474); [apply inv_pow_le; lia|]. change (/ 2 ^ 474) with (/ (2 * 2 ^ 473)). rewrite Rinv_mult. lra.
    - change (2 ^ 524) with (2 * 2 ^ 523). lra. }
  destruct (kilo (sum64 l) 524 ltac:(lia) Fs RS) as (k & -> & Fk & Wk & Rk). cbn [bind]. destruct (density_ok k P T Fk (wide_range 535 540 _ ltac:(lia) Rk) OP OT) as (v & -> & Fv & Wv). exists v. split; [reflexivity|]. split; [exact Fv|].
  apply ordinary_pos in OP, OT. assert (G : 0 < Rgas) by (unfold Rgas; lra). pose proof (ip2 524). pose proof (ip2 473). change (524 + 11)%nat with 535%nat in Rk. pose proof (ip2 535).
  assert (Tp : 0 < Rtotal (each Rmult x fs)) by (eapply within_pos; [|apply within_sym, Ws]; lra). set (M := Rtotal (each Rmult x fs)) in *.
  assert (W3 : within (List.length x + (K + 2)) (value (sum64 l)) M) by (eapply within_trans; [exact Wl|exact Ws]).
  assert (Mm : 0 <= M / 1000) by (apply nn_div; lra). assert (Sm : 0 <= value (sum64 l) / 1000) by (apply nn_div; lra). assert (MP : 0 <= M / 1000 * value P) by (apply Rmult_le_pos; lra). assert (kP : 0 <= value k * value P) by (apply Rmult_le_pos; lra).
  replace (List.length x + K + 7)%nat with (4 + (1 + (List.length x + (K + 2))))%nat by lia. eapply within_trans; [exact Wv|].
  apply within_div_same; [now apply nn_div|now apply nn_div|lra|]. apply within_div_same; auto. apply within_mul_same; auto; [lra|lra|]. eapply within_trans; [exact Wk|]. apply within_div_same; auto; lra.
Qed.
(** ** What is refused, and what is not *)
Definition Tstate (T : float64) : fstate := [("T"%string, FNum T)].
Theorem refused_negative cs hi mm P T : lt64 T zero64 = true ->
  fpoly_calculate (mkfpoly cs zero64 hi) (Tstate T) = Err ValidationError /\ fbeta_T (Tstate T) = Err ValidationError /\ frho_T mm P (Tstate T) = Err ValidationError.
Proof. intros L. unfold Tstate, fpoly_calculate, fbeta_T, frho_T, fpositive. cbn [fp_min fp_max]. rewrite !check_T, L. auto. Qed.
Theorem absolute_zero mm P T : finite T -> value T = 0 -> fbeta_T (Tstate T) = Err ZeroDivisionError /\ frho_T mm P (Tstate T) = Err ZeroDivisionError /\
  frho_TP mm [("T"%string, FNum T); ("P"%string, FNum zero64)] = Err ZeroDivisionError.
Proof.
  intros F Z. assert (L : lt64 T zero64 = false) by (apply lt_zero; auto; lra). assert (I : is_zero64 T = true) by now apply zero_is_zero. destruct thousand_val as [_ VT]. destruct R64_ok as (_ & _ & BR).
  assert (N1 : is_zero64 thousand64 = false) by (apply not_zero; lra). assert (N2 : is_zero64 R64 = false) by (apply not_zero; lra).
  unfold Tstate, fbeta_T, frho_T, frho_TP, ideal_density. rewrite check_TP. unfold fpositive. rewrite !check_T, L. change (lt64 zero64 zero64) with false. cbn [negb andb bind fnumber_of lookup String.eqb Ascii.eqb Bool.eqb].
  unfold pydiv64. rewrite N1. cbn [bind]. rewrite N2. cbn [bind]. rewrite I. auto.
Qed.
Lemma mul_nan x : mul64 x B754_nan = B754_nan. Proof. destruct x; reflexivity. Qed.
Lemma add_nan x : add64 B754_nan x = B754_nan. Proof. destruct x; reflexivity. Qed.
Lemma polyval_nan cs : cs <> [] -> polyval64 cs B754_nan = B754_nan.
Proof.
  intros N. unfold polyval64. assert (A : forall l, fold_left (fun y c => add64 (mul64 y B754_nan) c) l B754_nan = B754_nan) by (induction l as [|c l IH]; cbn [fold_left]; [reflexivity|]; rewrite mul_nan, add_nan; exact IH).
  destruct cs as [|c l]; [congruence|]. cbn [fold_left]. rewrite mul_nan, add_nan. apply A.
Qed.
Theorem nan_accepted cs lo hi : cs <> [] ->
  fpoly_calculate (mkfpoly cs lo hi) (Tstate B754_nan) = Ok B754_nan /\ fbeta_T (Tstate B754_nan) = Ok B754_nan.
Proof.
  intros N. split.
  - unfold fpoly_calculate. cbn [fp_min fp_max fp_coeffs]. assert (C : fcheck_state [("T"%string, mkffield false (Some lo) hi)] (Tstate B754_nan) = Ok tt).
    { unfold fcheck_state, Tstate, frule_ok. cbn. destruct hi as [h|]; destruct lo; try destruct h; reflexivity. }
    rewrite C. cbn [bind Tstate fnumber_of lookup String.eqb Ascii.eqb Bool.eqb]. now rewrite (polyval_nan cs N).
  - unfold fbeta_T, fcheck_state, Tstate, frule_ok. cbn. reflexivity.
Qed.
(** The states that a polynomial model takes. *)
Lemma lt_spec x y : finite x -> finite y -> lt64 x y = false <-> value y <= value x.
Proof. intros Fx Fy. unfold lt64. rewrite (Bcompare_correct 53 1024 x y Fx Fy). fold (value x) (value y). destruct (Rcompare_spec (value x) (value y)); split; intros; try reflexivity; try discriminate; lra. Qed.
Theorem poly_accepts cs lo hi st v : NoDup (map fst st) ->
  fpoly_calculate (mkfpoly cs lo (Some hi)) st = Ok v <-> exists T, st = Tstate T /\ lt64 T lo = false /\ gt64 T hi = false /\ v = polyval64 cs T.
Proof.
  intros D. split.
  - intros H. unfold fpoly_calculate in H. cbn [fp_min fp_max fp_coeffs] in H. unfold fcheck_state in H. cbn [forallb fst snd] in H.
    destruct (lookup "T" st) as [w|] eqn:L; [|cbn in H; discriminate]. rewrite andb_true_r in H. destruct (frule_ok _ w) eqn:Fr; [|cbn in H; discriminate]. cbn [andb] in H.
    destruct (forallb _ st) eqn:A; [|cbn in H; discriminate]. cbn [bind] in H. unfold fnumber_of in H. rewrite L in H. destruct w as [T|d|]; [|cbn in Fr; discriminate|cbn in Fr; discriminate]. cbn [bind] in H. injection H as <-. exists T.
    cbn in Fr. apply andb_prop in Fr as [F1 F2]. apply negb_true_iff in F1, F2. split; [|auto].
    assert (K : forall kv, In kv st -> fst kv = "T"%string). { intros kv I. assert (B := proj1 (forallb_forall _ _) A _ I). cbv beta in B. cbn [map fst] in B. unfold member in B. destruct (in_dec string_dec (fst kv) ["T"%string]) as [[e|[]]|]; [now symmetry|discriminate]. }
    destruct st as [|[k w] st]; [cbn in L; congruence|]. assert (k = "T"%string) by (apply (K (k, w)); now left). subst k. destruct st as [|[k' w'] st].
    + cbn in L. injection L as ->. reflexivity.
    + exfalso. assert (k' = "T"%string) by (apply (K (k', w')); right; now left). subst k'. cbn in D. inversion D as [|? ? N _]; subst. apply N. now left.
  - intros (T & -> & L1 & L2 & ->). unfold fpoly_calculate. cbn [fp_min fp_max fp_coeffs]. unfold fcheck_state, Tstate, frule_ok. cbn. rewrite L1, L2. reflexivity.
Qed.
