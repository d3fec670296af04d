From Coq Require Import Qabs Qreals.
From Verif Require Import Prelude M_Elements M_Stoichiometry Spec_Stoich P_Stoich P_Count P_Convert M_Ieee Spec_Ieee M_FloatMix M_FloatLoan M_FloatStoich Spec_FloatStoich P_Ieee P_FloatReports P_FloatReports2 P_FloatMix P_FloatLoan P_FloatLoan2 P_Within P_FloatStoich.
From Coq Require Import Reals List Lra Lia ZArith.
From Flocq Require Import Core BinarySingleNaN.
Import ListNotations.
Local Open Scope list_scope.
Local Open Scope R_scope.

(** * The literals of the table *)
Definition literal_ok (e : element) : bool := ((0 <? Qnum (el_mass_q e)) && (Qnum (el_mass_q e) <=? 2 ^ 53) && (Zpos (Qden (el_mass_q e)) <=? 2 ^ 53) && (Zpos (Qden (el_mass_q e)) <=? Qnum (el_mass_q e)) && (Qnum (el_mass_q e) <=? 512 * Zpos (Qden (el_mass_q e))))%Z.
Lemma table_literals : forallb literal_ok element_dictionary = true. Proof. vm_compute. reflexivity. Qed.
Lemma table_size : (length element_dictionary <= 200)%nat. Proof. vm_compute. lia. Qed.
Lemma two_pow_le a b : (a <= b)%nat -> 2 ^ a <= 2 ^ b. Proof. intros H. apply Rle_pow; [lra|exact H]. Qed.
Lemma inv_pow_le a b : (a <= b)%nat -> / 2 ^ b <= / 2 ^ a. Proof. intros H. apply Rinv_le_contravar; [apply pow_lt; lra|now apply two_pow_le]. Qed.
Lemma pow_zpow n : 2 ^ n = IZR (2 ^ Z.of_nat n). Proof. rewrite <- bpow_nat, <- IZR_Zpower by lia. reflexivity. Qed.
Lemma el_mass_ok e : In e element_dictionary -> finite (el_mass64 e) /\ value (el_mass64 e) = rnd (Q2R (el_mass e)) /\ within 1 (value (el_mass64 e)) (Q2R (el_mass e)) /\ 1 <= value (el_mass64 e) <= 512 /\ 1 <= Q2R (el_mass e) <= 512.
Proof.
  intros I. pose proof table_literals as T. rewrite forallb_forall in T. apply T in I. clear T. unfold literal_ok in I. rewrite !andb_true_iff, !Z.leb_le, Z.ltb_lt in I.
  destruct I as [[[[I0 I1] I2] I3] I4]. set (q := el_mass_q e) in *.
  assert (Eq : Q2R (el_mass e) = IZR (Qnum q) / IZR (Zpos (Qden q))) by (change (Q2R (Qred q) = IZR (Qnum q) / IZR (Zpos (Qden q))); rewrite (Qeq_eqR _ _ (Qred_correct q)); reflexivity).
  destruct (normal_whole (Qnum q) ltac:(lia)) as [Fn Vn]. destruct (normal_whole (Zpos (Qden q)) ltac:(lia)) as [Fd Vd].
  assert (D : 0 < IZR (Zpos (Qden q))) by (apply IZR_lt; lia).
  assert (R : 1 <= Q2R (el_mass e) <= 512).
  { rewrite Eq. split; apply (Rmult_le_reg_r (IZR (Zpos (Qden q)))); auto; unfold Rdiv; rewrite Rmult_assoc, Rinv_l, Rmult_1_r by lra; [rewrite Rmult_1_l; apply IZR_le; lia|rewrite <- mult_IZR; apply IZR_le; lia]. }
  assert (Nd : value (binary_normalize 53 1024 _ _ mode_NE (Zpos (Qden q)) 0 false) <> 0) by (rewrite Vd; apply Rgt_not_eq; exact D).
  destruct (div_ok _ _ Fn Nd) as [F V].
  { rewrite Vn, Vd, <- Eq. apply rnd_small. rewrite Rabs_pos_eq by lra. apply Rle_trans with (2 ^ 9); [replace (2 ^ 9) with 512 by (cbn; ring); lra|apply two_pow_le; lia]. }
  change (div64 _ _) with (el_mass64 e) in F, V. rewrite Vn, Vd, <- Eq in V. split; auto. split; auto. split; [|split; auto].
  - rewrite V. apply rnd_within1. apply Rle_trans with (/ 2 ^ 0); [apply inv_pow_le; lia|rewrite pow_O, Rinv_1; lra].
  - rewrite V. split.
    + rewrite <- rnd_1. now apply rnd_le.
    + rewrite <- (whole_fmt 512) by lia. now apply rnd_le.
Qed.

(** * One term *)
Lemma term_ok e x z : In e element_dictionary -> finite x -> value x = IZR z -> (0 <= z <= 2 ^ 53)%Z -> let t := mul64 (el_mass64 e) x in
  finite t /\ value t = rnd (value (el_mass64 e) * IZR z) /\ within 2 (value t) (Q2R (el_mass e) * IZR z) /\ 0 <= value t <= 2 ^ 62.
Proof.
  intros I Fx Vx Z t. destruct (el_mass_ok e I) as (Fe & Ve & We & Be & Bq). set (M := value (el_mass64 e)) in *.
  assert (Z0 : 0 <= IZR z) by (apply IZR_le; lia). assert (Z1 : IZR z <= 2 ^ 53) by (rewrite pow_zpow; apply IZR_le; lia).
  assert (P : M * IZR z <= 2 ^ 62) by (replace (2 ^ 62) with (512 * 2 ^ 53) by (cbn; ring); apply Rmult_le_compat; lra).
  assert (P0 : 0 <= M * IZR z) by (apply Rmult_le_pos; lra).
  destruct (P_FloatMix.mul_ok (el_mass64 e) x Fe Fx) as [F V].
  { rewrite Vx. fold M. apply rnd_small. rewrite Rabs_pos_eq by lra. eapply Rle_trans; [exact P|]. apply two_pow_le. lia. }
  fold t in F, V. rewrite Vx in V. fold M in V. split; auto. split; auto. split.
  - destruct (Z.eq_dec z 0) as [->|N].
    + rewrite V. rewrite !Rmult_0_r, rnd_0. apply within_refl. lra.
    + assert (1 <= IZR z) by (apply IZR_le; lia). rewrite V. change 2%nat with (1 + 1)%nat. eapply within_trans; [apply rnd_within1; apply Rle_trans with (/ 2 ^ 0); [apply inv_pow_le; lia|rewrite pow_O, Rinv_1; nra]|].
      replace 1%nat with (1 + 0)%nat at 1 by reflexivity. apply within_mul; auto; try lra. now apply within_refl.
  - rewrite V. split; [now apply rnd_pos|]. replace (2 ^ 62) with (IZR (2 ^ 53) * 512) by (rewrite (pow_zpow 62), <- mult_IZR; f_equal).
    replace (IZR (2 ^ 53) * 512) with (rnd (IZR (2 ^ 53) * 512)).
    + apply rnd_le. replace (IZR (2 ^ 53) * 512) with (2 ^ 62); auto. rewrite (pow_zpow 62), <- mult_IZR. f_equal.
    + apply round_generic; [apply valid_rnd_N|]. replace (IZR (2 ^ 53) * 512) with (IZR (2 ^ 53) * bpow radix2 9) by (cbn; ring). apply multiple_format; lia.
Qed.

(** * A sum is at least each of its terms *)
Lemma fold_finite l : forall acc, finite (fold_left add64 l acc) -> finite acc /\ Forall finite l.
Proof.
  induction l as [|x l IH]; intros acc F; cbn [fold_left] in F; [auto|]. destruct (IH _ F) as [F1 F2]. destruct (add_finite _ _ F1) as (Fa & Fx & _). auto.
Qed.
Lemma fold_ge l : forall acc, finite (fold_left add64 l acc) -> 0 <= value acc -> Forall (fun x => 0 <= value x) l ->
  value acc <= value (fold_left add64 l acc) /\ Forall (fun x => value x <= value (fold_left add64 l acc)) l.
Proof.
  induction l as [|x l IH]; intros acc F P A; cbn [fold_left] in *; [split; [lra|constructor]|]. apply Forall_cons_iff in A as [Px A].
  destruct (fold_finite _ _ F) as [Fa _]. destruct (add_finite _ _ Fa) as (F1 & F2 & V).
  assert (G1 : value acc <= value (add64 acc x)) by (rewrite V, <- (rnd_fix acc) at 1; apply rnd_le; lra).
  assert (G2 : value x <= value (add64 acc x)) by (rewrite V, <- (rnd_fix x) at 1; apply rnd_le; lra).
  destruct (IH (add64 acc x) F ltac:(lra) A) as [H1 H2]. split; [lra|]. constructor; [lra|exact H2].
Qed.

(** * Molar masses *)
Lemma Q2R_mult_c (a b : Qc) : Q2R (a * b)%Qc = Q2R a * Q2R b.
Proof. unfold Qcmult. cbn [this Q2Qc]. rewrite (Qeq_eqR _ _ (Qred_correct _)). apply Q2R_mult. Qed.
Lemma Q2R_qZ z : Q2R (q_of_Z z) = IZR z.
Proof. unfold q_of_Z. cbn [this Q2Qc]. rewrite (Qeq_eqR _ _ (Qred_correct _)). unfold Q2R, inject_Z. cbn [Qnum Qden]. field. Qed.
Definition terms (fd : fcounts) : res (list float64) :=
  mapM (fun kv : string * float64 => match find_element (fst kv) with Some e => Ok (mul64 (el_mass64 e) (snd kv)) | None => Err KeyError end) fd.
Lemma terms_ok fd d : cnt fd d -> (forall k, In k (map fst d) -> in_table k) ->
  exists l, terms fd = Ok l /\ length l = length d /\ Forall (fun x => finite x /\ 0 <= value x) l /\ exact_sum l <= INR (length d) * 2 ^ 62 /\ within 2 (exact_sum l) (Q2R (lin mass_of d)) /\
    (forall k e, find_element k = Some e -> In k (map fst d) -> exists t, In t l /\ value t = rnd (value (el_mass64 e) * value (fget_count k fd))).
Proof.
  induction 1 as [|[k x] [k' v] fd d [E V] C IH]; intros K.
  - exists []. split; [reflexivity|]. split; auto. split; [constructor|]. split; [cbn; lra|]. split; [|intros k e _ []]. change (lin mass_of []) with 0%Qc. rewrite Q2R_0_c. apply within_refl. cbn. lra.
  - cbn [fst snd] in E, V. subst k'. cbn [map fst In] in K. destruct IH as (l & T & L & A & S & W & G). { intros j J. apply K. auto. }
    destruct (proj1 (find_element_in_table k) (K k (or_introl eq_refl))) as [e He]. assert (Ie : In e element_dictionary) by now apply find_element_some in He.
    unfold terms in *. cbn [mapM fst snd]. rewrite He. cbn [bind]. rewrite T. cbn [bind]. eexists. split; [reflexivity|].
    destruct V as (z & Z & -> & Fx & Vx). destruct (term_ok e x z Ie Fx Vx Z) as (Ft & Vt & Wt & Bt). rewrite sum_cons. cbn [length]. rewrite S_INR. split; [lia|]. split; [constructor; auto; split; auto; lra|].
    split; [lra|]. split.
    + rewrite lin_cons, Q2R_plus_c, Q2R_mult_c, Q2R_qZ. unfold mass_of at 1. rewrite He. now apply within_plus.
    + intros j f Hf J. cbn [map fst In] in J. cbn [fget_count]. destruct (String.eqb_spec j k) as [->|N].
      * rewrite He in Hf. injection Hf as <-. exists (mul64 (el_mass64 e) x). split; [now left|]. now rewrite Vx.
      * destruct J as [J|J]; [congruence|]. destruct (G j f Hf J) as (t & It & Vj). exists t. split; [now right|exact Vj].
Qed.
Lemma fget_absent k fd d : cnt fd d -> ~ In k (map fst d) -> fget_count k fd = zero64.
Proof. induction 1 as [|[i a] [j v] fd d [E _] _ IH]; intros N; cbn [fget_count]; auto. cbn in E, N. subst j. destruct (String.eqb_spec k i); [subst; tauto|apply IH; tauto]. Qed.
Lemma item_symbols_some : (forall t i, gen_item t i -> item_symbols i <> []) /\ (forall t g, gen_group t g -> flat_map item_symbols g <> []).
Proof.
  apply (gen_mut (fun t i _ => item_symbols i <> []) (fun t g _ => flat_map item_symbols g <> [])); cbn [item_symbols flat_map]; try discriminate; auto.
  - intros t i H IH E. apply IH. now rewrite app_nil_r in E.
  - intros t i u g H IH H' IH' E. apply app_eq_nil in E as [E _]. auto.
Qed.
Lemma symbols_some s f : written s f -> symbols f <> [].
Proof. intros (l & t & r & _ & _ & _ & (a & b & c & _ & G & _)) E. unfold symbols in E. apply app_eq_nil in E as [E _]. exact (proj2 item_symbols_some _ _ G E). Qed.
Lemma kinds_pos s f : written s f -> (1 <= kinds f)%nat.
Proof.
  intros W. apply symbols_some in W. unfold kinds. destruct (symbols f) as [|x l]; [congruence|]. destruct (nodup string_dec (x :: l)) as [|y m] eqn:E; cbn [length]; [|lia].
  exfalso. assert (I : In x (nodup string_dec (x :: l))) by (apply nodup_In; now left). rewrite E in I. destruct I.
Qed.
Lemma keys_kinds c f : compound_syms c = symbols f -> length (compound_count c) = kinds f /\ (forall k, In k (map fst (compound_count c)) <-> In k (symbols f)).
Proof.
  intros S. assert (K : forall k, In k (map fst (compound_count c)) <-> In k (symbols f)).
  { intros k. unfold compound_count. rewrite keys_part. cbn [part_syms]. change (flat_map part_syms (c_group c)) with (compound_syms c). rewrite S. reflexivity. }
  split; auto. rewrite <- (map_length fst). unfold kinds. apply Nat.le_antisymm; apply NoDup_incl_length; try apply NoDup_nodup; try apply nodup_part.
  - intros k I. apply nodup_In, K, I.
  - intros k I. apply K. now apply nodup_In in I.
Qed.
Lemma kinds_small s f : proper s f -> (kinds f <= 200)%nat.
Proof.
  intros [_ K]. eapply Nat.le_trans; [|apply table_size]. rewrite <- (map_length el_symbol). apply NoDup_incl_length; [apply NoDup_nodup|]. intros k I. apply nodup_In, K in I as (e & I & <-). now apply in_map.
Qed.
Lemma fmolar_unfold s : text_of s <> [] -> fmolar_mass (Some s) = do p <- parse_compound (strip (text_of s)); fcompound_molar_mass p.
Proof. unfold fmolar_mass. destruct (text_of s); [congruence|reflexivity]. Qed.
Lemma weight_R s f : proper s f -> forall c, (forall w, lin w (compound_count c) = formula_lin w f) -> Q2R (lin mass_of (compound_count c)) = Q2R (weight (fun el => atoms el f)).
Proof. intros [_ K] c L. now rewrite L, weight_formula. Qed.

Theorem molar_ok s f : proper s f -> fits f -> exists x, fmolar_mass (Some s) = Ok x /\ finite x /\ within (kinds f + 1) (value x) (Q2R (weight (fun el => atoms el f))) /\
  0 <= value x <= 2 ^ 72 /\
  (forall el e c, find_element el = Some e -> fcoefficient s el = Ok c -> rnd (value (el_mass64 e) * value c) <= value x) /\
  (forall el e c, find_element el = Some e -> fcoefficient s el = Ok c -> nodup string_dec (symbols f) = [el] -> value x = rnd (value (el_mass64 e) * value c)).
Proof.
  intros P T. destruct (counts_ok s f P T) as (c & fd & E & F & C & L & S). assert (W := P). destruct W as [W Kn].
  rewrite fmolar_unfold by (eapply written_nonempty, W). unfold fcoefficient. rewrite E. cbn [bind]. unfold fcompound_molar_mass. rewrite F. cbn [bind].
  destruct (keys_kinds c f S) as [KL KS]. assert (KI : forall k, In k (map fst (compound_count c)) -> in_table k) by (intros k I; apply Kn, KS, I).
  destruct (terms_ok fd _ C KI) as (l & Tl & Ll & A & B & Wl & G). unfold terms in Tl. rewrite Tl. cbn [bind]. exists (sum64 l). split; auto.
  pose proof (kinds_small s f P) as KB. pose proof (kinds_pos s f W) as K1. rewrite KL in *.
  assert (KR : INR (kinds f) <= 200) by (apply le_INR in KB; replace (INR 200) with 200 in KB by (rewrite INR_IZR_INZ; reflexivity); exact KB).
  assert (B' : exact_sum l <= 2 ^ 70). { eapply Rle_trans; [exact B|]. replace (2 ^ 70) with (256 * 2 ^ 62) by (cbn; ring). apply Rmult_le_compat_r; [apply pow_le; lra|lra]. }
  destruct (sum_within l A) as (Fs & Ws & Ps).
  { rewrite Ll. apply Rle_trans with (2 ^ 8); [cbn; lra|apply two_pow_le; lia]. }
  { eapply Rle_trans; [exact B'|apply two_pow_le; lia]. }
  rewrite Ll in Ws. split; auto. split; [|split; [split; [exact Ps|]|split]].
  - rewrite <- (weight_R s f P c L). replace (kinds f + 1)%nat with (Nat.pred (kinds f) + 2)%nat by lia. eapply within_trans; [exact Ws|exact Wl].
  - destruct Ws as [Ws _]. fold g1 in Ws. assert (g1 ^ Nat.pred (kinds f) <= 2). { apply g_small. apply Rle_trans with (INR 200); [apply le_INR; lia|]. replace (INR 200) with 200 by (rewrite INR_IZR_INZ; reflexivity). apply Rle_trans with (2 ^ 8); [cbn; lra|apply two_pow_le; lia]. }
    eapply Rle_trans; [exact Ws|]. pose proof (gp (Nat.pred (kinds f))). apply Rle_trans with (2 ^ 70 * 2). { apply Rmult_le_compat; try lra. clear -A. induction A as [|x l [_ X] _ IH]; [cbn; lra|rewrite sum_cons; lra]. }
    replace (2 ^ 72) with (4 * 2 ^ 70) by (cbn; ring). assert (0 < 2 ^ 70) by (apply pow_lt; lra). lra.
  - intros el e y He Hy. injection Hy as <-. destruct (in_dec string_dec el (map fst (compound_count c))) as [I|N].
    + destruct (G el e He I) as (t & It & <-). unfold sum64 in *. destruct (fold_ge l zero64 Fs) as [_ H]; [change (value zero64) with 0; lra|eapply Forall_impl; [|exact A]; intros a Ha; apply Ha|]. rewrite Forall_forall in H. auto.
    + rewrite (fget_absent _ _ _ C N). change (value zero64) with 0. rewrite Rmult_0_r, rnd_0. exact Ps.
  - intros el e y He Hy H1. injection Hy as <-. assert (I : In el (map fst (compound_count c))) by (apply KS, (nodup_In string_dec); rewrite H1; now left).
    destruct (G el e He I) as (t & It & <-). unfold kinds in Ll. rewrite H1 in Ll. cbn [length] in Ll. destruct l as [|a [|b l]]; try discriminate. destruct It as [->|[]]. unfold sum64. cbn [fold_left].
    apply Forall_cons_iff in A as [[Fa _] _]. now apply add_zero_l.
Qed.
