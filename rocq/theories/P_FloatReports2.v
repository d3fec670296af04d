From Verif Require Import Prelude M_Dates M_Accounts M_Ledger Spec_Ledger P_Ledger P_Reports M_Ieee Spec_Ieee P_Ieee M_FloatReports Spec_FloatReports P_FloatReports.
From Coq Require Import Reals Qreals List Permutation Lra Lia ZArith.
From Flocq Require Import Core BinarySingleNaN.
Import ListNotations.
Local Open Scope R_scope.

(** * Small bounds *)
Lemma gamma_inv k : (1 + gamma k) * (1 - INR k * ulp_half) <= 1.
Proof.
  unfold gamma. replace (1 + ((1 + ulp_half) ^ k - 1)) with ((1 + ulp_half) ^ k) by ring. pose proof ulp_half_pos as U.
  induction k as [|k IH]; [cbn; lra|]. rewrite S_INR. cbn [pow].
  assert (P : 0 < (1 + ulp_half) ^ k) by (apply pow_lt; lra). pose proof (pos_INR k) as K. pose proof (Rmult_lt_0_compat _ _ U U) as UU. pose proof (Rmult_le_pos _ _ K (Rlt_le _ _ UU)) as KUU.
  replace ((1 + ulp_half) * (1 + ulp_half) ^ k * (1 - (INR k + 1) * ulp_half))
    with ((1 + ulp_half) ^ k * (1 - INR k * ulp_half) - (1 + ulp_half) ^ k * (INR k * (ulp_half * ulp_half) + ulp_half * ulp_half)) by ring.
  assert (0 <= (1 + ulp_half) ^ k * (INR k * (ulp_half * ulp_half) + ulp_half * ulp_half)) by (apply Rmult_le_pos; lra). lra.
Qed.
Theorem gamma_small k : INR k <= 2 ^ 52 -> gamma k <= 2 * INR k * ulp_half.
Proof.
  intros H. pose proof ulp_half_pos as U. pose proof (pos_INR k) as K.
  assert (B : INR k * ulp_half <= / 2).
  { apply Rle_trans with (2 ^ 52 * ulp_half); [apply Rmult_le_compat_r; lra|]. unfold ulp_half. right. replace (2 ^ 53) with (2 * 2 ^ 52) by (cbn; ring). rewrite Rinv_mult.
    assert (2 ^ 52 <> 0) by (apply pow_nonzero; lra). field; auto. }
  pose proof (gamma_inv k) as G. pose proof (gamma_pos k) as P. set (t := INR k * ulp_half) in *. assert (0 <= t) by (apply Rmult_le_pos; lra).
  replace (2 * INR k * ulp_half) with (2 * t) by (unfold t; ring).
  destruct (Rle_lt_dec (gamma k) (2 * t)) as [|C]; auto. exfalso.
  assert (X : (1 + gamma k) * (1 - t) > (1 + 2 * t) * (1 - t)) by (apply Rmult_lt_compat_r; lra).
  assert (Y : (1 + 2 * t) * (1 - t) = 1 + t - 2 * (t * t)) by ring. assert (Z : t * t <= t * / 2) by (apply Rmult_le_compat_l; lra). lra.
Qed.

(** * Every finite float is a rational number *)
Definition qval (x : float64) : Qc :=
  match x with
  | B754_finite s m e _ => let k := cond_Zopp s (Zpos m) in if (e <? 0)%Z then Q2Qc (k # Z.to_pos (2 ^ (- e))) else Q2Qc (inject_Z (k * 2 ^ e))
  | _ => 0%Qc
  end.
Lemma qval_value x : finite x -> value x = Q2R (qval x).
Proof.
  unfold value, qval. destruct x as [s|s| |s m e H]; intros F; try discriminate; [cbn [B2R]; symmetry; apply Q2R_0_c|]. cbn [B2R]. cbv zeta. generalize (cond_Zopp s (Z.pos m)). intros k.
  destruct (Z.ltb_spec e 0) as [N|N]; unfold Q2Qc; cbn [this]; rewrite (Qeq_eqR _ _ (Qred_correct _)); unfold Q2R, F2R; cbn [Fnum Fexp Qnum Qden inject_Z].
  - rewrite Z2Pos.id by (apply Z.pow_pos_nonneg; lia). change (2 ^ (- e))%Z with (radix2 ^ (- e))%Z. rewrite IZR_Zpower by lia. rewrite <- bpow_opp, Z.opp_involutive. reflexivity.
  - rewrite mult_IZR. change (2 ^ e)%Z with (radix2 ^ e)%Z. rewrite IZR_Zpower by lia. field.
Qed.
Lemma float_rational x : finite x -> exists q : Qc, value x = Q2R q.
Proof. intros F. exists (qval x). now apply qval_value. Qed.

(** * Whole multiples add exactly and do not overflow *)
Definition mult (e : Z) (x : float64) : Prop := exists k : Z, value x = IZR k * bpow radix2 e.
Lemma mult_neg e x : mult e x -> mult e (neg64 x).
Proof. intros [k E]. exists (- k)%Z. rewrite neg_value, E, opp_IZR. ring. Qed.
Lemma mult_sum e l : (forall x, In x l -> mult e x) -> exists k, exact_sum l = IZR k * bpow radix2 e.
Proof.
  induction l as [|a l I]; intros Q; [exists 0%Z; cbn; ring|]. destruct (Q a (or_introl eq_refl)) as [k1 E1]. destruct I as [k2 E2]; [intros; apply Q; now right|].
  exists (k1 + k2)%Z. rewrite sum_cons, E1, E2, plus_IZR. ring.
Qed.
Lemma mult_format e r : (-1074 <= e)%Z -> (exists k, r = IZR k * bpow radix2 e) -> Rabs r <= bpow radix2 (53 + e) -> generic_format radix2 (FLT_exp (-1074) 53) r.
Proof.
  intros He [k ->] B. apply multiple_format; auto. rewrite Rabs_mult in B. rewrite (Rabs_pos_eq (bpow radix2 e)) in B by apply bpow_ge_0. rewrite bpow_plus in B.
  apply Rmult_le_reg_r in B; [|apply bpow_gt_0]. rewrite <- abs_IZR in B. change (bpow radix2 53) with (IZR (2 ^ 53)) in B. now apply le_IZR.
Qed.
Lemma add_exact e x y : (-1074 <= e <= 970)%Z -> finite x -> finite y -> (exists k, value x + value y = IZR k * bpow radix2 e) -> Rabs (value x + value y) <= bpow radix2 (53 + e) ->
  finite (add64 x y) /\ value (add64 x y) = value x + value y.
Proof.
  intros He Fx Fy K B. pose proof (Bplus_correct 53 1024 _ _ mode_NE x y Fx Fy) as C. fold (add64 x y) in C.
  assert (R : round radix2 fexp64 ZnearestE (value x + value y) = value x + value y).
  { apply round_generic; [apply valid_rnd_N|]. apply (mult_format e); auto. lia. }
  unfold value in R. change (round_mode mode_NE) with ZnearestE in C. rewrite R in C. rewrite Rlt_bool_true in C; [destruct C as (C1 & C2 & _); split; auto|].
  eapply Rle_lt_trans; [exact B|]. apply bpow_lt. lia.
Qed.
Lemma adds_exact_finite e l v : (-1074 <= e <= 970)%Z -> adds l v -> (forall x, In x l -> finite x /\ mult e x) -> exact_turnover l <= bpow radix2 (53 + e) ->
  finite v /\ value v = exact_sum l.
Proof.
  intros He H. induction H as [|x|l m x y Hl IHl Hm IHm|l m x P H IH]; intros K T.
  - split; reflexivity.
  - split; [apply K; now left|]. rewrite sum_cons. change (exact_sum []) with 0. ring.
  - rewrite turnover_app in T. pose proof (turnover_pos l). pose proof (turnover_pos m).
    destruct IHl as [Fx Ex]; [intros; apply K, in_or_app; auto|lra|]. destruct IHm as [Fy Ey]; [intros; apply K, in_or_app; auto|lra|].
    rewrite exact_sum_app, <- Ex, <- Ey. apply (add_exact e); auto; rewrite Ex, Ey, <- exact_sum_app.
    + apply mult_sum. intros; apply K; auto.
    + eapply Rle_trans; [apply sum_turnover|]. rewrite turnover_app. lra.
  - rewrite <- (exact_sum_perm _ _ P). apply IH; auto; [intros z Iz; apply K; eapply Permutation_in; eauto|]. rewrite (turnover_perm _ _ P). exact T.
Qed.
Lemma sub_exact e la lb x y : (-1074 <= e <= 970)%Z -> adds la x -> adds lb y -> (forall z, In z la -> finite z /\ mult e z) -> (forall z, In z lb -> finite z /\ mult e z) ->
  exact_turnover la + exact_turnover lb <= bpow radix2 (53 + e) -> finite (sub64 x y) /\ value (sub64 x y) = exact_sum la - exact_sum lb.
Proof.
  intros He Hx Hy Ka Kb T. pose proof (turnover_pos la). pose proof (turnover_pos lb). pose proof (sum_turnover la) as Sa. pose proof (sum_turnover lb) as Sb.
  destruct (adds_exact_finite e la x He Hx Ka) as [Fx Ex]; [lra|]. destruct (adds_exact_finite e lb y He Hy Kb) as [Fy Ey]; [lra|].
  rewrite sub_add. destruct (add_exact e x (neg64 y)) as [F E]; auto.
  - now apply neg_finite.
  - rewrite neg_value, Ex, Ey. destruct (mult_sum e la) as [k1 E1]; [intros; now apply Ka|]. destruct (mult_sum e lb) as [k2 E2]; [intros; now apply Kb|].
    exists (k1 - k2)%Z. rewrite E1, E2, minus_IZR. ring.
  - rewrite neg_value, Ex, Ey. eapply Rle_trans; [apply Rabs_triang|]. rewrite Rabs_Ropp. lra.
  - split; auto. rewrite E, neg_value, Ex, Ey. ring.
Qed.

Lemma parts_ok e g T ts d f p : Forall okp ts -> multiples e ts -> dict_rel g T (sides ts) d f p -> forall y, In y (flat p) -> finite y /\ mult e y.
Proof.
  intros F M (_ & _ & _ & _ & _ & P) y I. destruct (P y I) as (x & Ix & E).
  assert (X : finite x /\ mult e x).
  { apply in_map_iff in Ix. destruct Ix as ([o z] & <- & Is). unfold sides in Is. apply in_flat_map in Is. destruct Is as (p0 & Ip & Is).
    assert (z = snd p0) by (destruct Is as [Is|[Is|[]]]; congruence). subst z. cbn [snd]. split; [|now apply M]. pose proof (proj1 (Forall_forall _ _) F) as G. now apply G. }
  destruct E as [->| ->]; [exact X|]. destruct X. split; [now apply neg_finite|now apply mult_neg].
Qed.
Lemma flat_part k xs p : In (k, xs) p -> incl xs (flat p) /\ exact_turnover xs <= exact_turnover (flat p).
Proof.
  unfold flat. induction p as [|[k1 ys] p IH]; intros I; [contradiction|]. cbn [map snd concat]. rewrite turnover_app. pose proof (turnover_pos ys). pose proof (turnover_pos (concat (map snd p))). destruct I as [I|I].
  - injection I as -> ->. split; [intros z Iz; apply in_or_app; now left|lra].
  - destruct (IH I) as [A B]. split; [|lra]. intros z Iz. apply in_or_app. right. now apply A.
Qed.
Lemma lines_exact e d f p : (-1074 <= e <= 970)%Z -> exacts d p -> floats f p -> (forall y, In y (flat p) -> finite y /\ mult e y) -> exact_turnover (flat p) <= bpow radix2 (53 + e) ->
  Forall2 exact_line d f.
Proof.
  intros He A B K T. assert (G : forall k xs, In (k, xs) p -> (forall y, In y xs -> finite y /\ mult e y) /\ exact_turnover xs <= bpow radix2 (53 + e)).
  { intros k xs I. destruct (flat_part k xs p I) as [I1 I2]. split; [intros; apply K; now apply I1|lra]. }
  clear K T. revert d f A B. induction p as [|[k xs] p IH]; intros d f A B; inversion A as [|[k1 v] ? d' ? [E1 E2] A']; inversion B as [|[k2 w] ? f' ? [E3 E4] B']; subst; constructor.
  - cbn [fst snd] in *. subst. split; [reflexivity|]. cbn [snd fst] in *. destruct (G k xs (or_introl eq_refl)) as [G1 G2]. destruct (adds_exact_finite e xs w He E4 G1 G2). split; congruence.
  - apply IH; auto. intros k' xs' I. apply (G k'). now right.
Qed.

Lemma ok_filter (P : tx * float64 -> bool) l : Forall okp l -> Forall okp (filter P l).
Proof. intros F. apply Forall_forall. intros p I. apply filter_In in I. pose proof (proj1 (Forall_forall _ _) F) as G. now apply G. Qed.

Theorem balance_sheet_exact l fin e : faithful l -> let ts := fupto fin (fl_txs l) in
  (-1074 <= e <= 970)%Z -> multiples e ts -> 2 * exact_turnover (map snd ts) <= bpow radix2 (53 + e) ->
  agree (fun sh fs => Forall2 exact_line (sheet_assets sh) (fs_assets fs) /\ Forall2 exact_line (sheet_liab sh) (fs_liab fs) /\ Forall2 exact_line (sheet_equity sh) (fs_equity fs) /\
    exact_as (sheet_total_assets sh) (fs_total_assets fs) /\ exact_as (sheet_total_liab sh) (fs_total_liab fs) /\
    exact_as (sheet_total_equity sh) (fs_total_equity fs) /\ exact_as (sheet_total_le sh) (fs_total_le fs))
  (balance_sheet_report (exact_ledger l) fin) (float_balance_sheet l fin).
Proof.
  intros F ts He M TT. pose proof (sheet_rel l fin F) as R.
  destruct (balance_sheet_report _ _) as [sh|er]; destruct (float_balance_sheet _ _) as [fs|er']; cbn [agree] in *; auto.
  destruct R as (a & b & c & Ra & Rb & Rc & N & T & Aa & Ab & Ac & Abc & Ea & Eb & Ec & Ebc). fold ts in Ra, Rb, Rc, N, T.
  rewrite sides_turn in T. unfold turn3 in T. assert (Ft : Forall okp ts) by now apply ok_filter.
  pose proof (turnover_pos (flat a)). pose proof (turnover_pos (flat b)). pose proof (turnover_pos (flat c)).
  pose proof (parts_ok e _ _ _ _ _ _ Ft M Ra) as Ka. pose proof (parts_ok e _ _ _ _ _ _ Ft M Rb) as Kb. pose proof (parts_ok e _ _ _ _ _ _ Ft M Rc) as Kc.
  assert (Kbc : forall y, In y (flat b ++ flat c) -> finite y /\ mult e y) by (intros y I; apply in_app_or in I; destruct I; auto).
  destruct Ra as (Xa & Ya & _), Rb as (Xb & Yb & _), Rc as (Xc & Yc & _).
  split; [eapply lines_exact; eauto; lra|]. split; [eapply lines_exact; eauto; lra|]. split; [eapply lines_exact; eauto; lra|].
  unfold exact_as. rewrite Ea, Eb, Ec, Ebc.
  split; [apply (adds_exact_finite e); auto; lra|]. split; [apply (adds_exact_finite e); auto; lra|]. split; [apply (adds_exact_finite e); auto; lra|].
  apply (adds_exact_finite e); auto. rewrite turnover_app. lra.
Qed.
Theorem income_statement_exact l start fin path e : faithful l -> let ts := foperating (fselected start fin path (fl_txs l)) in
  (-1074 <= e <= 970)%Z -> multiples e ts -> 4 * exact_turnover (map snd ts) <= bpow radix2 (53 + e) ->
  agree (fun r fr => Forall2 exact_line (inc_revenue r) (fi_revenue fr) /\ Forall2 exact_line (inc_cos r) (fi_cos fr) /\ Forall2 exact_line (inc_expense r) (fi_expense fr) /\
    exact_as (inc_gross r) (fi_gross fr) /\ exact_as (inc_total_expenses r) (fi_total_expenses fr) /\ exact_as (inc_net r) (fi_net fr))
  (income_statement_report (exact_ledger l) start fin path) (float_income_statement l start fin path).
Proof.
  intros F ts He M TT. pose proof (is_fold_rel (fl_structure l) start fin path (fl_txs l) [] _ _ (is_start _) F) as R. cbn [app] in R. fold ts in R.
  unfold income_statement_report, float_income_statement, is_sums, exact_ledger. cbn [l_structure l_txs].
  destruct (foldM (is_step _ _ _ _) _ _) as [[s1 s2]|er]; destruct (foldM (fis_step _ _ _ _) _ _) as [[f1 f2]|er']; cbn [bind agree] in *; auto.
  destruct R as (a & b & Ra & Rb & N & T). cbn [fst snd inc_revenue inc_cos inc_expense fi_revenue fi_cos fi_expense inc_gross inc_total_expenses inc_net fi_gross fi_total_expenses fi_net] in *.
  rewrite sides_turn in T. pose proof (turnover_pos (flat a)). pose proof (turnover_pos (flat b)). assert (Ft : Forall okp ts) by (apply ok_filter, ok_filter; exact F).
  pose proof (parts_ok e _ _ _ _ _ _ Ft M Ra) as Ka. pose proof (parts_ok e _ _ _ _ _ _ Ft M Rb) as Kb.
  destruct Ra as (Xa & Ya & Za), Rb as (Xb & Yb & Zb).
  destruct (pfilter_flat is_cos b) as (_ & P2 & P3). destruct (pfilter_flat (fun k => negb (is_cos k)) b) as (_ & Q2 & Q3).
  assert (Kc : forall y, In y (flat (pfilter is_cos b)) -> finite y /\ mult e y) by (intros; apply Kb, P3; auto).
  assert (Kd : forall y, In y (flat (pfilter (fun k => negb (is_cos k)) b)) -> finite y /\ mult e y) by (intros; apply Kb, Q3; auto).
  split; [eapply lines_exact; eauto; lra|]. split; [eapply lines_exact; [exact He|apply exacts_filter; eauto|apply floats_filter; eauto|auto|lra]|].
  split; [eapply lines_exact; [exact He|apply (exacts_filter (fun k => negb (is_cos k))); eauto|apply (floats_filter (fun k => negb (is_cos k))); eauto|auto|lra]|].
  pose proof (total_adds _ _ Ya) as Aa. pose proof (total_adds _ _ Yb) as Ab. pose proof (total_adds _ _ (floats_filter is_cos _ _ Yb)) as Ac.
  unfold exact_as. rewrite !Q2R_minus_c, (total_exact _ _ Xa), (total_exact _ _ Xb), (total_exact _ _ (exacts_filter is_cos _ _ Xb)).
  split; [apply (sub_exact e); auto; lra|]. split; apply (sub_exact e); auto; lra.
Qed.
Theorem transaction_list_exact l start fin path e : faithful l -> let ts := fselected start fin path (fl_txs l) in
  (-1074 <= e <= 970)%Z -> multiples e ts -> exact_turnover (map snd ts) <= bpow radix2 (53 + e) ->
  agree (fun (a : list tl_row * Qc) (f : list (tx * float64) * float64) => exact_as (snd a) (snd f))
  (transaction_list (exact_ledger l) start fin path) (float_transaction_list l start fin path).
Proof.
  intros F ts He M TT. unfold transaction_list, float_transaction_list, sorted_by_date, exact_ledger. cbn [l_structure l_txs].
  destruct (same_kind _); cbn [bind]; [|reflexivity]. rewrite <- fsorted_fst.
  assert (F' : Forall okp (fsorted (fl_txs l))).
  { apply Forall_forall. intros p I. pose proof (proj1 (Forall_forall _ _) F) as G. apply G. eapply Permutation_in; [apply Permutation_sym, fsorted_perm|exact I]. }
  pose proof (tl_fold_rel start fin path (fsorted (fl_txs l)) [] 0%Qc [] zero64 eq_refl (adds_none) Q2R_0_c F') as R.
  destruct (foldM (tl_step _ _ _) _ _) as [a|er]; destruct (foldM (ftl_step _ _ _) _ _) as [f|er']; cbn [agree] in *; auto.
  destruct R as (R1 & R2 & R3 & R4). cbn [app] in R2. 
  assert (P : Permutation ts (fst f)) by (rewrite R2; apply filter_perm, fsorted_perm).
  unfold exact_as. rewrite R4. apply (adds_exact_finite e); auto.
  - intros x I. apply in_map_iff in I. destruct I as (p & <- & I). apply (Permutation_in _ (Permutation_sym P)) in I. split; [|now apply M].
    apply filter_In in I. destruct I as [I _]. pose proof (proj1 (Forall_forall _ _) F) as G. now apply G.
  - rewrite <- (turnover_perm _ _ (Permutation_map snd P)). exact TT.
Qed.
