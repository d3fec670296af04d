(** C80-C82: what rounding to binary64 does to the figures.  The other files
    compute with exact numbers; here every float operation rounds. *)
From Verif Require Import Prelude M_Dates M_Accounts M_Ledger Spec_Ledger P_Ledger P_Reports M_Ieee Spec_Ieee P_Ieee M_FloatReports Spec_FloatReports P_FloatReports P_FloatReports2
  M_FloatMix Spec_FloatMix P_FloatMix Properties_Ledger.
From Coq Require Import Reals Qreals List Permutation Lra Lia ZArith.
From Flocq Require Import Core BinarySingleNaN.
Import ListNotations.
Local Open Scope R_scope.

(** ** C80: report figures are off by accumulated rounding only *)
Theorem C80_balance_sheet_rounding : forall l fin, faithful l ->
  let ts := fupto fin (fl_txs l) in
  agree (fun sh fs =>
    Forall2 (line_close ts) (sheet_assets sh) (fs_assets fs) /\ Forall2 (line_close ts) (sheet_liab sh) (fs_liab fs) /\ Forall2 (line_close ts) (sheet_equity sh) (fs_equity fs) /\
    close_to 2 ts (sheet_total_assets sh) (fs_total_assets fs) /\ close_to 2 ts (sheet_total_liab sh) (fs_total_liab fs) /\
    close_to 2 ts (sheet_total_equity sh) (fs_total_equity fs) /\ close_to 2 ts (sheet_total_le sh) (fs_total_le fs) /\
    (finite (fs_total_assets fs) -> finite (fs_total_le fs) ->
     Rabs (value (fs_total_assets fs) - value (fs_total_le fs) - Q2R (income_net_credit (fl_structure l) (map fst ts))) <= gamma (2 * length ts) * (2 * exact_turnover (map snd ts))))
  (balance_sheet_report (exact_ledger l) fin) (float_balance_sheet l fin).
Proof. exact balance_sheet_rounding. Qed.
Print Assumptions C80_balance_sheet_rounding.
Theorem C80_income_statement_rounding : forall l start fin path, faithful l ->
  let ts := foperating (fselected start fin path (fl_txs l)) in
  agree (fun r fr =>
    Forall2 (line_close ts) (inc_revenue r) (fi_revenue fr) /\ Forall2 (line_close ts) (inc_cos r) (fi_cos fr) /\ Forall2 (line_close ts) (inc_expense r) (fi_expense fr) /\
    close_to 2 ts (inc_gross r) (fi_gross fr) /\ close_to 4 ts (inc_total_expenses r) (fi_total_expenses fr) /\ close_to 2 ts (inc_net r) (fi_net fr))
  (income_statement_report (exact_ledger l) start fin path) (float_income_statement l start fin path).
Proof. exact income_statement_rounding. Qed.
Print Assumptions C80_income_statement_rounding.
Theorem C80_transaction_list_rounding : forall l start fin path, faithful l ->
  let ts := fselected start fin path (fl_txs l) in
  agree (fun (a : list tl_row * Qc) (f : list (tx * float64) * float64) =>
    fst a = map (fun p => tl_row_of (fst p)) (fst f) /\ Permutation ts (fst f) /\
    (finite (snd f) -> Rabs (value (snd f) - Q2R (snd a)) <= gamma (Nat.pred (length ts)) * exact_turnover (map snd ts)))
  (transaction_list (exact_ledger l) start fin path) (float_transaction_list l start fin path).
Proof. exact transaction_list_rounding. Qed.
Print Assumptions C80_transaction_list_rounding.
(** The bounds in plain numbers, and: there is an exact ledger behind every
    ledger of finite floats, so [faithful] restricts nothing. *)
Theorem C80_rounding_is_small : forall k, INR k <= 2 ^ 52 -> gamma k <= 2 * INR k * / 2 ^ 53.
Proof. exact gamma_small. Qed.
Print Assumptions C80_rounding_is_small.
Theorem C80_every_float_is_exact_somewhere : forall x, finite x -> exists q : Qc, value x = Q2R q.
Proof. exact float_rational. Qed.
Print Assumptions C80_every_float_is_exact_somewhere.

(** ** C81: amounts on a common binary grid give exact reports *)
Theorem C81_balance_sheet_exact : forall l fin e, faithful l -> let ts := fupto fin (fl_txs l) in
  (-1074 <= e <= 970)%Z -> multiples e ts -> 2 * exact_turnover (map snd ts) <= bpow radix2 (53 + e) ->
  agree (fun sh fs => Forall2 exact_line (sheet_assets sh) (fs_assets fs) /\ Forall2 exact_line (sheet_liab sh) (fs_liab fs) /\ Forall2 exact_line (sheet_equity sh) (fs_equity fs) /\
    exact_as (sheet_total_assets sh) (fs_total_assets fs) /\ exact_as (sheet_total_liab sh) (fs_total_liab fs) /\
    exact_as (sheet_total_equity sh) (fs_total_equity fs) /\ exact_as (sheet_total_le sh) (fs_total_le fs))
  (balance_sheet_report (exact_ledger l) fin) (float_balance_sheet l fin).
Proof. exact balance_sheet_exact. Qed.
Print Assumptions C81_balance_sheet_exact.
Theorem C81_income_statement_exact : forall l start fin path e, faithful l -> let ts := foperating (fselected start fin path (fl_txs l)) in
  (-1074 <= e <= 970)%Z -> multiples e ts -> 4 * exact_turnover (map snd ts) <= bpow radix2 (53 + e) ->
  agree (fun r fr => Forall2 exact_line (inc_revenue r) (fi_revenue fr) /\ Forall2 exact_line (inc_cos r) (fi_cos fr) /\ Forall2 exact_line (inc_expense r) (fi_expense fr) /\
    exact_as (inc_gross r) (fi_gross fr) /\ exact_as (inc_total_expenses r) (fi_total_expenses fr) /\ exact_as (inc_net r) (fi_net fr))
  (income_statement_report (exact_ledger l) start fin path) (float_income_statement l start fin path).
Proof. exact income_statement_exact. Qed.
Print Assumptions C81_income_statement_exact.
Theorem C81_transaction_list_exact : forall l start fin path e, faithful l -> let ts := fselected start fin path (fl_txs l) in
  (-1074 <= e <= 970)%Z -> multiples e ts -> exact_turnover (map snd ts) <= bpow radix2 (53 + e) ->
  agree (fun (a : list tl_row * Qc) (f : list (tx * float64) * float64) => exact_as (snd a) (snd f))
  (transaction_list (exact_ledger l) start fin path) (float_transaction_list l start fin path).
Proof. exact transaction_list_exact. Qed.
Print Assumptions C81_transaction_list_exact.
(** Whole amounts with a turnover of at most 2^51 (about 2.25e15): the printed
    totals are equal exactly when no income is outstanding. *)
Theorem C81_whole_amounts_balance : forall l fin sh fs, faithful l -> let ts := fupto fin (fl_txs l) in
  multiples 0 ts -> exact_turnover (map snd ts) <= 2 ^ 51 ->
  balance_sheet_report (exact_ledger l) fin = Ok sh -> float_balance_sheet l fin = Ok fs ->
  (value (fs_total_assets fs) = value (fs_total_le fs) <-> income_net_credit (fl_structure l) (map fst ts) = 0%Qc).
Proof.
  intros l fin sh fs F ts M T E1 E2. pose proof (balance_sheet_exact l fin 0 F ltac:(lia) M) as A.
  assert (T2 : 2 * exact_turnover (map snd ts) <= bpow radix2 (53 + 0)).
  { change (53 + 0)%Z with (Z.of_nat 53). rewrite bpow_nat. replace (2 ^ 53) with (4 * 2 ^ 51) by (cbn; ring). pose proof (turnover_pos (map snd ts)). assert (0 < 2 ^ 51) by (apply pow_lt; lra). lra. }
  specialize (A T2). rewrite E1, E2 in A. cbn [agree] in A. destruct A as (_ & _ & _ & (_ & Va) & _ & _ & (_ & Vl)).
  pose proof (balance_sheet_equation (exact_ledger l) fin sh E1) as EQ. unfold exact_ledger in EQ. cbn [l_structure l_txs] in EQ.
  assert (U : upto fin (map fst (fl_txs l)) = map fst ts).
  { unfold ts, upto, fupto. clear. induction (fl_txs l) as [|[t x] r IH]; [reflexivity|]. cbn [map filter fst]. destruct (py_leb (tx_date t) fin); cbn [map fst]; congruence. }
  rewrite U in EQ. rewrite <- EQ, Va, Vl. split; intros H.
  - apply Qc_is_canon. apply eqR_Qeq. rewrite Q2R_minus_c, H, Q2R_0_c. ring.
  - assert (X : (sheet_total_assets sh = sheet_total_le sh)%Qc) by (rewrite <- (Qcplus_0_r (sheet_total_le sh)), <- H; ring). now rewrite X.
Qed.
Print Assumptions C81_whole_amounts_balance.

(** Concrete ledgers. *)
Definition f_of (n : Z) : float64 := binary_normalize 53 1024 _ _ mode_NE n 0 false.
Definition tenths (n : Z) : float64 := div64 (f_of n) (f_of 10).
Definition fpost (dt cr : string) (x : float64) : tx * float64 :=
  (mktx "t" None (at_ 2016 3 1) (Some dt) (Some cr) (Some "Co") (qval x) false false, x).
(** 0.1, 0.2 and 0.3 borrowed: 0.6000000000000001 in the bank, 0.6 owed. *)
Definition borrowed : fledger := mkfledger default_gls
  [fpost "Bank/Default" "Account Payable" (tenths 1); fpost "Bank/Default" "Shareholders Loan" (tenths 2); fpost "Bank/Default" "Shareholders Loan" (tenths 3)].
Lemma fpost_faithful dt cr x : finite x -> finite (snd (fpost dt cr x)) /\ value (snd (fpost dt cr x)) = Q2R (tx_amount (fst (fpost dt cr x))).
Proof. intros F. split; [exact F|]. cbn [fpost fst snd tx_amount]. now apply qval_value. Qed.
Lemma borrowed_faithful : faithful borrowed.
Proof. unfold faithful, borrowed. cbn [fl_txs]. repeat constructor; try (apply fpost_faithful; reflexivity); try reflexivity; cbn [snd fst fpost tx_amount]; apply qval_value; reflexivity. Qed.
Definition end_2016 : pytime := at_ 2016 12 31.
Lemma ok_of {A} (r : res A) (P : A -> bool) : match r with Ok a => P a | Err _ => false end = true -> exists a, r = Ok a /\ P a = true.
Proof. destruct r as [a|]; [eauto|discriminate]. Qed.
Lemma borrowed_exact : exists sh, balance_sheet_report (exact_ledger borrowed) end_2016 = Ok sh /\ Qeq_bool (sheet_total_assets sh) (sheet_total_le sh) = true.
Proof. apply ok_of. vm_compute. reflexivity. Qed.
Lemma borrowed_float : exists fs, float_balance_sheet borrowed end_2016 = Ok fs /\ is_finite (fs_total_assets fs) && is_finite (fs_total_le fs) && gt64 (fs_total_assets fs) (fs_total_le fs) = true.
Proof. apply ok_of. vm_compute. reflexivity. Qed.
(** Rounding breaks the equality of the totals that the exact report has. *)
Theorem C80_totals_balance_refuted : exists l fin sh fs, faithful l /\ balance_sheet_report (exact_ledger l) fin = Ok sh /\ float_balance_sheet l fin = Ok fs /\
  sheet_total_assets sh = sheet_total_le sh /\ finite (fs_total_assets fs) /\ finite (fs_total_le fs) /\ value (fs_total_assets fs) > value (fs_total_le fs).
Proof.
  destruct borrowed_exact as (sh & A1 & A2). destruct borrowed_float as (fs & B1 & B). exists borrowed, end_2016, sh, fs.
  apply andb_true_iff in B as [B G]. apply andb_true_iff in B as [B2 B3]. split; [exact borrowed_faithful|]. split; [exact A1|]. split; [exact B1|].
  split; [apply Qc_is_canon; now apply Qeq_bool_iff|]. split; [exact B2|]. split; [exact B3|].
  apply Rnot_le_lt. intros H. apply (gt64_spec _ _ B2 B3) in H. congruence.
Qed.
Print Assumptions C80_totals_balance_refuted.
Example C80_case : faithful borrowed /\ is_ok (float_balance_sheet borrowed end_2016) = true /\ length (fupto end_2016 (fl_txs borrowed)) = 3%nat.
Proof. split; [exact borrowed_faithful|]. split; vm_compute; reflexivity. Qed.
(** Whole amounts: a loan of 70000 and of 50000, 20000 paid back. *)
Definition whole : fledger := mkfledger default_gls
  [fpost "Bank/Default" "Account Payable" (f_of 70000); fpost "Bank/Default" "Shareholders Loan" (f_of 50000); fpost "Account Payable" "Bank/Default" (f_of 20000)].
Lemma f_of_value n : (Z.abs n <= 2 ^ 53)%Z -> finite (f_of n) /\ value (f_of n) = IZR n.
Proof.
  intros H. pose proof (binary_normalize_correct 53 1024 _ _ mode_NE n 0 false) as C. change (round_mode mode_NE) with ZnearestE in C.
  assert (V : F2R (Float radix2 n 0) = IZR n) by (unfold F2R; cbn [Fnum Fexp bpow]; ring). rewrite V in C.
  assert (R : round radix2 fexp64 ZnearestE (IZR n) = IZR n).
  { apply round_generic; [apply valid_rnd_N|]. replace (IZR n) with (IZR n * bpow radix2 0) by (cbn; ring). apply multiple_format; [lia|exact H]. }
  cbv zeta in C. rewrite R in C. rewrite Rlt_bool_true in C; [destruct C as (C1 & C2 & _); auto|]. rewrite <- abs_IZR. apply Rle_lt_trans with (IZR (2 ^ 53)); [now apply IZR_le|].
  change (IZR (2 ^ 53)) with (bpow radix2 53). apply bpow_lt. lia.
Qed.
Example C81_case : faithful whole /\ let ts := fupto end_2016 (fl_txs whole) in multiples 0 ts /\ 2 * exact_turnover (map snd ts) <= bpow radix2 (53 + 0) /\ exact_turnover (map snd ts) <= 2 ^ 51 /\
  length ts = 3%nat /\ is_ok (float_balance_sheet whole end_2016) = true.
Proof.
  destruct (f_of_value 70000) as [F1 V1]; [cbn; lia|]. destruct (f_of_value 50000) as [F2 V2]; [cbn; lia|]. destruct (f_of_value 20000) as [F3 V3]; [cbn; lia|].
  split.
  - unfold faithful, whole. cbn [fl_txs]. constructor; [now apply fpost_faithful|]. constructor; [now apply fpost_faithful|]. constructor; [now apply fpost_faithful|]. constructor.
  - set (ts := fupto end_2016 (fl_txs whole)). cbv zeta. assert (E : map snd ts = [f_of 70000; f_of 50000; f_of 20000]) by reflexivity.
    assert (T : exact_turnover (map snd ts) = 140000).
    { rewrite E, !turnover_cons, V1, V2, V3. change (exact_turnover []) with 0. rewrite !Rabs_pos_eq by lra. lra. }
    split; [|split; [|split; [|split]]].
    + intros p I. apply (in_map snd) in I. rewrite E in I. destruct I as [<-|[<-|[<-|[]]]]; [exists 70000%Z|exists 50000%Z|exists 20000%Z]; cbn [bpow]; lra.
    + rewrite T. change (53 + 0)%Z with (Z.of_nat 53). rewrite bpow_nat. apply Rle_trans with (2 ^ 20); [cbn; lra|apply Rle_pow; [lra|lia]].
    + rewrite T. apply Rle_trans with (2 ^ 20); [cbn; lra|apply Rle_pow; [lra|lia]].
    + reflexivity.
    + vm_compute; reflexivity.
Qed.

(** ** C82: packages and streams in floats *)
Theorem C82_extract_splits : forall total x ms t l, Forall mass_ok ms -> finite total -> 0 < value total -> finite x -> 0 <= value x ->
  extract64 total x ms = Ok (t, l) -> splits_all ms t l.
Proof. exact extract_splits. Qed.
Print Assumptions C82_extract_splits.
Theorem C82_extract_amount : forall total x ms t l, Forall mass_ok ms -> adds ms total -> finite total -> 0 < value total -> finite x -> 0 <= value x -> INR (length ms) <= 2 ^ 51 ->
  extract64 total x ms = Ok (t, l) ->
  Rabs (exact_sum t - value x) <= (4 * INR (length ms) + 1) * ulp_half * value x + (INR (length ms) + 3 * value total) * tiny.
Proof. exact extract_amount. Qed.
Print Assumptions C82_extract_amount.
Theorem C82_extract_guard : forall total x ms, finite total -> finite x -> ((exists r, extract64 total x ms = Ok r) <-> value x <= value total).
Proof. exact extract_guard. Qed.
Print Assumptions C82_extract_guard.
Theorem C82_extract_everything : forall total ms, Forall mass_ok ms -> finite total -> 0 < value total ->
  exists t l, extract64 total total ms = Ok (t, l) /\ Forall2 (fun m y => value y = value m) ms t /\ Forall (fun y => value y = 0) l.
Proof. exact extract_everything. Qed.
Print Assumptions C82_extract_everything.
Theorem C82_chem_extract : forall total x ms, finite total -> finite x ->
  (0 < value total -> chem_extract64 total x ms = extract64 total x ms) /\ (value total = 0 -> value x <= 0 -> chem_extract64 total x ms = Err ZeroDivisionError).
Proof. intros. split; intros; [now apply chem_extract_same|now apply chem_extract_empty]. Qed.
Print Assumptions C82_chem_extract.
Theorem C82_take_one : forall x m, mass_ok m -> finite x -> 0 <= value x ->
  ((exists l, take64 x m = Ok l) <-> value x <= value m) /\
  (forall l, take64 x m = Ok l -> finite l /\ 0 <= value l <= value m /\ Rabs (value l + value x - value m) <= ulp_half * (value m - value x)).
Proof. intros x m [Fm Hm] Fx Px. split; [now apply take_guard|]. intros l E. now apply (take_ok x m l (conj Fm Hm) Fx Px). Qed.
Print Assumptions C82_take_one.
Theorem C82_mix_mass : forall a b v, length a = length b -> adds (mix64 a b) v -> finite v ->
  Rabs (value v - (exact_sum a + exact_sum b)) <= gamma (Nat.pred (length a + length b)) * (exact_turnover a + exact_turnover b).
Proof. exact mix_mass. Qed.
Print Assumptions C82_mix_mass.
Theorem C82_mix_entry : forall a b i x y, length a = length b -> nth_error a i = Some x -> nth_error b i = Some y ->
  exists z, nth_error (mix64 a b) i = Some z /\ (finite z -> Rabs (value z - (value x + value y)) <= ulp_half * Rabs (value x + value y)).
Proof. exact mix_entry. Qed.
Print Assumptions C82_mix_entry.
Theorem C82_create_amount : forall total mass a, Forall mass_ok a -> adds a total -> finite total -> 0 < value total -> 0 <= value mass -> INR (length a) <= 2 ^ 51 ->
  Forall finite (create64 total mass a) ->
  Rabs (exact_sum (create64 total mass a) - value mass) <= (4 * INR (length a) + 1) * ulp_half * value mass + INR (length a) * (1 + 2 / value total) * tiny.
Proof. exact create_amount. Qed.
Print Assumptions C82_create_amount.
Theorem C82_assay_sums_to_one : forall total ms, Forall mass_ok ms -> adds ms total -> finite total -> 0 < value total -> INR (length ms) <= 2 ^ 51 -> Forall finite (assay64 total ms) ->
  Forall (fun x => 0 <= value x) (assay64 total ms) /\ Rabs (exact_sum (assay64 total ms) - 1) <= 4 * INR (length ms) * ulp_half + INR (length ms) * tiny.
Proof. exact assay_sum. Qed.
Print Assumptions C82_assay_sums_to_one.
(** Python's sum and numpy's sum are both sums in the sense of [adds]; here Python's. *)
Theorem C82_python_sum : forall l, adds l (sum64 l).
Proof. exact sum_adds. Qed.
Print Assumptions C82_python_sum.

Definition dust : list float64 := [tenths 1; tenths 2; tenths 3].
Lemma pos_mass s m e H : s = false -> mass_ok (B754_finite s m e H).
Proof. intros ->. split; [reflexivity|]. unfold value. cbn [B2R]. left. now apply F2R_gt_0. Qed.
Lemma pos_mass_b x : is_finite_strict x = true -> Bsign x = false -> mass_ok x /\ 0 < value x.
Proof. destruct x as [s|s| |s m e H]; intros F S; try discriminate. cbn in S. split; [now apply pos_mass|]. subst s. unfold value. cbn [B2R]. now apply F2R_gt_0. Qed.
Example C82_case : Forall mass_ok dust /\ adds dust (sum64 dust) /\ finite (sum64 dust) /\ 0 < value (sum64 dust) /\ mass_ok (tenths 1) /\
  INR (length dust) <= 2 ^ 51 /\ is_ok (extract64 (sum64 dust) (tenths 1) dust) = true /\ Forall finite (create64 (sum64 dust) (f_of 7) dust) /\ Forall finite (assay64 (sum64 dust) dust).
Proof.
  split; [repeat constructor; apply pos_mass_b; vm_compute; reflexivity|]. split; [apply sum_adds|]. split; [vm_compute; reflexivity|].
  split; [apply pos_mass_b; vm_compute; reflexivity|]. split; [apply pos_mass_b; vm_compute; reflexivity|]. 
  split; [apply Rle_trans with (2 ^ 2); [cbn; lra|apply Rle_pow; [lra|lia]]|]. split; [vm_compute; reflexivity|]. split; repeat constructor; vm_compute; reflexivity.
Qed.
(** Exact conservation fails: a third of 1 kg and what is left are not 1 kg. *)
Definition third : float64 := div64 (f_of 1) (sum64 [f_of 1; f_of 2]).
Definition third_taken : float64 := mul64 (f_of 1) third.
Definition third_left : float64 := mul64 (f_of 1) (sub64 one64 third).
Lemma third_extract : extract64 (sum64 [f_of 1; f_of 2]) (f_of 1) [f_of 1; f_of 2] = Ok ([third_taken; mul64 (f_of 2) third], [third_left; mul64 (f_of 2) (sub64 one64 third)]).
Proof. unfold extract64. assert (G : gt64 (f_of 1) (sum64 [f_of 1; f_of 2]) = false) by (vm_compute; reflexivity). rewrite G. reflexivity. Qed.
Lemma third_finite : finite third_taken /\ finite third_left /\ finite (f_of 1).
Proof. split; [|split]; vm_compute; reflexivity. Qed.
Lemma third_not_one : Qeq_bool (qval third_taken + qval third_left)%Qc (qval (f_of 1)) = false.
Proof. vm_compute. reflexivity. Qed.
Lemma third_loses : value third_taken + value third_left <> value (f_of 1).
Proof.
  destruct third_finite as (F1 & F2 & F3). rewrite (qval_value _ F1), (qval_value _ F2), (qval_value _ F3), <- Q2R_plus_c. intros E. apply eqR_Qeq in E.
  pose proof third_not_one as N. apply Qeq_bool_neq in N. exact (N E).
Qed.
Theorem C82_exact_conservation_refuted : exists total x m t l, mass_ok m /\ adds [m; f_of 2] total /\ extract64 total x [m; f_of 2] = Ok (t, l) /\
  exists t0 l0 t1 l1, t = [t0; t1] /\ l = [l0; l1] /\ finite t0 /\ finite l0 /\ value t0 + value l0 <> value m.
Proof.
  exists (sum64 [f_of 1; f_of 2]), (f_of 1), (f_of 1). do 2 eexists. split; [apply pos_mass_b; vm_compute; reflexivity|]. split; [apply sum_adds|]. split; [exact third_extract|].
  do 4 eexists. split; [reflexivity|]. split; [reflexivity|]. split; [apply third_finite|]. split; [apply third_finite|]. exact third_loses.
Qed.
Print Assumptions C82_exact_conservation_refuted.
