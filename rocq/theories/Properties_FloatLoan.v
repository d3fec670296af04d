(** C83-C84: loans in binary64. *)
From Verif Require Import Prelude M_Ieee Spec_Ieee P_Ieee M_FloatMix Spec_FloatMix P_FloatMix M_FloatLoan Spec_FloatLoan P_FloatLoan P_FloatLoan2 P_FloatLoan3 Properties_Float.
From Verif Require P_FloatReports2.
From Coq Require Import Reals Qreals List Lra Lia ZArith.
From Flocq Require Import Core BinarySingleNaN.
Import ListNotations.
Local Open Scope R_scope.

(** ** C83: the outstanding amount follows the schedule, and the ledger the outstanding amount *)
Theorem C83_transactions : forall l interval k, (1 <= interval)%Z -> fn_months l = 0%Z -> fn_left l = fn_amount l ->
  let ps := snd (fexecutions interval (S k) l) in
  map (fun p => (fp_dt p, fp_cr p)) ps = (fn_bank l, fn_loan l) :: concat (repeat [(fn_interest l, fn_loan l); (fn_loan l, fn_bank l)] k) /\
  (exists r, ps = mkfposting (fn_bank l) (fn_loan l) (fn_amount l) :: r /\ forall p, In p r -> fp_dt p = fn_loan l -> fn_interest l <> fn_loan l -> fp_amount p = fn_payment l).
Proof.
  intros l interval k I M L ps. unfold ps. rewrite (executions_post l interval k I M L). cbn [snd map fp_dt fp_cr]. split.
  - f_equal. generalize 0%nat. induction k as [|k IH]; intros j; [reflexivity|]. cbn [seq flat_map repeat concat]. rewrite map_app, IH. reflexivity.
  - eexists. split; [reflexivity|]. intros p H D N. apply in_flat_map in H as (i & _ & H). destruct H as [<-|[<-|[]]]; [contradiction|reflexivity].
Qed.
Print Assumptions C83_transactions.
Theorem C83_outstanding : forall l interval k l' ps, (1 <= interval)%Z -> fn_months l = 0%Z -> fn_left l = fn_amount l ->
  ordinary_amount (fn_amount l) -> ordinary_rate (fn_rate l) -> finite (fn_payment l) ->
  let A := value (fn_amount l) in let m := value (fn_rate l) / 12 in let p := value (fn_payment l) in
  0 <= p <= 4 * A -> (forall j, (j <= k)%nat -> Rabs (schedule A m p j) <= 2 * A) -> 30 * ulp_half * growth_sum m k <= 1 ->
  fexecutions interval (S k) l = (l', ps) ->
  finite (fn_left l') /\ Rabs (value (fn_left l') - schedule A m p k) <= 30 * ulp_half * A * growth_sum m k.
Proof.
  intros l interval k l' ps I M L OA [Fr Br] Fp A m p Bp S G E. rewrite (executions_post l interval k I M L) in E. injection E as <- _. cbn [floan_at fn_left].
  destruct (left_after_close (fn_amount l) (fn_rate l) (fn_payment l) OA Fr ltac:(lra) Fp Bp k S G) as (F & C & _). split; [exact F|exact C].
Qed.
Print Assumptions C83_outstanding.
Theorem C83_ledger_agrees : forall l interval k l' ps, (1 <= interval)%Z -> fn_months l = 0%Z -> fn_left l = fn_amount l ->
  fn_bank l <> fn_loan l -> fn_interest l <> fn_loan l ->
  ordinary_amount (fn_amount l) -> ordinary_rate (fn_rate l) -> finite (fn_payment l) ->
  let A := value (fn_amount l) in let m := value (fn_rate l) / 12 in let p := value (fn_payment l) in
  0 <= p <= 4 * A -> (forall j, (j <= k)%nat -> Rabs (schedule A m p j) <= 2 * A) -> 30 * ulp_half * growth_sum m k <= 1 ->
  fexecutions interval (S k) l = (l', ps) ->
  Forall (fun q => finite (fp_amount q)) ps /\ Rabs (credit_balance (fn_loan l) ps - value (fn_left l')) <= 20 * ulp_half * A * INR k.
Proof. intros l interval k l' ps I M L N1 N2 OA [Fr Br] Fp A m p Bp S G E. apply (posted_balance l interval k l' ps); auto. lra. Qed.
Print Assumptions C83_ledger_agrees.
(** The conditions above hold for every loan created with ordinary terms (C84_payment, C84_schedule_in_range). *)

(** ** C84: the payment is the annuity and the last instalment repays the loan, but for rounding *)
Theorem C84_payment : forall pow64, accurate_pow pow64 -> forall bank loan interest amount rate n, ordinary_amount amount -> ordinary_rate rate -> (1 <= n)%nat ->
  let A := value amount in let m := value rate / 12 in (1 + m) ^ n / m <= 2 ^ 40 ->
  exists l, new_floan pow64 bank loan interest amount rate (Z.of_nat n) = Ok l /\
  fn_bank l = bank /\ fn_loan l = loan /\ fn_interest l = interest /\ fn_amount l = amount /\ fn_rate l = rate /\ fn_left l = amount /\ fn_months l = 0%Z /\
  finite (fn_payment l) /\ Rabs (value (fn_payment l) - annuity A m n) <= 20 * ulp_half / m * annuity A m n.
Proof. intros. now apply payment_close. Qed.
Print Assumptions C84_payment.
Theorem C84_annuity_repays : forall A m n, 0 < m -> (1 <= n)%nat -> schedule A m (annuity A m n) n = 0 /\ (0 < A -> forall j, (j <= n)%nat -> 0 <= schedule A m (annuity A m n) j <= A).
Proof. intros A m n M N. split; [now apply annuity_repays|]. intros HA j L. now apply annuity_between. Qed.
Print Assumptions C84_annuity_repays.
Theorem C84_repaid : forall pow64, accurate_pow pow64 -> forall bank loan interest amount rate n, ordinary_amount amount -> ordinary_rate rate -> (1 <= n)%nat ->
  let A := value amount in let m := value rate / 12 in (1 + m) ^ n / m <= 2 ^ 40 ->
  forall interval l l' ps, (1 <= interval)%Z -> bank <> loan -> interest <> loan ->
  new_floan pow64 bank loan interest amount rate (Z.of_nat n) = Ok l -> fexecutions interval (S n) l = (l', ps) ->
  finite (fn_left l') /\ Forall (fun q => finite (fp_amount q)) ps /\
  Rabs (value (fn_left l')) <= 50 * ulp_half * A * ((1 + m) ^ n / m) /\
  Rabs (credit_balance loan ps) <= 70 * ulp_half * A * ((1 + m) ^ n / m).
Proof. intros pow64 POW bank loan interest amount rate n OA OR N A m T interval l l' ps I N1 N2 E X. exact (repaid pow64 POW bank loan interest amount rate n OA OR N T interval l l' ps I N1 N2 E X). Qed.
Print Assumptions C84_repaid.
(** Every loan with ordinary terms meets the conditions of C83. *)
Theorem C84_schedule_in_range : forall pow64, accurate_pow pow64 -> forall bank loan interest amount rate n, ordinary_amount amount -> ordinary_rate rate -> (1 <= n)%nat ->
  let A := value amount in let m := value rate / 12 in (1 + m) ^ n / m <= 2 ^ 40 ->
  forall l, new_floan pow64 bank loan interest amount rate (Z.of_nat n) = Ok l -> let p := value (fn_payment l) in
  0 <= p <= 4 * A /\ (forall j, (j <= n)%nat -> Rabs (schedule A m p j) <= 2 * A) /\ 30 * ulp_half * growth_sum m n <= 1.
Proof. intros pow64 POW bank loan interest amount rate n OA OR N A m T l E p. destruct (terms_in_range pow64 POW bank loan interest amount rate n OA OR N T l E) as (H1 & H2 & H3 & _). auto. Qed.
Print Assumptions C84_schedule_in_range.
Lemma zero_is_zero x : finite x -> value x = 0 -> is_zero64 x = true.
Proof. intros F V. destruct x as [s|s| |s m e H]; auto; try discriminate. exfalso. unfold value, B2R in V. apply eq_0_F2R in V. destruct s; discriminate. Qed.
(** Without interest there is no annuity: the constructor divides by zero. *)
Theorem C84_zero_rate : forall pow64, (forall x n, finite x -> value x = 1 -> exists y, pow64 x n = Ok y /\ finite y /\ value y = 1) ->
  forall bank loan interest amount rate n, finite rate -> value rate = 0 -> new_floan pow64 bank loan interest amount rate n = Err ZeroDivisionError.
Proof.
  intros pow64 POW bank loan interest amount rate n F Z. unfold new_floan, fpayment.
  assert (T : value twelve64 = 12) by exact (proj2 (f_of_value 12 ltac:(cbn; lia))).
  destruct (P_FloatMix.div_ok rate twelve64 F ltac:(lra)) as [F1 V1]; [rewrite Z; unfold Rdiv; rewrite Rmult_0_l, rnd_0, Rabs_R0; apply bpow_gt_0|]. rewrite Z in V1. unfold Rdiv in V1. rewrite Rmult_0_l, rnd_0 in V1. cbv zeta. set (m := div64 rate twelve64) in *.
  assert (O : value one64 = 1 /\ finite one64) by exact (conj (proj2 (f_of_value 1 ltac:(cbn; lia))) (proj1 (f_of_value 1 ltac:(cbn; lia)))). destruct O as [O FO].
  assert (B1 : 1 < bpow radix2 1024) by (change 1 with (bpow radix2 0); apply bpow_lt; lia).
  destruct (P_FloatLoan.add_ok one64 m FO F1) as [F2 V2]; [rewrite O, V1, Rplus_0_r, rnd_1, Rabs_R1; exact B1|]. rewrite O, V1, Rplus_0_r, rnd_1 in V2.
  destruct (POW _ n F2 V2) as (y & -> & Fy & Vy). cbn [bind]. unfold pydiv64 at 1. rewrite (not_zero y) by lra. cbn [bind].
  destruct (P_FloatMix.div_ok one64 y FO ltac:(lra)) as [F3 V3]; rewrite O, Vy in *; unfold Rdiv in *; rewrite Rinv_1, Rmult_1_r, rnd_1 in *; [rewrite Rabs_R1; exact B1|].
  destruct (P_FloatMix.sub_ok one64 (div64 one64 y) FO F3) as [F4 V4]; rewrite O, V3, Rminus_diag_eq, rnd_0 in * by reflexivity; [rewrite Rabs_R0; apply bpow_gt_0|].
  unfold pydiv64. replace (is_zero64 (sub64 one64 (div64 one64 y))) with true; [reflexivity|]. symmetry. now apply zero_is_zero.
Qed.
Print Assumptions C84_zero_rate.
(** The hypothesis on pow is what the C standard requires of pow(1, n). *)
Example C84_zero_rate_case : forall pow64 : float64 -> Z -> res float64,
  let p := fun x n => if Req_EM_T (value x) 1 then Ok x else pow64 x n in
  (forall x n, finite x -> value x = 1 -> exists y, p x n = Ok y /\ finite y /\ value y = 1) /\ finite zero64 /\ value zero64 = 0.
Proof. intros pow64 p. split; [|split; reflexivity]. intros x n F V. exists x. unfold p. destruct (Req_EM_T (value x) 1); [auto|contradiction]. Qed.
(** Changing the amount or the rate gives the payment of a new loan with these terms. *)
Theorem C84_changed_terms : forall pow64 bank loan interest amount rate n l, new_floan pow64 bank loan interest amount rate n = Ok l ->
  (forall v, fset_amount pow64 v l = (do l' <- new_floan pow64 bank loan interest v rate n; Ok (mkfloan bank loan interest v rate (fn_mrate l') (fn_payment l') n 0 amount))) /\
  (forall v, fset_rate pow64 v l = (do l' <- new_floan pow64 bank loan interest amount v n; Ok l')) /\
  (forall v, (do l' <- fset_amount pow64 v l; Ok (fprepare l')) = new_floan pow64 bank loan interest v rate n).
Proof.
  intros pow64 bank loan interest amount rate n l E. unfold new_floan in E. cbv zeta in E. destruct (fpayment pow64 amount (div64 rate twelve64) n) as [p|e] eqn:EP; [|discriminate]. cbn [bind] in E. injection E as <-.
  split; [|split]; intros v; unfold fset_amount, fset_rate, new_floan; cbv zeta; cbn [fn_bank fn_loan fn_interest fn_amount fn_rate fn_mrate fn_payment fn_duration fn_months fn_left]; clear EP; match goal with |- context [fpayment pow64 ?a ?b n] => destruct (fpayment pow64 a b n) end; reflexivity.
Qed.
Print Assumptions C84_changed_terms.

(** *** A power function that meets the condition: the correctly rounded one. *)
Definition pow_cr (x : float64) (n : Z) : res float64 :=
  match x with
  | B754_finite s m e _ => Ok (binary_normalize 53 1024 _ _ mode_NE (cond_Zopp s (Zpos m) ^ n) (e * n) false)
  | _ => Err ValueError
  end.
Lemma F2R_pow k e n : F2R (Float radix2 (k ^ Z.of_nat n) (e * Z.of_nat n)) = F2R (Float radix2 k e) ^ n.
Proof.
  induction n as [|n IH]; [rewrite Z.mul_0_r; unfold F2R; cbn; ring|]. rewrite <- tech_pow_Rmult, <- IH. rewrite Nat2Z.inj_succ, Z.pow_succ_r by lia.
  unfold F2R. cbn [Fnum Fexp]. rewrite mult_IZR. replace (e * Z.succ (Z.of_nat n))%Z with (e + e * Z.of_nat n)%Z by lia. rewrite bpow_plus. ring.
Qed.
Theorem C84_accurate_pow_exists : accurate_pow pow_cr.
Proof.
  intros x n F X1 XH. destruct x as [s|s| |s m e H]; try discriminate; [cbn in X1; lra|]. cbn [pow_cr]. eexists. split; [reflexivity|].
  change (value (B754_finite s m e H)) with (F2R (Float radix2 (cond_Zopp s (Zpos m)) e)) in *. set (k := cond_Zopp s (Zpos m)) in *.
  pose proof (binary_normalize_correct 53 1024 _ _ mode_NE (k ^ Z.of_nat n) (e * Z.of_nat n) false) as C. cbv zeta in C. rewrite F2R_pow in C. set (v := F2R (Float radix2 k e) ^ n) in *.
  assert (V1 : 1 <= v) by (apply pow_R1_Rle; exact X1). rewrite Rlt_bool_true in C.
  - destruct C as (C1 & C2 & _). split; [exact C2|]. unfold value. rewrite C1. change (round radix2 (SpecFloat.fexp 53 1024) (round_mode mode_NE) v) with (rnd v).
    pose proof (rnd_rel v) as R. rewrite Rabs_pos_eq in R by lra. assert (L : / 2 ^ 1000 <= v). { eapply Rle_trans; [|exact V1]. rewrite <- Rinv_1. apply Rinv_le_contravar; [lra|]. apply pow_R1_Rle. lra. }
    specialize (R L). pose proof ulp_half_pos as U. assert (0 < ulp_half * v) by (apply Rmult_lt_0_compat; lra). lra.
  - apply rnd_small. rewrite Rabs_pos_eq by lra. eapply Rle_trans; [exact XH|]. apply Rle_pow; [lra|lia].
Qed.
Print Assumptions C84_accurate_pow_exists.

(** 1000 borrowed for a year at 12 per cent. *)
Definition car_rate : float64 := div64 (f_of 12) (f_of 100).
Definition car_loan : res floan := new_floan pow_cr "Bank/Default" "Car Loan" "Expense/Interest" (f_of 1000) car_rate 12.
Lemma car_loan_eq : car_loan = new_floan pow_cr "Bank/Default" "Car Loan" "Expense/Interest" (f_of 1000) car_rate (Z.of_nat 12).
Proof. unfold car_loan. change 12%Z with (Z.of_nat 12). reflexivity. Qed.
Lemma car_terms : ordinary_amount (f_of 1000) /\ ordinary_rate car_rate /\ (1 + value car_rate / 12) ^ 12 / (value car_rate / 12) <= 2 ^ 40.
Proof.
  destruct (f_of_value 1000) as [F1 V1]; [cbn; lia|]. destruct (f_of_value 12) as [F2 V2]; [cbn; lia|]. destruct (f_of_value 100) as [F3 V3]; [cbn; lia|].
  split; [split; [exact F1|]; rewrite V1; split|].
  - apply Rle_trans with 1; [|lra]. rewrite <- Rinv_1. apply Rinv_le_contravar; [lra|]. apply pow_R1_Rle. lra.
  - apply Rle_trans with (2 ^ 10); [cbn; lra|apply Rle_pow; [lra|lia]].
  - destruct (div_ok (f_of 12) (f_of 100) F2) as [Fr Vr]; [rewrite V3; lra| |].
    { apply rnd_small. rewrite V2, V3, Rabs_pos_eq by lra. apply Rle_trans with (2 ^ 0); [cbn; lra|apply Rle_pow; [lra|lia]]. }
    fold car_rate in Fr, Vr. rewrite V2, V3 in Vr. pose proof (rnd_within (12 / 100)) as W. rewrite <- Vr in W. pose proof u_tight as U. pose proof ulp_half_pos.
    specialize (W ltac:(apply (low 4); [lia|cbn; lra])). set (r := value car_rate) in *. split; [split; [exact Fr|]; fold r; lra|].
    assert (B : / 128 <= r / 12 <= 1) by lra. generalize dependent (r / 12). clear. intros m B.
    assert (L : (1 + m) ^ 12 <= 2 ^ 12) by (apply pow_incr; lra). assert (I : / m <= 128) by (rewrite <- (Rinv_inv 128); apply Rinv_le_contravar; lra).
    unfold Rdiv. apply Rle_trans with (2 ^ 12 * 2 ^ 7); [apply Rmult_le_compat; [apply pow_le; lra|left; apply Rinv_0_lt_compat; lra|exact L|replace (2 ^ 7) with 128 by ring; exact I]|]. rewrite <- pow_add. apply Rle_pow; [lra|lia].
Qed.
(** The conditions of C84 hold for it, and so those of C83 for the created loan. *)
Example C84_case : accurate_pow pow_cr /\ ordinary_amount (f_of 1000) /\ ordinary_rate car_rate /\ (1 + value car_rate / 12) ^ 12 / (value car_rate / 12) <= 2 ^ 40 /\ is_ok car_loan = true.
Proof.
  destruct car_terms as (H1 & H2 & H3). split; [exact C84_accurate_pow_exists|]. split; [exact H1|]. split; [exact H2|]. split; [exact H3|].
  destruct (C84_payment pow_cr C84_accurate_pow_exists "Bank/Default" "Car Loan" "Expense/Interest" (f_of 1000) car_rate 12 H1 H2 ltac:(lia) H3) as (l & E & _).
  rewrite car_loan_eq, E. reflexivity.
Qed.

(** After the last instalment something other than zero is left of it, and the
    ledger has a different amount still. *)
Definition car_end : floan * list fposting := match car_loan with Ok l => fexecutions 1 13 l | Err _ => (mkfloan "" "" "" zero64 zero64 zero64 zero64 0 0 zero64, []) end.
Definition car_left : float64 := fn_left (fst car_end).
Fixpoint qbalance (account : string) (ps : list fposting) : Qc :=
  match ps with
  | [] => 0%Qc
  | p :: r => ((if string_dec (fp_cr p) account then P_FloatReports2.qval (fp_amount p) else 0) - (if string_dec (fp_dt p) account then P_FloatReports2.qval (fp_amount p) else 0) + qbalance account r)%Qc
  end.
Lemma car_left_nonzero : is_finite_strict car_left = true.
Proof. vm_compute. reflexivity. Qed.
Lemma car_differs : Qeq_bool (qbalance "Car Loan" (snd car_end)) (P_FloatReports2.qval (fn_left (fst car_end))) = false.
Proof. vm_compute. reflexivity. Qed.
Lemma car_end_of l l' ps : car_loan = Ok l -> fexecutions 1 13 l = (l', ps) -> car_end = (l', ps).
Proof. intros E X. unfold car_end. rewrite E. exact X. Qed.
Lemma qbalance_value account ps : Forall (fun p => finite (fp_amount p)) ps -> credit_balance account ps = Q2R (qbalance account ps).
Proof.
  induction 1 as [|p ps F _ IH]; cbn [credit_balance qbalance]; [symmetry; apply P_FloatReports.Q2R_0_c|]. rewrite P_FloatReports.Q2R_plus_c, IH. f_equal. rewrite P_FloatReports.Q2R_minus_c.
  destruct (string_dec (fp_cr p) account), (string_dec (fp_dt p) account); rewrite ?P_FloatReports.Q2R_0_c, ?(P_FloatReports2.qval_value _ F); reflexivity.
Qed.
Lemma car_created : exists l, car_loan = Ok l /\ fn_bank l = "Bank/Default"%string /\ fn_loan l = "Car Loan"%string /\ fn_interest l = "Expense/Interest"%string /\ fn_left l = fn_amount l /\ fn_months l = 0%Z /\
  fn_amount l = f_of 1000 /\ fn_rate l = car_rate /\ finite (fn_payment l).
Proof.
  destruct car_terms as (H1 & H2 & H3).
  destruct (C84_payment pow_cr C84_accurate_pow_exists "Bank/Default" "Car Loan" "Expense/Interest" (f_of 1000) car_rate 12 H1 H2 ltac:(lia) H3) as (l & E & A1 & A2 & A3 & A4 & A5 & A6 & A7 & A8 & _).
  exists l. rewrite car_loan_eq. split; [exact E|]. do 4 (split; [assumption || congruence|]). split; [assumption|]. split; [assumption|]. split; assumption.
Qed.
Lemma strict_nonzero y : is_finite_strict y = true -> finite y /\ value y <> 0.
Proof. destruct y as [s|s| |s m e H]; try discriminate. intros _. split; [reflexivity|]. apply F2R_neq_0. destruct s; discriminate. Qed.
(** Nothing is left of a loan after its last instalment: false in floats. *)
Theorem C84_exactly_repaid_refuted : exists l l' ps, new_floan pow_cr "Bank/Default" "Car Loan" "Expense/Interest" (f_of 1000) car_rate (Z.of_nat 12) = Ok l /\
  fexecutions 1 13 l = (l', ps) /\ finite (fn_left l') /\ value (fn_left l') <> 0.
Proof.
  destruct car_created as (l & E & _). pose proof car_left_nonzero as C. unfold car_left in C.
  destruct (fexecutions 1 13 l) as [l' ps] eqn:X. rewrite (car_end_of l l' ps E X) in C. cbn [fst] in C. exists l, l', ps. split; [rewrite car_loan_eq in E; exact E|]. split; [exact X|]. apply strict_nonzero. exact C.
Qed.
Print Assumptions C84_exactly_repaid_refuted.
(** The loan account holds exactly the outstanding amount: false in floats. *)
Theorem C83_ledger_exact_refuted : exists l l' ps, new_floan pow_cr "Bank/Default" "Car Loan" "Expense/Interest" (f_of 1000) car_rate (Z.of_nat 12) = Ok l /\
  fexecutions 1 13 l = (l', ps) /\ credit_balance (fn_loan l) ps <> value (fn_left l').
Proof.
  destruct car_created as (l & E & B1 & B2 & B3 & B4 & B5 & B6 & B7 & B8). pose proof car_differs as C2.
  destruct (fexecutions 1 13 l) as [l' ps] eqn:X. rewrite (car_end_of l l' ps E X) in C2. cbn [fst snd] in C2. exists l, l', ps. split; [rewrite car_loan_eq in E; exact E|]. split; [exact X|]. rewrite B2.
  destruct car_terms as (H1 & H2 & H3).
  destruct (C84_repaid pow_cr C84_accurate_pow_exists "Bank/Default" "Car Loan" "Expense/Interest" (f_of 1000) car_rate 12 H1 H2 ltac:(lia) H3 1%Z l l' ps) as (F & FA & _); [lia|discriminate|discriminate|rewrite car_loan_eq in E; exact E|exact X|].
  rewrite (qbalance_value _ _ FA), (P_FloatReports2.qval_value _ F). intros EQ. apply eqR_Qeq in EQ. apply Qeq_bool_neq in C2. exact (C2 EQ).
Qed.
Print Assumptions C83_ledger_exact_refuted.
Example C83_case : exists l, car_loan = Ok l /\ fn_months l = 0%Z /\ fn_left l = fn_amount l /\ fn_bank l <> fn_loan l /\ fn_interest l <> fn_loan l /\
  ordinary_amount (fn_amount l) /\ ordinary_rate (fn_rate l) /\ finite (fn_payment l) /\
  let A := value (fn_amount l) in let m := value (fn_rate l) / 12 in let p := value (fn_payment l) in
  0 <= p <= 4 * A /\ (forall j, (j <= 12)%nat -> Rabs (schedule A m p j) <= 2 * A) /\ 30 * ulp_half * growth_sum m 12 <= 1.
Proof.
  destruct car_created as (l & E & B1 & B2 & B3 & B4 & B5 & B6 & B7 & B8). destruct car_terms as (H1 & H2 & H3). exists l. split; [exact E|]. split; [exact B5|]. split; [exact B4|].
  rewrite B1, B2, B3, B6, B7. split; [discriminate|]. split; [discriminate|]. split; [exact H1|]. split; [exact H2|]. split; [exact B8|].
  rewrite car_loan_eq in E. exact (C84_schedule_in_range pow_cr C84_accurate_pow_exists "Bank/Default" "Car Loan" "Expense/Interest" (f_of 1000) car_rate 12 H1 H2 ltac:(lia) H3 l E).
Qed.
