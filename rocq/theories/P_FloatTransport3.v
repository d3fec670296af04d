(** The correlations of natural convection. *)
From Verif Require Import Prelude M_Lists M_Thermochem M_Stoichiometry Spec_Stoich M_Ieee Spec_Ieee P_Ieee M_FloatCompare M_FloatMix P_FloatMix M_FloatLoan P_FloatLoan M_FloatStoich Spec_FloatStoich P_Within P_FloatReports2 P_FloatLoan2
  P_FloatStoich P_FloatStoich2 P_FloatStoich3 Properties_FloatLoan P_FloatGas M_Physical M_Transport M_FloatTransport Spec_FloatTransport P_FloatTransport P_FloatTransport2.
From Coq Require Import Reals Qreals List Lra Lia.
From Flocq Require Import Core BinarySingleNaN.
Import ListNotations.
Local Open Scope list_scope.
Local Open Scope R_scope.

Lemma npow_pos x y : 0 < x -> npow x y = Ok (Rpower x y).
Proof. intros X. unfold npow. destruct (Rlt_dec x 0); [lra|]. destruct (Req_EM_T x 0); [lra|]. reflexivity. Qed.
Lemma rdiv_pos x y : 0 < y -> rdiv x y = Ok (x / y).
Proof. intros Y. unfold rdiv. destruct (Req_EM_T y 0); [lra|]. reflexivity. Qed.
Lemma finite_lit n d : (0 < n <= 2 ^ 53)%Z -> (Zpos d <= 2 ^ 53)%Z -> / 100 <= IZR n / IZR (Zpos d) <= 100 -> finite (literal64 (n # d)).
Proof. intros N D R. exact (proj1 (lit_val (n # d) N D (ten_range _ (proj1 R) (proj2 R)))). Qed.
Lemma expo_lit n d q : (0 < n <= 2 ^ 53)%Z -> (Zpos d <= 2 ^ 53)%Z -> IZR n / IZR (Zpos d) = q -> / 100 <= q <= 1 / 2 -> finite (literal64 (n # d)) /\ Rabs (value (literal64 (n # d)) - q) <= ulp_half / 2.
Proof.
  intros N D <- R. destruct (lit_val (n # d) N D (ten_range _ (proj1 R) ltac:(lra))) as (F & _ & _ & E & _). split; auto. eapply Rle_trans; [exact E|]. cbn [Qnum Qden]. pose proof ulp_half_pos. nra.
Qed.
Lemma expo_div n d q : (0 < n <= 2 ^ 53)%Z -> (0 < d <= 2 ^ 53)%Z -> IZR n / IZR d = q -> / 100 <= q <= 1 / 2 ->
  pydiv64 (whole64 n) (whole64 d) = Ok (div64 (whole64 n) (whole64 d)) /\ finite (div64 (whole64 n) (whole64 d)) /\ Rabs (value (div64 (whole64 n) (whole64 d)) - q) <= ulp_half / 2.
Proof.
  intros N D <- R. destruct (ratio_val n d N D (ten_range _ (proj1 R) ltac:(lra))) as (P & F & _ & _ & E & _). split; auto. split; auto. eapply Rle_trans; [exact E|]. pose proof ulp_half_pos. nra.
Qed.
Section pow.
Variable pow64 : float64 -> float64 -> res float64.
Hypothesis POW : accurate_power pow64.
Lemma quarter_step n a x X : (n <= 500)%nat -> (a < 900)%nat -> near n a x X -> exists z, pow64 x (literal64 (1 # 4)) = Ok z /\ near (3 + n) a z (Rpower X (1 / 4)).
Proof. intros N A H. apply (near_powx pow64 POW); auto; [apply finite_lit; [lia|lia|lra]|lra|exact quarter_val]. Qed.
Theorem correlate_ok c n m x y X Y : (n <= 100)%nat -> (m <= 100)%nat -> near n 98 x X -> near m 60 y Y ->
  exists v V, fcorrelate pow64 c x y = Ok v /\ correlate c X Y = Ok V /\ near (116 + n + (m + m)) 300 v V.
Proof.
  intros N M HX HY. pose proof (near_pos _ _ _ _ HX) as [PX Px]. pose proof (near_pos _ _ _ _ HY) as [PY Py].
  assert (E827 : exists v V, fcorrelate pow64 Nu_8_27 x y = Ok v /\ correlate Nu_8_27 X Y = Ok V /\ near (116 + n + (m + m)) 300 v V).
  { unfold fcorrelate, correlate. destruct (quarter_step n 98 x X ltac:(lia) ltac:(lia) HX) as (a & -> & Na). cbn [bind]. rewrite (npow_pos X) by auto. cbn [bind].
    pose proof (near_lit 492 1000 (492 / 1000) eq_refl eq_refl ltac:(lia) ltac:(lia) ltac:(lra)) as L1. destruct (ndiv _ _ _ _ _ _ _ _ L1 HY ltac:(lia) ltac:(lia) ltac:(lia)) as (-> & N1). cbn [bind]. rewrite rdiv_pos by auto. cbn [bind].
    destruct (ratio_val 9 16 ltac:(lia) ltac:(lia) (ten_range (9 / 16) ltac:(lra) ltac:(lra))) as (-> & Fe & _). cbn [bind]. pose proof (near_pos _ _ _ _ N1) as [P1 _].
    destruct (near_powx pow64 POW (S (1 + m)) (10 + 60) _ _ _ (9 / 16) ltac:(lia) ltac:(lia) N1 Fe ltac:(lra) nine_sixteenths_val) as (b & -> & Nb).
    cbn [bind]. rewrite npow_pos by auto. cbn [bind]. pose proof (near_pos _ _ _ _ Nb) as [Pb _].
    destruct (expo_div 4 9 (4 / 9) ltac:(lia) ltac:(lia) eq_refl ltac:(lra)) as (-> & F4 & E4). cbn [bind].
    assert (Ns : near (S (3 + S (1 + m))) 71 (add64 (whole64 1) b) (1 + Rpower (492 / 1000 / Y) (9 / 16))).
    { apply near_add; [lia|lia| |]; [apply (near_wide 0 (3 + S (1 + m)) 10 70); [lia|lia|exact (near_whole 1 ltac:(lia))]|exact Nb]. }
    destruct (near_powq pow64 POW (S (3 + S (1 + m))) 71 _ _ _ (4 / 9) ltac:(lia) ltac:(lia) Ns F4 ltac:(lra) E4) as (d & -> & Nd). cbn [bind]. rewrite npow_pos by lra. cbn [bind]. pose proof (near_pos _ _ _ _ Nd) as [Pd _].
    pose proof (near_lit 67 100 (67 / 100) eq_refl eq_refl ltac:(lia) ltac:(lia) ltac:(lra)) as L2. pose proof (nmul _ _ _ _ _ _ _ _ L2 Na ltac:(lia) ltac:(lia) ltac:(lia)) as N2.
    destruct (ndiv _ _ _ _ _ _ _ _ N2 Nd ltac:(lia) ltac:(lia) ltac:(lia)) as (-> & N3). cbn [bind]. rewrite rdiv_pos by auto. cbn [bind]. eexists. eexists. split; [reflexivity|]. split; [reflexivity|].
    pose proof (near_lit 68 100 (68 / 100) eq_refl eq_refl ltac:(lia) ltac:(lia) ltac:(lra)) as L3.
    eapply near_wide; [| |apply near_add; [| |eapply near_wide; [| |exact L3]|exact N3]]; lia. }
  destruct c; [| exact E827 | exact E827 | | |]; clear E827; unfold fcorrelate, correlate.
  - destruct (quarter_step n 98 x X ltac:(lia) ltac:(lia) HX) as (a & -> & Na). cbn [bind]. rewrite (npow_pos X) by auto. cbn [bind].
    pose proof (near_lit 952 1000 (952 / 1000) eq_refl eq_refl ltac:(lia) ltac:(lia) ltac:(lra)) as L1.
    assert (Ns : near (S (S m)) 61 (add64 (literal64 (952 # 1000)) y) (952 / 1000 + Y)). { apply near_add; [lia|lia| |]; [eapply near_wide; [| |exact L1]; lia|eapply near_wide; [| |exact HY]; lia]. }
    destruct (ndiv _ _ _ _ _ _ _ _ HY Ns ltac:(lia) ltac:(lia) ltac:(lia)) as (-> & N1). cbn [bind]. rewrite rdiv_pos by lra. cbn [bind]. pose proof (near_pos _ _ _ _ N1) as [P1 _].
    destruct (quarter_step (S (m + S (S m))) (60 + 61) _ _ ltac:(lia) ltac:(lia) N1) as (b & -> & Nb). cbn [bind]. rewrite npow_pos by auto. cbn [bind].
    pose proof (near_lit 678 1000 (678 / 1000) eq_refl eq_refl ltac:(lia) ltac:(lia) ltac:(lra)) as L2. pose proof (nmul _ _ _ _ _ _ _ _ L2 Na ltac:(lia) ltac:(lia) ltac:(lia)) as N2.
    pose proof (nmul _ _ _ _ _ _ _ _ N2 Nb ltac:(lia) ltac:(lia) ltac:(lia)) as N3. eexists. eexists. split; [reflexivity|]. split; [reflexivity|]. eapply near_wide; [| |exact N3]; lia.
  - destruct (expo_lit 2 10 (1 / 5) ltac:(lia) ltac:(lia) ltac:(lra) ltac:(lra)) as (Fe & Ee). destruct (near_powq pow64 POW n 98 x X _ (1 / 5) ltac:(lia) ltac:(lia) HX Fe ltac:(lra) Ee) as (a & -> & Na). cbn [bind]. rewrite npow_pos by auto. cbn [bind].
    pose proof (near_lit 58 100 (58 / 100) eq_refl eq_refl ltac:(lia) ltac:(lia) ltac:(lra)) as L2. pose proof (nmul _ _ _ _ _ _ _ _ L2 Na ltac:(lia) ltac:(lia) ltac:(lia)) as N2.
    eexists. eexists. split; [reflexivity|]. split; [reflexivity|]. eapply near_wide; [| |exact N2]; lia.
  - destruct (quarter_step n 98 x X ltac:(lia) ltac:(lia) HX) as (a & -> & Na). cbn [bind]. rewrite (npow_pos X) by auto. cbn [bind].
    pose proof (near_lit 59 100 (59 / 100) eq_refl eq_refl ltac:(lia) ltac:(lia) ltac:(lra)) as L2. pose proof (nmul _ _ _ _ _ _ _ _ L2 Na ltac:(lia) ltac:(lia) ltac:(lia)) as N2.
    eexists. eexists. split; [reflexivity|]. split; [reflexivity|]. eapply near_wide; [| |exact N2]; lia.
  - destruct (expo_div 1 3 (1 / 3) ltac:(lia) ltac:(lia) eq_refl ltac:(lra)) as (-> & Fe & Ee). cbn [bind]. destruct (near_powq pow64 POW n 98 x X _ (1 / 3) ltac:(lia) ltac:(lia) HX Fe ltac:(lra) Ee) as (a & -> & Na). cbn [bind]. rewrite npow_pos by auto. cbn [bind].
    pose proof (near_lit 1 10 (1 / 10) eq_refl eq_refl ltac:(lia) ltac:(lia) ltac:(lra)) as L2. pose proof (nmul _ _ _ _ _ _ _ _ L2 Na ltac:(lia) ltac:(lia) ltac:(lia)) as N2.
    eexists. eexists. split; [reflexivity|]. split; [reflexivity|]. eapply near_wide; [| |exact N2]; lia.
Qed.
End pow.
