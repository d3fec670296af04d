(** A surface colder than the fluid. *)
From Verif Require Import Prelude M_Lists M_Thermochem M_Stoichiometry Spec_Stoich M_Ieee Spec_Ieee P_Ieee M_FloatCompare M_FloatMix P_FloatMix M_FloatLoan P_FloatLoan M_FloatStoich Spec_FloatStoich P_Within P_FloatReports2 P_FloatLoan2
  P_FloatStoich P_FloatStoich2 P_FloatStoich3 Properties_FloatLoan P_FloatGas M_Physical M_Transport Spec_Transport P_Transport P_Convection Properties_Transport M_FloatTransport Spec_FloatTransport P_FloatTransport P_FloatTransport2 P_FloatTransport3 P_FloatTransport4.
From Coq Require Import Reals Qreals List Lra Lia.
From Flocq Require Import Core BinarySingleNaN.
Import ListNotations.
Local Open Scope list_scope.
Local Open Scope R_scope.

Definition anti (x y : float64) : Prop := finite y /\ value y = - value x.
Lemma anti_sub x y : finite x -> finite y -> finite (sub64 x y) -> anti (sub64 x y) (sub64 y x).
Proof.
  intros Fx Fy F. rewrite sub_add in F. destruct (add_finite _ _ F) as (_ & _ & V). rewrite <- sub_add in V, F. rewrite neg_value in V. pose proof (value_lt_max (sub64 x y)) as B.
  assert (E : rnd (value y - value x) = - value (sub64 x y)). { rewrite V. replace (value y - value x) with (- (value x + - value y)) by ring. apply round_NE_opp. }
  destruct (P_FloatMix.sub_ok y x Fy Fx) as [F' V']; [rewrite E, Rabs_Ropp; exact B|]. split; [exact F'|]. now rewrite V', E.
Qed.
Lemma anti_mul_r a x y : anti x y -> finite (mul64 a x) -> anti (mul64 a x) (mul64 a y).
Proof.
  intros [Fy Vy] F. destruct (mul_finite _ _ F) as (Fa & Fx & V). pose proof (value_lt_max (mul64 a x)) as B.
  assert (E : rnd (value a * value y) = - value (mul64 a x)). { rewrite V, Vy. replace (value a * - value x) with (- (value a * value x)) by ring. apply round_NE_opp. }
  destruct (P_FloatMix.mul_ok a y Fa Fy) as [F' V']; [rewrite E, Rabs_Ropp; exact B|]. split; [exact F'|]. now rewrite V', E.
Qed.
Lemma anti_mul_l a x y : anti x y -> finite (mul64 x a) -> anti (mul64 x a) (mul64 y a).
Proof.
  intros [Fy Vy] F. destruct (mul_finite _ _ F) as (Fx & Fa & V). pose proof (value_lt_max (mul64 x a)) as B.
  assert (E : rnd (value y * value a) = - value (mul64 x a)). { rewrite V, Vy. replace (- value x * value a) with (- (value x * value a)) by ring. apply round_NE_opp. }
  destruct (P_FloatMix.mul_ok y a Fy Fa) as [F' V']; [rewrite E, Rabs_Ropp; exact B|]. split; [exact F'|]. now rewrite V', E.
Qed.
Lemma anti_div a x y : value a <> 0 -> anti x y -> finite (div64 x a) -> anti (div64 x a) (div64 y a).
Proof.
  intros N [Fy Vy] F. destruct (div_finite _ _ N F) as (_ & V). pose proof (value_lt_max (div64 x a)) as B.
  assert (E : rnd (value y / value a) = - value (div64 x a)). { rewrite V, Vy. replace (- value x / value a) with (- (value x / value a)) by (field; auto). apply round_NE_opp. }
  destruct (P_FloatMix.div_ok y a Fy N) as [F' V']; [rewrite E, Rabs_Ropp; exact B|]. split; [exact F'|]. now rewrite V', E.
Qed.
Theorem Gr_anti pow64 L Ts Tf beta nu g w : finite Ts -> finite Tf -> finite (sub64 Ts Tf) -> fGr pow64 L Ts Tf beta nu g = Ok w -> finite w ->
  (forall d, pow64 nu (whole64 2) = Ok d -> finite (mul64 (mul64 g beta) (sub64 Ts Tf)) /\ forall c, pow64 L (whole64 3) = Ok c -> finite (mul64 (mul64 (mul64 g beta) (sub64 Ts Tf)) c) /\ value d <> 0) ->
  exists v, fGr pow64 L Tf Ts beta nu g = Ok v /\ anti w v.
Proof.
  intros Fs Ff FS. unfold fGr. destruct (pow64 L (whole64 3)) as [c|]; cbn [bind]; [|discriminate]. destruct (pow64 nu (whole64 2)) as [d|]; cbn [bind]; [|discriminate].
  intros E Fw K. destruct (K d eq_refl) as [F1 K']. destruct (K' c eq_refl) as [F2 N]. unfold pydiv64 in *. destruct (is_zero64 d); [discriminate|]. injection E as <-. eexists. split; [reflexivity|].
  apply anti_div; auto. apply anti_mul_l; auto. apply anti_mul_r; auto. now apply anti_sub.
Qed.
Theorem Gr_cold pow64 L Ts Tf beta nu g : accurate_power pow64 -> sized 60 L -> sized 60 beta -> sized 60 nu -> sized 60 g -> finite Ts -> finite Tf -> / 2 ^ 60 <= value Tf - value Ts <= 2 ^ 60 ->
  exists v w, fGr pow64 L Ts Tf beta nu g = Ok v /\ fGr pow64 L Tf Ts beta nu g = Ok w /\ finite v /\ value v = - value w /\ within 12 (- value v) (grashof (value L) (value Tf) (value Ts) (value beta) (value nu) (value g)).
Proof.
  intros POW SL Sb Sn Sg Fs Ff R. destruct (Gr_ok pow64 POW L Tf Ts beta nu g SL Sb Sn Sg Ff Fs R) as (w & Ew & Fw & Ww & _).
  destruct (Gr_anti pow64 L Tf Ts beta nu g w Ff Fs) as (v & Ev & Fv & Vv); auto.
  - pose proof (near_sub 60 Tf Ts ltac:(lia) Ff Fs R) as (F & _). exact F.
  - apply near_sized in SL, Sb, Sn, Sg. destruct (near_cube pow64 POW 0 60 _ _ ltac:(lia) ltac:(lia) SL) as (c & -> & Nc). destruct (near_square pow64 POW 0 60 _ _ ltac:(lia) ltac:(lia) Sn) as (d & -> & Nd).
    pose proof (nmul _ _ _ _ _ _ _ _ Sg Sb ltac:(lia) ltac:(lia) ltac:(lia)) as N1. pose proof (near_sub 60 Tf Ts ltac:(lia) Ff Fs R) as N2.
    pose proof (nmul _ _ _ _ _ _ _ _ N1 N2 ltac:(lia) ltac:(lia) ltac:(lia)) as N3. pose proof (nmul _ _ _ _ _ _ _ _ N3 Nc ltac:(lia) ltac:(lia) ltac:(lia)) as N4.
    intros d' E. injection E as <-. split; [apply N3|]. intros c' E. injection E as <-. split; [apply N4|]. apply near_pos in Nd. lra.
  - exists v, w. split; [exact Ev|]. split; [exact Ew|]. split; [exact Fv|]. split; [exact Vv|]. rewrite Vv, Ropp_involutive. exact Ww.
Qed.
