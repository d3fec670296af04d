(** Proofs about the friction factors. *)
From Verif Require Import Prelude M_Thermochem M_Transport Spec_Transport P_Physical.
From Coq Require Import Reals Ranalysis5 Lra Lia Psatz.
Local Open Scope R_scope.

Lemma ln10_pos : 0 < ln 10. Proof. rewrite <- ln_1. apply ln_increasing; lra. Qed.
Lemma lg_inc x y : 0 < x -> x < y -> lg x < lg y.
Proof. intros X Y. unfold lg. apply Rmult_lt_compat_r; [apply Rinv_0_lt_compat, ln10_pos|]. now apply ln_increasing. Qed.
Lemma lg_1 : lg 1 = 0. Proof. unfold lg. rewrite ln_1. unfold Rdiv. ring. Qed.
Lemma lg_10 : lg 10 = 1. Proof. unfold lg. pose proof ln10_pos. field. lra. Qed.
Lemma lg_100 : lg 100 = 2. Proof. unfold lg. replace 100 with (10 * 10) by lra. rewrite ln_mult by lra. pose proof ln10_pos. field. lra. Qed.
Lemma lg_inv x : 0 < x -> lg (/ x) = - lg x. Proof. intros. unfold lg. rewrite ln_Rinv by auto. unfold Rdiv. ring. Qed.
Lemma log10_ok x : 0 < x -> log10 x = Ok (lg x).
Proof. intros. unfold log10. destruct (Rlt_dec 0 x); [reflexivity|contradiction]. Qed.
Lemma f_ts_ok Re_D : 10 <= Re_D -> f_ts Re_D = Ok (1 / (1.82 * lg Re_D - 1.64) ^ 2).
Proof.
  intros H. assert (G : 1 <= lg Re_D). { rewrite <- lg_10. destruct (Rle_lt_or_eq_dec _ _ H) as [L| <-]; [left; apply lg_inc; lra|lra]. }
  unfold f_ts. rewrite log10_ok by lra. cbn [bind]. rewrite rdiv_ok by (apply pow_nonzero; lra). replace (182 / 100) with 1.82 by lra. replace (164 / 100) with 1.64 by lra. reflexivity.
Qed.
Lemma sq_div_lt a b : 0 < a -> a < b -> 1 / b ^ 2 < 1 / a ^ 2.
Proof. intros A B. assert (0 < a ^ 2) by now apply pow_lt. assert (a ^ 2 < b ^ 2) by nra. unfold Rdiv. rewrite !Rmult_1_l. apply Rinv_lt_contravar; auto. apply Rmult_lt_0_compat; lra. Qed.
Lemma fpow_ok x : 0 <= x -> fpow x (111 / 100) = Ok (power x 1.11).
Proof. intros. unfold fpow, power. destruct (Rlt_dec x 0); [lra|]. replace (111 / 100) with 1.11 by lra. reflexivity. Qed.
Lemma power_nonneg x y : 0 <= power x y.
Proof. unfold power. destruct (Req_EM_T x 0); [lra|]. unfold Rpower. left. apply exp_pos. Qed.
Lemma power_inc x z y : 0 <= x -> x < z -> 0 < y -> power x y < power z y.
Proof.
  intros X Z Y. unfold power. destruct (Req_EM_T z 0); [lra|]. destruct (Req_EM_T x 0); [unfold Rpower; apply exp_pos|]. unfold Rpower. apply exp_increasing. apply Rmult_lt_compat_l; auto. apply ln_increasing; lra.
Qed.
(** The argument of Haaland's logarithm. *)
Definition haaland_arg (Re_D eps D : R) : R := 6.9 / Re_D + power (eps / D / 3.7) 1.11.
Lemma haaland_ok Re_D eps D : 0 < Re_D -> 0 <= eps -> 0 < D -> haaland_arg Re_D eps D <> 1 ->
  f_tr_Haaland Re_D eps D = Ok (1 / (1.8 * lg (haaland_arg Re_D eps D)) ^ 2).
Proof.
  intros R E P N. unfold f_tr_Haaland. rewrite rdiv_ok by lra. cbn [bind]. rewrite rdiv_ok by lra. cbn [bind].
  assert (Q : 0 <= eps / D / (37 / 10)) by (apply Rmult_le_pos; [apply Rmult_le_pos; [lra|left; now apply Rinv_0_lt_compat]|left; apply Rinv_0_lt_compat; lra]).
  rewrite fpow_ok by auto. cbn [bind]. replace (69 / 10) with 6.9 by lra. replace (37 / 10) with 3.7 in * by lra. fold (haaland_arg Re_D eps D).
  assert (A : 0 < haaland_arg Re_D eps D). { unfold haaland_arg. assert (0 < 6.9 / Re_D) by (apply Rdiv_lt_0_compat; lra). pose proof (power_nonneg (eps / D / 3.7) 1.11). lra. }
  rewrite log10_ok by auto. cbn [bind]. replace (18 / 10) with 1.8 by lra. apply rdiv_ok. apply pow_nonzero.
  assert (lg (haaland_arg Re_D eps D) <> 0). { destruct (Rdichotomy _ _ N) as [L|L]; [pose proof (lg_inc _ _ A L)|pose proof (lg_inc 1 _ Rlt_0_1 L)]; rewrite lg_1 in *; lra. }
  apply Rmult_integral_contrapositive. split; lra.
Qed.
Lemma haaland_lt a b : 0 < a -> a < b -> b < 1 -> 1 / (1.8 * lg a) ^ 2 < 1 / (1.8 * lg b) ^ 2.
Proof.
  intros A B C. pose proof (lg_inc a b A B). pose proof (lg_inc b 1 ltac:(lra) C). rewrite lg_1 in *.
  replace ((1.8 * lg a) ^ 2) with ((- (1.8 * lg a)) ^ 2) by ring. replace ((1.8 * lg b) ^ 2) with ((- (1.8 * lg b)) ^ 2) by ring. apply sq_div_lt; lra.
Qed.

(** * Colebrook *)
Definition colebrook_value (a b f : R) : R := - 2 * lg (a + b / sqrt f) - 1 / sqrt f.
Lemma colebrook_ok f Re_D eps D : 0 < f -> 0 < Re_D -> 0 <= eps -> 0 < D -> colebrook f Re_D eps D = Ok (colebrook_value (eps / D / 3.7) (2.51 / Re_D) f).
Proof.
  intros F R E P. unfold colebrook. rewrite rdiv_ok by lra. cbn [bind]. rewrite rdiv_ok by lra. cbn [bind]. destruct (Rlt_dec f 0); [lra|]. cbn [bind].
  assert (S : 0 < sqrt f) by now apply sqrt_lt_R0. rewrite rdiv_ok by lra. cbn [bind]. replace (37 / 10) with 3.7 by lra. replace (251 / 100) with 2.51 by lra.
  assert (Q : 0 <= eps / D / 3.7) by (apply Rmult_le_pos; [apply Rmult_le_pos; [lra|left; now apply Rinv_0_lt_compat]|left; apply Rinv_0_lt_compat; lra]).
  assert (0 < 2.51 / Re_D / sqrt f) by (apply Rdiv_lt_0_compat; auto; apply Rdiv_lt_0_compat; lra).
  rewrite log10_ok by lra. cbn [bind]. rewrite rdiv_ok by lra. reflexivity.
Qed.
Lemma colebrook_inc a b f g : 0 <= a -> 0 < b -> 0 < f -> f < g -> colebrook_value a b f < colebrook_value a b g.
Proof.
  intros A B F G. assert (S : 0 < sqrt f) by now apply sqrt_lt_R0. assert (S' : sqrt f < sqrt g) by (apply sqrt_lt_1; lra).
  assert (I : / sqrt g < / sqrt f) by (apply Rinv_lt_contravar; auto; apply Rmult_lt_0_compat; lra). assert (0 < / sqrt g) by (apply Rinv_0_lt_compat; lra).
  unfold colebrook_value. assert (lg (a + b / sqrt g) < lg (a + b / sqrt f)); [|unfold Rdiv in *; lra]. apply lg_inc; unfold Rdiv; [|apply Rplus_lt_compat_l, Rmult_lt_compat_l; auto].
  assert (0 < b * / sqrt g) by now apply Rmult_lt_0_compat. lra.
Qed.
Lemma colebrook_root_u a b : 0 <= a < 1 -> 0 < b -> exists u, a < u /\ 0 < u /\ - 2 * lg u - (u - a) / b = 0.
Proof.
  intros A B. set (h := fun u => 2 * lg u + (u - a) / b).
  assert (C : forall u, 0 < u -> continuity_pt h u).
  { intros u U. unfold h, lg, Rdiv. apply continuity_pt_plus.
    - apply (continuity_pt_mult (fun _ => 2) (fun x => ln x * / ln 10)); [apply continuity_pt_const; intros x y; reflexivity|].
      apply (continuity_pt_mult ln (fun _ => / ln 10)); [|apply continuity_pt_const; intros x y; reflexivity]. apply derivable_continuous_pt. exists (/ u). now apply derivable_pt_lim_ln.
    - apply (continuity_pt_mult (fun x => x - a) (fun _ => / b)); [|apply continuity_pt_const; intros x y; reflexivity]. apply (continuity_pt_minus (fun x => x) (fun _ => a)); [apply derivable_continuous_pt, derivable_pt_id|apply continuity_pt_const; intros x y; reflexivity]. }
  assert (L : exists u0, a <= u0 /\ 0 < u0 /\ u0 < 1 /\ h u0 < 0).
  { destruct (Rle_lt_or_eq_dec _ _ (proj1 A)) as [P|Z].
    - exists a. split; [lra|]. split; auto. split; [lra|]. unfold h. pose proof (lg_inc a 1 P (proj2 A)) as Q. rewrite lg_1 in Q. unfold Rdiv. replace (a - a) with 0 by ring. lra.
    - exists (Rmin (1 / 10) b). pose proof (Rmin_l (1 / 10) b). pose proof (Rmin_r (1 / 10) b). assert (M : 0 < Rmin (1 / 10) b) by (apply Rmin_glb_lt; lra).
      split; [lra|]. split; auto. split; [lra|]. unfold h. assert (Q : lg (Rmin (1 / 10) b) <= -1).
      { replace (-1) with (lg (/ 10)) by (rewrite lg_inv, lg_10 by lra; lra). destruct (Rle_lt_or_eq_dec (Rmin (1 / 10) b) (/ 10)) as [W|W]; [lra|left; now apply lg_inc|rewrite W; lra]. }
      assert (K : (Rmin (1 / 10) b - a) / b <= 1). { rewrite <- Z. apply Rmult_le_reg_r with b; auto. unfold Rdiv. rewrite Rmult_assoc, Rinv_l by lra. lra. } lra. }
  destruct L as (u0 & L1 & L2 & L3 & L4).
  assert (H1 : 0 < h 1) by (unfold h; rewrite lg_1; assert (0 < (1 - a) / b) by (apply Rdiv_lt_0_compat; lra); lra).
  destruct (IVT_interv h u0 1) as (u & U & E); auto. { intros v V. apply C. lra. }
  exists u. assert (u0 <> u) by (intros <-; lra). split; [|split; [lra|unfold h in E; lra]].
  destruct (Rle_lt_or_eq_dec a u) as [W|W]; [lra|auto|]. exfalso. lra.
Qed.
Lemma colebrook_root a b : 0 <= a < 1 -> 0 < b -> exists f, 0 < f /\ colebrook_value a b f = 0.
Proof.
  intros A B. destruct (colebrook_root_u a b A B) as (u & U & P & E). set (x := (u - a) / b). assert (X : 0 < x) by (apply Rdiv_lt_0_compat; lra).
  exists ((/ x) * (/ x)). assert (IX : 0 < / x) by now apply Rinv_0_lt_compat. split; [now apply Rmult_lt_0_compat|]. unfold colebrook_value. rewrite sqrt_square by lra.
  replace (b / / x) with (b * x) by (field; lra). replace (1 / / x) with x by (field; lra). unfold x at 1. replace (a + b * ((u - a) / b)) with u by (field; lra). exact E.
Qed.
Lemma colebrook_no_root a b f : 1 <= a -> 0 < b -> 0 < f -> colebrook_value a b f < 0.
Proof.
  intros A B F. assert (S : 0 < / sqrt f) by now apply Rinv_0_lt_compat, sqrt_lt_R0. unfold colebrook_value. assert (0 < b / sqrt f) by now apply Rmult_lt_0_compat.
  pose proof (lg_inc 1 (a + b / sqrt f) Rlt_0_1) as L. rewrite lg_1 in L. unfold Rdiv in *. lra.
Qed.
