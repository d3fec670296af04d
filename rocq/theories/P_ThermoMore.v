(** Creation of packages, and the temperature after mixing. *)
From Verif Require Import Prelude M_Stoichiometry M_Lists M_Thermochem M_ThermoMat Spec_Stoich Spec_Thermo Spec_ThermoMat Spec_Secant P_ThermoApi P_Convert P_ThermoMat P_Secant P_Mixing.
From Coq Require Import Reals Lra Ranalysis5.
Local Open Scope list_scope.
Local Open Scope R_scope.

Lemma mapM_ndiv mass t a : t <> 0 -> mapM (fun x => ndiv (mass * x) t) a = Ok (rscale a (mass / t)).
Proof. intros H. rewrite (mapM_ext _ (fun x => Ok (x * (mass / t)))). - apply mapM_Ok. - intros x _. rewrite ndiv_ok by auto. f_equal. field. auto. Qed.
Lemma create_ok db m n a d mass P T (norm : bool) : find_assay m n = Ok a -> length a = length (tm_compounds m) -> NoDup (tm_compounds m) -> known db m ->
  is_coal m n = Ok false -> custom_of m n = Ok d -> (norm = true -> rsum a <> 0) ->
  exists p, create_package db m (Some n) mass P T norm = Ok p /\ tp_material p = m /\ tp_masses p = rscale a (if norm then mass / rsum a else mass) /\ wf p /\ tp_P p = P /\ tp_T p = T /\ tp_coal p = false /\
    (not_negative p \/ 0 < mass_of p -> consistent db p) /\ forall w, weigh w p = (if norm then mass / rsum a else mass) * weigh_list w (tm_compounds m) a.
Proof.
  intros F L N K C D Z. unfold create_package, get_assay_total. rewrite F. cbn [bind]. set (k := if norm then mass / rsum a else mass).
  assert (E : mapM (fun x => ndiv (mass * x) (if norm then rsum a else 1)) a = Ok (rscale a k)).
  { unfold k. destruct norm; [apply mapM_ndiv; auto|]. rewrite mapM_ndiv by lra. f_equal. f_equal. field. }
  assert (Q : exists p, new_package db m (rscale a k) P T false (lookup "HHV[MJ/kg]" d) = Ok p /\ tp_material p = m /\ tp_masses p = rscale a k /\ tp_P p = P /\ tp_T p = T /\ tp_coal p = false /\ (0 < rsum (rscale a k) \/ (forall x, In x (rscale a k) -> 0 <= x) -> consistent db p)).
  { unfold new_package. destruct (Rlt_dec 0 (rsum (rscale a k))) as [H|H].
    - rewrite calculate_H_ok; [|auto|split; cbn; auto; unfold rscale; now rewrite map_length|auto]. cbn [bind]. eexists. split; [reflexivity|]. cbn. repeat split; auto.
    - eexists. split; [reflexivity|]. cbn. repeat (split; [reflexivity|]). intros [X|X]; [lra|]. unfold consistent, enthalpy, weigh. cbn. symmetry. apply weigh_zero. apply rsum_zero; auto. lra. }
  destruct Q as (p & Ep & M & X & Pp & Tp & Cp & Co). exists p. split.
  - destruct norm; cbn [bind]; rewrite E; cbn [bind]; rewrite C; cbn [bind]; unfold get_HHV; rewrite D; exact Ep.
  - do 2 (split; auto). assert (W : wf p) by (split; [congruence|rewrite X, M; unfold rscale; now rewrite map_length]). do 4 (split; auto).
    split; [|intros w; unfold weigh; rewrite X, M; apply weigh_scale]. intros [Q|Q]; apply Co; [right; rewrite <- X; exact Q|]. left. rewrite <- X. rewrite mass_rsum in Q by auto. exact Q.
Qed.

(** * The mixing temperature *)
Lemma slopes_continuous g lo hi m M x : slopes g lo hi m M -> 0 < m -> lo < x < hi -> continuity_pt g x.
Proof.
  intros S Hm X. unfold continuity_pt, continue_in, limit1_in, limit_in. intros eps He. cbn. unfold R_dist.
  assert (Mp : 0 < M). { destruct (S x hi) as [U V]; try lra. assert (0 < m * (hi - x)) by (apply Rmult_lt_0_compat; lra). assert (0 < M * (hi - x)) by lra. destruct (Rlt_le_dec 0 M); auto. assert (M * (hi - x) <= 0 * (hi - x)) by (apply Rmult_le_compat_r; lra). lra. }
  set (d := Rmin (eps / M) (Rmin (x - lo) (hi - x))). assert (Dp : 0 < d). { unfold d. repeat apply Rmin_glb_lt; try lra. now apply Rdiv_lt_0_compat. }
  exists d. split; [lra|]. intros y [_ Hy]. assert (D1 : d <= eps / M) by apply Rmin_l. assert (D2 : d <= x - lo) by (unfold d; eapply Rle_trans; [apply Rmin_r|apply Rmin_l]).
  assert (D3 : d <= hi - x) by (unfold d; eapply Rle_trans; [apply Rmin_r|apply Rmin_r]). assert (Y : x - d < y < x + d) by (revert Hy; unfold Rabs; destruct (Rcase_abs (y - x)); lra).
  assert (B : M * Rabs (y - x) < eps). { apply Rlt_le_trans with (M * d); [apply Rmult_lt_compat_l; auto|]. replace eps with (M * (eps / M)) by (field; lra). apply Rmult_le_compat_l; lra. }
  destruct (Rtotal_order x y) as [L|[->|L]].
  - destruct (S x y) as [U V]; try lra. rewrite Rabs_right in B by lra. assert (0 <= m * (y - x)) by (apply Rmult_le_pos; lra). rewrite Rabs_right; lra.
  - rewrite Rminus_diag_eq, Rabs_R0 by auto. lra.
  - destruct (S y x) as [U V]; try lra. rewrite Rabs_left in B by lra. assert (0 <= m * (x - y)) by (apply Rmult_le_pos; lra). rewrite Rabs_left1 by lra. lra.
Qed.
Lemma root_exists g lo hi m M a b H : slopes g lo hi m M -> 0 < m -> lo < a -> a <= b -> b < hi -> g a <= H <= g b -> exists r, a <= r <= b /\ g r = H.
Proof.
  intros S Hm A AB B X. destruct (Req_EM_T (g a) H) as [E|E]; [exists a; split; auto; lra|]. destruct (Req_EM_T (g b) H) as [E'|E']; [exists b; split; auto; lra|].
  assert (a < b). { destruct AB as [|<-]; auto. lra. }
  destruct (IVT_interv (fun x => g x - H) a b) as (r & Hr & Er); try lra.
  - intros x Hx. apply (continuity_pt_minus g (fun _ => H)); [apply (slopes_continuous g lo hi m M); auto; lra|apply continuity_pt_const; intros ? ?; reflexivity].
  - exists r. split; auto. lra.
Qed.
Lemma new_package_same db m ms P T : known db m -> NoDup (tm_compounds m) -> length ms = length (tm_compounds m) -> exists H, new_package db m ms P T false None = Ok (mktp m ms P T H false None).
Proof.
  intros K N L. unfold new_package. destruct (Rlt_dec 0 (rsum ms)) as [H|H]; [|eauto]. rewrite calculate_H_ok; auto; [|split; auto]. cbn [bind]. eexists. reflexivity.
Qed.
Lemma set_H_converges db p H r rho lo hi a k : regular_material db (tp_material p) -> wf p -> not_negative p -> tp_coal p = false -> - (27315 / 100) < lo ->
  heat_capacities db (tp_material p) lo hi a k -> 1 <= k <= 2 -> 0 < weigh a p -> enthalpy db p r = H -> lo <= r - rho -> r + rho <= hi ->
  Rabs (tp_T p - r) <= rho -> Rabs (tp_T p + 10 - r) <= rho ->
  exists T, set_H db p H = (set_TH p T H, Ok tt) /\ Rabs (T - r) <= rho /\
    (Rabs (enthalpy db p T - H) <= (k - 1) * (1 / 100000) \/ Rabs (enthalpy db p T - H) <= (k - 1) ^ 48 * Rabs (enthalpy db p (tp_T p + 10) - H)).
Proof.
  intros Rg W Nn C Lo Hc Hk Hp Hr Rl Rh T0 T1. pose proof (regular_known _ _ Rg) as K. pose proof (enthalpy_slopes db p lo hi a k Rg Nn Lo Hc) as S.
  destruct (find_T_converges (enthalpy db p) (calculate_H db (set_TH p (tp_T p) H)) lo hi (weigh a p) (k * weigh a p) r H) with (rho := rho) (T := tp_T p) as (T & E & N & B); auto.
  - intros x _. now rewrite calculate_H_ok.
  - assert (1 * weigh a p <= k * weigh a p) by (apply Rmult_le_compat_r; lra). lra.
  - assert (k * weigh a p <= 2 * weigh a p) by (apply Rmult_le_compat_r; lra). lra.
  - exists T. unfold set_H, calculate_T. cbn [tp_T set_TH]. rewrite E. split; auto. split; auto. replace (k * weigh a p / weigh a p - 1) with (k - 1) in B by (field; lra). exact B.
Qed.
Lemma radd_nonneg a b r : radd a b = Ok r -> (forall x, In x a -> 0 <= x) -> (forall x, In x b -> 0 <= x) -> forall x, In x r -> 0 <= x.
Proof.
  revert b r. induction a as [|y a IH]; intros [|z b] r E A B x X; cbn [radd] in E; try discriminate; [injection E as <-; destruct X|].
  destruct (radd a b) as [r'|] eqn:E'; cbn [bind] in E; [|discriminate]. injection E as <-. destruct X as [<-|X].
  - assert (0 <= y) by (apply A; cbn; auto). assert (0 <= z) by (apply B; cbn; auto). lra. - eapply IH; eauto; intros; [apply A|apply B]; cbn; auto.
Qed.
Lemma mixture db p o m Tm a k : regular_material db m -> tp_material p = m -> tp_material o = m -> wf p -> wf o -> not_negative p -> not_negative o -> consistent db p -> consistent db o ->
  35 <= tp_T p <= Tm -> 35 <= tp_T o <= Tm -> heat_capacities db m 25 (2 * Tm - 25) a k -> 1 <= k <= 2 -> 0 < weigh a p -> 0 < weigh a o ->
  exists r t, add db p (APackage o) = Ok r /\ Rmin (tp_T p) (tp_T o) <= t <= Rmax (tp_T p) (tp_T o) /\ enthalpy db r t = tp_H r /\
    weigh a r * Rabs (tp_T r - t) <= Rabs (enthalpy db r (tp_T r) - tp_H r) /\
    (Rabs (enthalpy db r (tp_T r) - tp_H r) <= (k - 1) * (1 / 100000) \/ Rabs (enthalpy db r (tp_T r) - tp_H r) <= (k - 1) ^ 48 * Rabs (enthalpy db r 35 - tp_H r)).
Proof.
  intros Rg Mp Mo Wp Wo Np No Cp Co Tp To Hc Hk Ap Ao. pose proof (regular_known _ _ Rg) as K.
  destruct (radd_ok (tp_masses p) (tp_masses o)) as (ms & E & Lm); [rewrite (proj2 Wp), (proj2 Wo); congruence|].
  assert (N : NoDup (tm_compounds m)) by (rewrite <- Mp; apply Wp). assert (L : length ms = length (tm_compounds m)) by (rewrite Lm, (proj2 Wp); congruence).
  destruct (new_package_same db m ms 1 25 K N L) as [H0 E1]. set (r0 := mktp m ms 1 25 H0 false None) in *. set (H := tp_H p + tp_H o).
  assert (V : forall w, weigh w r0 = weigh w p + weigh w o). { intros w. unfold weigh. cbn. rewrite Mp, Mo. now apply weigh_radd. }
  assert (Ve : forall T, enthalpy db r0 T = enthalpy db p T + enthalpy db o T) by (intros; apply V).
  assert (W0 : wf r0) by (split; auto). assert (N0 : not_negative r0) by (intros x; apply (radd_nonneg _ _ _ E); auto).
  assert (S : slopes (enthalpy db r0) 25 (2 * Tm - 25) (weigh a r0) (k * weigh a r0)) by (apply enthalpy_slopes; auto; lra).
  assert (A0 : 0 < weigh a r0) by (rewrite V; lra).
  assert (Sp : slopes (enthalpy db p) 25 (2 * Tm - 25) (weigh a p) (k * weigh a p)) by (apply enthalpy_slopes; rewrite ?Mp; auto; lra).
  assert (So : slopes (enthalpy db o) 25 (2 * Tm - 25) (weigh a o) (k * weigh a o)) by (apply enthalpy_slopes; rewrite ?Mo; auto; lra).
  assert (mono : forall g c M x y, slopes g 25 (2 * Tm - 25) c M -> 0 < c -> 35 <= x <= y -> y <= Tm -> g x <= g y).
  { intros g c M x y Sg Hc' X Y. destruct (Req_EM_T x y) as [->|D]; [lra|]. destruct (Sg x y) as [U _]; try lra. assert (0 <= c * (y - x)) by (apply Rmult_le_pos; lra). lra. }
  assert (lo : 35 <= Rmin (tp_T p) (tp_T o)) by (apply Rmin_glb; lra). assert (hi : Rmax (tp_T p) (tp_T o) <= Tm) by (apply Rmax_lub; lra).
  pose proof (Rmin_l (tp_T p) (tp_T o)) as m1. pose proof (Rmin_r (tp_T p) (tp_T o)) as m2. pose proof (Rmax_l (tp_T p) (tp_T o)) as x1. pose proof (Rmax_r (tp_T p) (tp_T o)) as x2.
  destruct (root_exists (enthalpy db r0) 25 (2 * Tm - 25) (weigh a r0) (k * weigh a r0) (Rmin (tp_T p) (tp_T o)) (Rmax (tp_T p) (tp_T o)) H S A0) as (t & Ht & Et); try lra.
  { unfold H. rewrite Cp, Co. rewrite !Ve.
    pose proof (mono _ _ _ (Rmin (tp_T p) (tp_T o)) (tp_T p) Sp Ap). pose proof (mono _ _ _ (Rmin (tp_T p) (tp_T o)) (tp_T o) So Ao). pose proof (mono _ _ _ (tp_T p) (Rmax (tp_T p) (tp_T o)) Sp Ap). pose proof (mono _ _ _ (tp_T o) (Rmax (tp_T p) (tp_T o)) So Ao). lra. }
  destruct (set_H_converges db r0 H t (t - 25) 25 (2 * Tm - 25) a k) as (T & ET & Nt & B); auto; cbn [tp_T tp_material r0]; try lra.
  { rewrite Rabs_left1; lra. } { unfold Rabs. destruct (Rcase_abs _); lra. }
  exists (set_P (set_TH r0 T H) (tp_P p)), t. split; [|split; [exact Ht|]; split; [exact Et|]; split].
  - unfold add. rewrite Mp, Mo, Z.eqb_refl, E. cbn [bind]. rewrite E1. cbn [bind]. fold H. unfold finish. rewrite ET. reflexivity.
  - cbn [tp_T tp_H set_P set_TH]. change (weigh a (set_P (set_TH r0 T H) (tp_P p))) with (weigh a r0). change (enthalpy db (set_P (set_TH r0 T H) (tp_P p)) T) with (enthalpy db r0 T).
    rewrite <- Et. assert (Tr : 25 <= T <= 2 * Tm - 25) by (revert Nt; unfold Rabs; destruct (Rcase_abs _); lra).
    destruct (Rtotal_order T t) as [L1|[->|L1]].
    + destruct (S T t) as [U _]; try lra. assert (0 <= weigh a r0 * (t - T)) by (apply Rmult_le_pos; lra). rewrite !Rabs_left1 by lra. lra.
    + rewrite (Rminus_diag_eq t t), Rabs_R0 by auto. pose proof (Rabs_pos (enthalpy db r0 t - enthalpy db r0 t)). lra.
    + destruct (S t T) as [U _]; try lra. assert (0 <= weigh a r0 * (T - t)) by (apply Rmult_le_pos; lra). rewrite !Rabs_right by lra. lra.
  - cbn [tp_T tp_H set_P set_TH]. change (enthalpy db (set_P (set_TH r0 T H) (tp_P p))) with (enthalpy db r0). cbn [tp_T r0] in B. replace (25 + 10) with 35 in B by lra. exact B.
Qed.
