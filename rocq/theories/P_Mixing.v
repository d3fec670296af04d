(** Enthalpy of a package as a function of temperature. *)
From Verif Require Import Prelude M_Stoichiometry M_Thermochem M_ThermoMat Spec_Stoich Spec_Thermo Spec_ThermoMat Spec_Secant P_ThermoApi P_Thermo P_Data P_ThermoMat P_Secant.
From Coq Require Import Reals Lra.
From Coquelicot Require Import Coquelicot.
Local Open Scope list_scope.
Local Open Scope R_scope.

Lemma phase_H_total p T : regular p -> exists h, phase_H p T = Ok h.
Proof.
  intros Rg. destruct (regular_sorted _ Rg) as (M & N & C). destruct (regular_Cp _ Rg) as (rl & I & L & E). unfold phase_H. destruct (fst _); [eauto|]. rewrite L. cbn [bind fst snd]. rewrite E. cbn [bind]. eauto.
Qed.
Lemma regular_known db m : regular_material db m -> known db m.
Proof.
  intros Rg c T I. destruct (Rg c I) as (fo & ph & tc & p & E & L1 & P & L2 & R). destruct (phase_H_total p (T + 27315 / 100) R) as [h Eh].
  eexists. apply (thermo_value phase_H db c fo ph tc p T h 1); auto. lra.
Qed.
Lemma H_between p a b lo hi : regular p -> 0 < a < b -> (forall T, a <= T <= b -> exists c, phase_Cp p T = Ok c /\ lo <= c <= hi) ->
  exists ha hb, phase_H p a = Ok ha /\ phase_H p b = Ok hb /\ lo * (b - a) <= hb - ha <= hi * (b - a).
Proof.
  intros Rg Hab HC. pose proof T_ref_pos. destruct (regular_H p a Rg) as (ha & Ea & Ia); [lra|]. destruct (regular_H p b Rg) as (hb & Eb & Ib); [lra|].
  exists ha, hb. split; auto. split; auto. assert (I : is_RInt (fun t => value (phase_Cp p t)) a b (hb - ha)).
  { apply (chasles _ a T_ref b (opp (ha - ph_DHref p)) (hb - ph_DHref p)); [unfold opp; cbn; ring| |exact Ib]. exact (@is_RInt_swap R_NormedModule _ _ _ _ Ia). }
  assert (J : forall d, is_RInt (fun _ => d) a b ((b - a) * d)) by (intros d; exact (is_RInt_const a b d)). rewrite !(Rmult_comm _ (b - a)). split.
  - apply (is_RInt_le (fun _ => lo) (fun t => value (phase_Cp p t)) a b); auto; [lra|]. intros t Ht. destruct (HC t) as (c & -> & Hc); [lra|]. cbn. lra.
  - apply (is_RInt_le (fun t => value (phase_Cp p t)) (fun _ => hi) a b); auto; [lra|]. intros t Ht. destruct (HC t) as (c & -> & Hc); [lra|]. cbn. lra.
Qed.
Lemma specific_between db c x y lo hi : regular_compound db c -> - (27315 / 100) < x < y -> (forall T, x <= T <= y -> exists v, thermo_Cp db c T 1 = Ok v /\ lo <= v <= hi) ->
  lo * (y - x) <= specific_H db c y - specific_H db c x <= hi * (y - x).
Proof.
  intros (fo & ph & tc & p & E & L1 & P & L2 & Rg) X H. set (k := 3600000 * tc_molar_mass tc). assert (Kp : 0 < k) by (unfold k; lra).
  assert (HC : forall T, x + 27315 / 100 <= T <= y + 27315 / 100 -> exists v, phase_Cp p T = Ok v /\ lo * k <= v <= hi * k).
  { intros T HT. destruct (regular_Cp _ Rg) as (rl & _ & _ & Ec). exists (piece cp_Cp (sorted_records p) (fun _ => cp_Cp rl (last_key T_ref (sorted_records p))) T). split; [apply Ec|].
    destruct (H (T - 27315 / 100)) as (v & Ev & Hv); [lra|]. unfold thermo_Cp in Ev.
    rewrite (thermo_value phase_Cp db c fo ph tc p (T - 27315 / 100) (piece cp_Cp (sorted_records p) (fun _ => cp_Cp rl (last_key T_ref (sorted_records p))) T) 1) in Ev; auto; [|lra|replace (T - 27315 / 100 + 27315 / 100) with T by ring; apply Ec].
    injection Ev as <-. set (w := piece _ _ _ _) in *. assert (Ew : w / 3600000 / tc_molar_mass tc * 1 * k = w) by (unfold k; field; lra).
    rewrite <- Ew. split; apply Rmult_le_compat_r; lra. }
  destruct (H_between p (x + 27315 / 100) (y + 27315 / 100) (lo * k) (hi * k) Rg) as (hx & hy & Ex & Ey & B); [lra|auto|].
  unfold specific_H, thermo_H. rewrite (thermo_value phase_H db c fo ph tc p x hx 1), (thermo_value phase_H db c fo ph tc p y hy 1) by (auto; lra). cbn [value].
  replace (hy / 3600000 / tc_molar_mass tc * 1 - hx / 3600000 / tc_molar_mass tc * 1) with ((hy - hx) * / k) by (unfold k; field; lra).
  replace (y + 27315 / 100 - (x + 27315 / 100)) with (y - x) in B by ring.
  split; apply Rmult_le_reg_r with k; auto; rewrite (Rmult_assoc (hy - hx)), Rinv_l by lra; lra.
Qed.
Lemma weigh_le v w cs ms : (forall c, In c cs -> v c <= w c) -> (forall x, In x ms -> 0 <= x) -> weigh_list v cs ms <= weigh_list w cs ms.
Proof.
  revert ms. induction cs as [|c cs IH]; intros [|m ms] H P; try (rewrite ?weigh_nil; unfold weigh_list; cbn; lra). rewrite !weigh_cons.
  assert (v c * m <= w c * m) by (apply Rmult_le_compat_r; [apply P|apply H]; cbn; auto). assert (weigh_list v cs ms <= weigh_list w cs ms) by (apply IH; intros; [apply H|apply P]; cbn; auto). lra.
Qed.
Lemma enthalpy_slopes db p lo hi a k : regular_material db (tp_material p) -> not_negative p -> - (27315 / 100) < lo -> heat_capacities db (tp_material p) lo hi a k ->
  slopes (enthalpy db p) lo hi (weigh a p) (k * weigh a p).
Proof.
  intros Rg Nn L H x y X XY Y. unfold enthalpy, weigh. set (cs := tm_compounds (tp_material p)). set (ms := tp_masses p).
  assert (E : weigh_list (fun c => specific_H db c y) cs ms - weigh_list (fun c => specific_H db c x) cs ms = weigh_list (fun c => specific_H db c y - specific_H db c x) cs ms).
  { rewrite (weigh_ext (fun c => specific_H db c y - specific_H db c x) (fun c => specific_H db c y + (-1) * specific_H db c x)) by (intros; ring). rewrite weigh_plus, (weigh_mul (-1) (fun c => specific_H db c x)). ring. }
  rewrite E. replace (weigh_list a cs ms * (y - x)) with (weigh_list (fun c => (y - x) * a c) cs ms) by (rewrite weigh_mul; ring).
  replace (k * weigh_list a cs ms * (y - x)) with (weigh_list (fun c => (k * (y - x)) * a c) cs ms) by (rewrite weigh_mul; ring).
  assert (B : forall c, In c cs -> a c * (y - x) <= specific_H db c y - specific_H db c x <= k * a c * (y - x)).
  { intros c Hc. apply specific_between; [now apply Rg|lra|]. intros T HT. apply H; auto. lra. }
  split; apply weigh_le; auto; intros c Hc; destruct (B c Hc); lra.
Qed.
