(** Proofs about Wilke's mixture viscosity. *)
From Verif Require Import Prelude M_Lists M_Thermochem M_ThermoMat M_Coals M_Stoichiometry M_Physical Spec_Physical P_Content P_Convert P_Physical.
From Coq Require Import Reals Lra Lia Psatz Permutation.
Local Open Scope list_scope.
Local Open Scope R_scope.

Lemma Rpower_half x : 0 < x -> Rpower x (1 / 2) = sqrt x.
Proof. intros X. rewrite <- Rpower_sqrt by auto. f_equal. lra. Qed.
Lemma Rpower_quarter x : 0 < x -> Rpower x (1 / 4) = sqrt (sqrt x).
Proof. intros X. assert (0 < sqrt x) by now apply sqrt_lt_R0. rewrite <- (Rpower_sqrt (sqrt x)), <- (Rpower_sqrt x) by auto. rewrite Rpower_mult. f_equal. lra. Qed.
Lemma phi_den y : 0 <= y -> 4 / sqrt 2 * sqrt y = sqrt (8 * y).
Proof.
  intros Y. rewrite sqrt_mult by lra. f_equal. replace 8 with (2 * 2 * 2) by lra. rewrite sqrt_mult by lra. rewrite sqrt_square by lra.
  assert (S2 : sqrt 2 * sqrt 2 = 2) by (apply sqrt_sqrt; lra). assert (0 < sqrt 2) by (apply sqrt_lt_R0; lra).
  apply Rmult_eq_reg_r with (sqrt 2); [|lra]. unfold Rdiv. rewrite Rmult_assoc, Rinv_l by lra. lra.
Qed.
Lemma phi_ok i j mi mj Mi Mj : mm i = Ok Mi -> mm j = Ok Mj -> 0 < Mi -> 0 < Mj -> 0 < mi -> 0 < mj ->
  phi i j mi mj = Ok (wilke_phi mi mj Mi Mj).
Proof.
  intros Ei Ej Pi Pj Qi Qj. unfold phi. rewrite Ei, Ej. cbn [bind]. rewrite ndiv_ok by lra. cbn [bind].
  rewrite npow_pos by now apply Rdiv_lt_0_compat. cbn [bind]. rewrite rdiv_ok by lra. cbn [bind]. rewrite npow_pos by now apply Rdiv_lt_0_compat. cbn [bind].
  rewrite rdiv_ok by lra. cbn [bind]. assert (S : 0 < Mi / Mj) by now apply Rdiv_lt_0_compat. rewrite npow_pos by lra. cbn [bind].
  rewrite Rpower_half by now apply Rdiv_lt_0_compat. rewrite Rpower_quarter by now apply Rdiv_lt_0_compat. rewrite Rpower_half by lra.
  assert (0 < sqrt (1 + Mi / Mj)) by (apply sqrt_lt_R0; lra). assert (0 < sqrt 2) by (apply sqrt_lt_R0; lra). rewrite ndiv_ok by lra. apply f_equal. unfold wilke_phi. rewrite <- phi_den by lra.
  field. repeat split; lra.
Qed.
Lemma phi_pos mi mj Mi Mj : 0 < Mi -> 0 < Mj -> 0 < mi -> 0 < mj -> 0 < wilke_phi mi mj Mi Mj.
Proof.
  intros. unfold wilke_phi. assert (0 < Mi / Mj) by now apply Rdiv_lt_0_compat. apply Rdiv_lt_0_compat; [|apply sqrt_lt_R0; lra]. apply pow_lt.
  pose proof (sqrt_pos (mi / mj)). pose proof (sqrt_pos (sqrt (Mj / Mi))). assert (0 <= sqrt (mi / mj) * sqrt (sqrt (Mj / Mi))) by now apply Rmult_le_pos. lra.
Qed.
Lemma phi_same m M : 0 < m -> 0 < M -> wilke_phi m m M M = 1.
Proof.
  intros. unfold wilke_phi. replace (m / m) with 1 by (field; lra). replace (M / M) with 1 by (field; lra). rewrite !sqrt_1.
  replace (8 * (1 + 1)) with (4 * 4) by lra. rewrite sqrt_square by lra. lra.
Qed.

Section Wilke.
Variables M v : string -> R.
Definition term (x : list (string * R)) (i j : string * R) : R :=
  if string_dec (fst j) (fst i) then 0 else snd j * wilke_phi (v (fst i)) (v (fst j)) (M (fst i)) (M (fst j)).
Definition good (x : list (string * R)) : Prop :=
  NoDup (map fst x) /\ (forall c a, In (c, a) x -> 0 <= a /\ 0 < M c /\ 0 < v c) /\ 0 < total snd x.
Lemma NoDup_fst (x : list (string * R)) c a b : NoDup (map fst x) -> In (c, a) x -> In (c, b) x -> a = b :> R.
Proof.
  induction x as [|[k y] x IH]; cbn; [contradiction|]. intros N [E|I] [F|J]; inversion N; subst.
  - congruence.
  - injection E as <- <-. exfalso. apply H1. apply in_map_iff. now exists (k, b).
  - injection F as <- <-. exfalso. apply H1. apply in_map_iff. now exists (k, a).
  - auto.
Qed.
Lemma den_pos x i : good x -> In i x -> 0 < snd i + total (term x i) x.
Proof.
  intros (N & G & P) I. assert (T0 : forall j, In j x -> 0 <= term x i j).
  { intros [d b] J. destruct i as [c a]. destruct (G c a I) as (A & Mc & Vc). destruct (G d b J) as (B & Md & Vd). unfold term. cbn [fst snd].
    destruct (string_dec d c); [lra|]. apply Rmult_le_pos; auto. apply Rlt_le, phi_pos; auto. }
  pose proof (total_nonneg _ _ T0) as T1. destruct i as [c a]. destruct (G c a I) as (A & Mc & Vc). cbn in *.
  destruct (total_positive_has _ _ P) as ([d b] & J & B). cbn in B. destruct (string_dec d c) as [->|D].
  - pose proof (NoDup_fst x c a b N I J) as E. lra.
  - assert (0 < total (term x (c, a)) x); [|lra]. apply total_pos with (d, b); auto. unfold term. cbn [fst snd]. destruct (string_dec d c); [contradiction|].
    destruct (G d b J) as (_ & Md & Vd). apply Rmult_lt_0_compat; auto. now apply phi_pos.
Qed.
Lemma wilke_unfold x : wilke_mu M v x = total (fun i => snd i * v (fst i) / (snd i + total (term x i) x)) x.
Proof. reflexivity. Qed.
Lemma wilke_positive x : good x -> 0 < wilke_mu M v x.
Proof.
  intros G. rewrite wilke_unfold. destruct G as (N & G & P). destruct (total_positive_has _ _ P) as ([c a] & I & A). cbn in A. apply total_pos with (c, a); auto.
  - intros [d b] J. assert (D := den_pos x (d, b) (conj N (conj G P)) J). destruct (G d b J) as (B & _ & V). cbn in *. apply Rmult_le_pos; [apply Rmult_le_pos; lra|]. now apply Rlt_le, Rinv_0_lt_compat.
  - assert (D := den_pos x (c, a) (conj N (conj G P)) I). destruct (G c a I) as (B & _ & V). cbn in *. apply Rdiv_lt_0_compat; auto. now apply Rmult_lt_0_compat.
Qed.
Lemma times_good k x : 0 < k -> good x -> good (times k x).
Proof.
  intros K (N & G & P). split; [|split].
  - unfold times. rewrite map_map. cbn. exact N.
  - intros c a I. unfold times in I. apply in_map_iff in I. destruct I as ([d b] & E & I). injection E as <- <-. destruct (G d b I) as (B & Q). split; [|exact Q]. cbn. apply Rmult_le_pos; lra.
  - rewrite total_times. now apply Rmult_lt_0_compat.
Qed.
Lemma wilke_times k x : 0 < k -> good x -> wilke_mu M v (times k x) = wilke_mu M v x.
Proof.
  intros K G. rewrite !wilke_unfold. unfold times at 3. rewrite total_map. apply total_ext. intros [c a] I. cbn [fst snd].
  assert (E : total (term (times k x) (c, k * a)) (times k x) = k * total (term x (c, a)) x).
  { unfold times at 2. rewrite total_map. rewrite <- total_scale. apply total_ext. intros [d b] J. unfold term. cbn [fst snd]. destruct (string_dec d c); ring. }
  rewrite E. assert (D := den_pos x (c, a) G I). cbn [fst snd] in D. field. split; [lra|]. rewrite <- Rmult_plus_distr_l. apply Rmult_integral_contrapositive. split; lra.
Qed.
Lemma term_perm x y i : Permutation x y -> total (term x i) x = total (term y i) y.
Proof. intros P. rewrite (total_perm _ _ _ P). reflexivity. Qed.
Lemma wilke_perm x y : Permutation x y -> wilke_mu M v x = wilke_mu M v y.
Proof. intros P. rewrite !wilke_unfold. rewrite (total_perm _ _ _ P). apply total_ext. intros i _. now rewrite (term_perm x y i P). Qed.
Lemma wilke_one c a : a <> 0 -> wilke_mu M v [(c, a)] = v c.
Proof. intros A. unfold wilke_mu. cbn [total fst snd]. destruct (string_dec c c); [|contradiction]. field. lra. Qed.

Lemma wilke_identical x m M0 : good x -> (forall c a, In (c, a) x -> v c = m /\ M c = M0) -> wilke_mu M v x = m.
Proof.
  intros G H. rewrite wilke_unfold. set (s := total snd x). assert (S0 : 0 < s) by apply G.
  transitivity (total (fun i => (m / s) * snd i) x).
  - apply total_ext. intros [c a] I. cbn [fst snd]. destruct (H c a I) as [Vc Mc].
    assert (E : a + total (term x (c, a)) x = s).
    { assert (forall l, incl l x -> total (term x (c, a)) l = total (fun j => if string_dec (fst j) c then 0 else snd j) l) as L.
      { intros l Hl. apply total_ext. intros [d b] J. unfold term. cbn [fst snd]. destruct (string_dec d c); auto. destruct (H d b (Hl _ J)) as [Vd Md]. rewrite Vc, Vd, Mc, Md.
        destruct (proj1 (proj2 G) c a I) as (_ & P1 & P2). rewrite phi_same; [lra|congruence|congruence]. }
      rewrite (L x (fun y Hy => Hy)). unfold s. destruct G as (N & _ & _). clear - N I. induction x as [|[d b] x IH]; [contradiction|]. cbn in N. inversion N; subst. cbn [total fst snd]. destruct I as [E|I].
      - injection E as <- <-. destruct (string_dec d d) as [_|X]; [|contradiction]. rewrite (total_ext _ (@snd string R) x); [lra|]. intros [e y] J. cbn [fst snd]. destruct (string_dec e d); auto. subst. exfalso. apply H1. apply in_map_iff. now exists (d, y).
      - destruct (string_dec d c) as [->|D]; [exfalso; apply H1; apply in_map_iff; now exists (c, a)|]. specialize (IH H2 I). lra. }
    rewrite E, Vc. field. lra.
  - rewrite total_scale. fold s. field. lra.
Qed.
End Wilke.

Lemma kept_NoDup gs x : NoDup (map fst x) -> NoDup (map fst (kept gs x)).
Proof.
  intros N. unfold kept. induction x as [|[c a] x IH]; cbn; [constructor|]. cbn in N. inversion N; subst. destruct (known_gas gs c); cbn; auto. constructor; auto.
  intros I. apply H1. apply in_map_iff in I. destruct I as (y & <- & J). apply filter_In in J. apply in_map. tauto.
Qed.
Lemma wilke_ok gs T x M v : NoDup (map fst x) ->
  (forall c a, In (c, a) x -> known_gas gs c = true -> mm c = Ok (M c) /\ gas_property gs "mu" T c = Ok (v c) /\ 0 <= a /\ 0 < M c /\ 0 < v c) ->
  0 < total snd (kept gs x) -> wilke gs T x = Ok (wilke_mu M v (kept gs x)).
Proof.
  intros N H P. assert (G : good M v (kept gs x)).
  { split; [now apply kept_NoDup|]. split; [|exact P]. intros c a I. apply kept_In in I. destruct I as [I K]. destruct (H c a I K) as (_ & _ & A & B & C). auto. }
  set (k := total snd (kept gs x)) in *. assert (K : 0 < / k) by now apply Rinv_0_lt_compat.
  unfold wilke. rewrite normalise_ok by (fold k; lra). fold k. cbn [bind].
  replace (map (fun cx : string * R => (fst cx, snd cx / k)) (kept gs x)) with (times (/ k) (kept gs x)) by (unfold times; apply map_ext; intros [c a]; cbn; apply f_equal; unfold Rdiv; ring).
  rewrite <- (wilke_times M v (/ k)) by auto. assert (G' := times_good M v (/ k) _ K G). set (y := times (/ k) (kept gs x)) in *.
  assert (Y : forall c a, In (c, a) y -> mm c = Ok (M c) /\ gas_property gs "mu" T c = Ok (v c)).
  { intros c a I. unfold y, times in I. apply in_map_iff in I. destruct I as ([d b] & E & I). injection E as <- <-. apply kept_In in I. destruct I as [I Kn]. cbn. destruct (H d b I Kn) as (A & B & _). auto. }
  rewrite (properties_ok gs T "mu" v y) by (intros c a I; now apply (Y c a)). cbn [bind].
  rewrite (foldM_total _ (fun i : string * R * R => snd (fst i) * snd i / (snd (fst i) + total (term M v y (fst i)) y))).
  - rewrite Rplus_0_l, total_map. rewrite wilke_unfold. cbn [fst snd]. reflexivity.
  - intros [[c a] m] s I. apply in_map_iff in I. destruct I as ([d b] & E & I). injection E as -> -> <-. cbn [fst snd] in *.
    unfold wilke_sum. rewrite (foldM_total _ (fun j : string * R * R => term M v y (c, a) (fst j))).
    + rewrite Rplus_0_l, total_map. cbn [bind fst snd]. assert (D := den_pos M v y (c, a) G' I). cbn [snd] in D. rewrite ndiv_ok; [reflexivity|]. apply Rgt_not_eq. exact D.
    + intros [[d b] m'] s' J. apply in_map_iff in J. destruct J as ([e z] & E & J). injection E as -> -> <-. cbn [fst snd]. unfold term. cbn [fst snd]. destruct (string_dec d c); [now rewrite Rplus_0_r|].
      destruct G' as (_ & G' & _). destruct (G' c a I) as (_ & Mc & Vc). destruct (G' d b J) as (_ & Md & Vd).
      rewrite (phi_ok c d (v c) (v d) (M c) (M d) (proj1 (Y c a I)) (proj1 (Y d b J)) Mc Md Vc Vd). reflexivity.
Qed.
