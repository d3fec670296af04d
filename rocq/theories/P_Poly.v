(** A checker of polynomial inequalities on an interval, and its correctness. *)
From Verif Require Import Prelude M_Physical Spec_Physical P_PolyZ.
From Coq Require Import Reals Qreals Lra Lia Psatz.
Local Open Scope list_scope.
Local Open Scope R_scope.

Lemma polyval_acc p x a : fold_left (fun y c => y * x + c) p a = a * x ^ length p + power_sum p x.
Proof. revert a; induction p as [|c p IH]; intros a; cbn; [lra|]. rewrite IH. ring. Qed.
Lemma polyval_sum p x : polyval p x = power_sum p x.
Proof. unfold polyval. rewrite polyval_acc. lra. Qed.

(** Rational polynomials, lowest power first. *)
Definition qpol := list Q.
Fixpoint ev (p : qpol) (x : R) : R := match p with [] => 0 | c :: p' => Q2R c + x * ev p' x end.
Lemma ev_rev p x : ev (rev p) x = power_sum (map Q2R p) x.
Proof.
  assert (A : forall p q, ev (p ++ q) x = ev p x + x ^ length p * ev q x).
  { intros a; induction a as [|c a IH]; intros q; cbn; [lra|]. rewrite IH. ring. }
  induction p as [|c p IH]; cbn; [reflexivity|]. rewrite A, IH, rev_length, map_length. cbn. ring.
Qed.
Fixpoint padd (p q : qpol) : qpol :=
  match p, q with [], _ => q | _, [] => p | a :: p', b :: q' => Qred (a + b) :: padd p' q' end.
Definition pscale (k : Q) (p : qpol) : qpol := map (fun c => Qred (k * c)) p.
Fixpoint pmul (p q : qpol) : qpol := match p with [] => [] | a :: p' => padd (pscale a q) (0%Q :: pmul p' q) end.
(** p (x + a) *)
Fixpoint pshift (p : qpol) (a : Q) : qpol :=
  match p with [] => [] | c :: p' => let s := pshift p' a in padd (c :: s) (pscale a s) end.
Fixpoint pder (n : Z) (p : qpol) : qpol := match p with [] => [] | c :: p' => (n * Qnum c # Qden c) :: pder (n + 1) p' end.

Lemma Qred_R q : Q2R (Qred q) = Q2R q.
Proof. apply Qeq_eqR, Qred_correct. Qed.
Lemma Q2R_0 : Q2R 0 = 0. Proof. unfold Q2R; cbn; lra. Qed.
Lemma ev_add p q x : ev (padd p q) x = ev p x + ev q x.
Proof. revert q; induction p as [|a p IH]; intros [|b q]; cbn [ev padd]; try lra. rewrite Qred_R, Q2R_plus, IH. ring. Qed.
Lemma ev_scale k p x : ev (pscale k p) x = Q2R k * ev p x.
Proof. unfold pscale. induction p as [|a p IH]; cbn [map ev]; [lra|]. rewrite Qred_R, Q2R_mult, IH. ring. Qed.
Lemma ev_mul p q x : ev (pmul p q) x = ev p x * ev q x.
Proof. induction p as [|a p IH]; cbn [pmul ev]; [lra|]. rewrite ev_add, ev_scale. cbn [ev]. rewrite Q2R_0, IH. ring. Qed.
Lemma ev_shift p a x : ev (pshift p a) x = ev p (x + Q2R a).
Proof. induction p as [|c p IH]; cbn [pshift ev padd]; [lra|]. destruct (pscale a (pshift p a)) as [|b s] eqn:E; cbn [ev].
  - assert (Z : ev (pscale a (pshift p a)) x = 0) by now rewrite E. rewrite ev_scale in Z. rewrite <- IH. lra.
  - assert (Z : ev (pscale a (pshift p a)) x = Q2R b + x * ev s x) by now rewrite E. rewrite ev_scale in Z.
    rewrite Qred_R, Q2R_plus, ev_add. rewrite <- IH. rewrite Rmult_plus_distr_r, Z. ring. Qed.
(** Integer coefficients: L times those of p. *)
Definition zints (L : Z) (p : qpol) : zpol := map (fun c => Qnum c * (L / Zpos (Qden c)))%Z p.
Definition zfits (L : Z) (p : qpol) : bool := forallb (fun c => (L / Zpos (Qden c)) * Zpos (Qden c) =? L)%Z p.
Lemma evz_ints L p x : zfits L p = true -> evz (zints L p) x = IZR L * ev p x.
Proof.
  unfold zfits, zints. induction p as [|c p IH]; cbn [forallb map evz ev]; [intros; ring|]. intros H. apply andb_prop in H. destruct H as [A B]. rewrite (IH B). apply Z.eqb_eq in A.
  rewrite mult_IZR. set (q := (L / Zpos (Qden c))%Z) in *. rewrite <- A, mult_IZR. unfold Q2R. field. apply not_0_IZR. discriminate.
Qed.
(** Every denominator of the data divides this one. *)
Definition common : Z := (10 ^ 60)%Z.
Definition pos_on (d : nat) (p : qpol) (lo hi : Q) : bool := (zfits common p && zpos d (zints common p) lo hi)%bool.
Lemma common_pos : 0 < IZR common. Proof. apply IZR_lt. reflexivity. Qed.
Lemma pos_on_sound d p lo hi x : pos_on d p lo hi = true -> Q2R lo <= x <= Q2R hi -> 0 < ev p x.
Proof.
  intros H X. unfold pos_on in H. apply andb_prop in H. destruct H as [A B]. assert (P := zpos_sound _ _ _ _ _ B X). rewrite evz_ints in P by auto. pose proof common_pos.
  apply Rmult_lt_reg_l with (IZR common); lra.
Qed.
Definition pneg (p : qpol) : qpol := pscale (-1) p.
Lemma ev_neg p x : ev (pneg p) x = - ev p x.
Proof. unfold pneg. rewrite ev_scale. replace (Q2R (-1)) with (-1) by (unfold Q2R; cbn; lra). lra. Qed.

(** Derivative. *)
Lemma ev_pder n p x : ev (pder n p) x = IZR n * ev p x + x * ev (pder 1 (tl p)) x.
Proof.
  revert n. induction p as [|c p IH]; intros n; cbn [pder ev tl]; [lra|]. rewrite (IH (n + 1)%Z), (IH 1%Z), plus_IZR.
  replace (Q2R (n * Qnum c # Qden c)) with (IZR n * Q2R c) by (unfold Q2R; cbn [Qnum Qden]; rewrite mult_IZR; ring). cbn [ev]. ring.
Qed.
Lemma ev_derive p x : derivable_pt_lim (ev p) x (ev (pder 1 (tl p)) x).
Proof.
  induction p as [|c p IH]; cbn [ev tl pder]. { apply derivable_pt_lim_const. }
  rewrite ev_pder. replace (1 * ev p x + x * ev (pder 1 (tl p)) x) with (0 + (1 * ev p x + x * ev (pder 1 (tl p)) x)) by lra.
  apply (derivable_pt_lim_plus (fun _ => Q2R c) (fun y => y * ev p y)). { apply derivable_pt_lim_const. }
  apply (derivable_pt_lim_mult id (ev p)); [apply derivable_pt_lim_id|exact IH].
Qed.
Lemma ev_increasing d p lo hi x y : pos_on d (pder 1 (tl p)) lo hi = true -> Q2R lo <= x -> x < y -> y <= Q2R hi -> ev p x < ev p y.
Proof.
  intros H X XY Y. destruct (MVT_cor2 (ev p) (ev (pder 1 (tl p))) x y XY) as (c & E & C). { intros c _. apply ev_derive. }
  assert (0 < ev (pder 1 (tl p)) c) by (apply (pos_on_sound _ _ _ _ _ H); lra).
  assert (0 < ev (pder 1 (tl p)) c * (y - x)) by (apply Rmult_lt_0_compat; lra). lra.
Qed.
