From Verif Require Import Prelude M_Thermochem Spec_Thermo.
From Coq Require Import Reals Permutation Sorted Lra.
From Coquelicot Require Import Coquelicot.
Local Open Scope R_scope.

(** * Integrals of real functions *)
Lemma chasles (f : R -> R) (a b c u v w : R) : w = u + v -> is_RInt f a b u -> is_RInt f b c v -> is_RInt f a c w.
Proof. intros -> H1 H2. exact (is_RInt_Chasles f a b c u v H1 H2). Qed.
Lemma RInt_const (a b v w : R) : w = (b - a) * v -> is_RInt (fun _ => v) a b w.
Proof. intros ->. exact (is_RInt_const a b v). Qed.
Lemma RInt_eq (f : R -> R) (a b u v : R) : u = v -> is_RInt f a b u -> is_RInt f a b v.
Proof. now intros ->. Qed.

(** * Terms *)
Lemma dlim_ext (f g : R -> R) x l : (forall t : R, f t = g t) -> derivable_pt_lim f x l -> derivable_pt_lim g x l.
Proof. intros H D. apply is_derive_Reals. apply is_derive_Reals in D. now apply (is_derive_ext f). Qed.
Lemma dlim_eq (f : R -> R) x l l' : l = l' -> derivable_pt_lim f x l -> derivable_pt_lim f x l'.
Proof. now intros ->. Qed.

Definition int_term (e : R) (c : R) (a T : R) : R :=
  if Req_EM_T e (-1) then c * ln (T / a) else c * (Rpower T (e + 1) - Rpower a (e + 1)) / (e + 1).

Lemma int_term_deriv e c a T : 0 < a -> 0 < T -> derivable_pt_lim (int_term e c a) T (c * Rpower T e).
Proof.
  intros Ha HT. apply is_derive_Reals. unfold int_term. destruct (Req_EM_T e (-1)) as [->|E].
  - replace (c * Rpower T (-1)) with (c * (/ T)).
    + auto_derive; [apply Rdiv_lt_0_compat; auto|]. field. split; lra.
    + f_equal. replace (-1) with (-(1)) by lra. rewrite Rpower_Ropp, Rpower_1; auto.
  - apply is_derive_Reals. apply (dlim_ext (fun T => c / (e + 1) * (Rpower T (e + 1) - Rpower a (e + 1)))); [intros t; field; lra|].
    apply (dlim_eq _ _ (c / (e + 1) * ((e + 1) * Rpower T (e + 1 - 1) - 0))).
    + replace (e + 1 - 1) with e by ring. field. lra.
    + apply (derivable_pt_lim_scal (fun T => Rpower T (e + 1) - Rpower a (e + 1))).
      apply (derivable_pt_lim_minus (fun T => Rpower T (e + 1)) (fun _ => Rpower a (e + 1))); [now apply derivable_pt_lim_power|apply derivable_pt_lim_const].
Qed.
Lemma int_term_zero e c a : 0 < a -> int_term e c a a = 0.
Proof.
  intros Ha. unfold int_term. destruct (Req_EM_T e (-1)).
  - replace (a / a) with 1 by (field; lra). rewrite ln_1. ring.
  - field. lra.
Qed.

Definition sum_terms (f : R * R -> R) (l : list (R * R)) : R := fold_right (fun ce a => f ce + a) 0 l.
Lemma fold_sum (f : R * R -> R) l a : fold_left (fun acc ce => acc + f ce) l a = a + sum_terms f l.
Proof. revert a. induction l as [|x l IH]; intros a; cbn; [lra|]. rewrite IH. unfold sum_terms. lra. Qed.
Lemma fold_left_ext {A B} (f g : A -> B -> A) l a : (forall a b, f a b = g a b) -> fold_left f l a = fold_left g l a.
Proof. intros H. revert a. induction l as [|x l IH]; intros a; cbn; auto. rewrite H. apply IH. Qed.

Lemma cp_Cp_sum r T : cp_Cp r T = polynomial (cr_terms r) T.
Proof. unfold cp_Cp. rewrite (fold_sum (fun ce => fst ce * Rpower T (snd ce))). unfold polynomial, sum_terms. lra. Qed.
Lemma cp_H_sum r T : cp_H r T = sum_terms (fun ce => int_term (snd ce) (fst ce) (cr_Tmin r) (clamp r T)) (cr_terms r).
Proof.
  unfold cp_H. cbv zeta. rewrite (fold_left_ext _ (fun acc ce => acc + int_term (snd ce) (fst ce) (cr_Tmin r) (clamp r T))).
  - rewrite fold_sum. lra.
  - intros a [c e]. unfold int_term. cbn [fst snd]. destruct (Req_EM_T e (-1)); reflexivity.
Qed.
Lemma cp_S_sum r T : cp_S r T = sum_terms (fun ce => int_term (snd ce - 1) (fst ce) (cr_Tmin r) (clamp r T)) (cr_terms r).
Proof.
  unfold cp_S. cbv zeta. rewrite (fold_left_ext _ (fun acc ce => acc + int_term (snd ce - 1) (fst ce) (cr_Tmin r) (clamp r T))).
  - rewrite fold_sum. lra.
  - intros a [c e]. unfold int_term. cbn [fst snd]. destruct (Req_EM_T (e - 1) (-1)); reflexivity.
Qed.

Lemma sum_terms_deriv (F : R * R -> R -> R) (f : R * R -> R) l T :
  (forall ce, In ce l -> derivable_pt_lim (F ce) T (f ce)) -> derivable_pt_lim (fun t => sum_terms (fun ce => F ce t) l) T (sum_terms f l).
Proof.
  induction l as [|x l IH]; intros H; cbn.
  - apply derivable_pt_lim_const.
  - apply (derivable_pt_lim_plus (F x) (fun t => sum_terms (fun ce => F ce t) l)); [apply H; cbn; auto|]. apply IH. intros; apply H; cbn; auto.
Qed.
Lemma sum_terms_zero f l : (forall ce, In ce l -> f ce = 0) -> sum_terms f l = 0.
Proof. unfold sum_terms. induction l as [|x l IH]; intros H; cbn; auto. rewrite IH by (intros; apply H; cbn; auto). rewrite H by (cbn; auto). lra. Qed.
Lemma sum_terms_scale k f l : sum_terms (fun ce => k * f ce) l = k * sum_terms f l.
Proof. induction l as [|x l IH]; cbn; [lra|]. unfold sum_terms in IH. rewrite IH. lra. Qed.
Lemma sum_terms_ext f g l : (forall ce, In ce l -> f ce = g ce) -> sum_terms f l = sum_terms g l.
Proof. induction l as [|x l IH]; intros H; cbn; auto. rewrite H by (cbn; auto). unfold sum_terms in IH. rewrite IH; auto. intros; apply H; cbn; auto. Qed.

(** The unclamped antiderivatives. *)
Definition H_full (r : cprecord) (T : R) := sum_terms (fun ce => int_term (snd ce) (fst ce) (cr_Tmin r) T) (cr_terms r).
Definition S_full (r : cprecord) (T : R) := sum_terms (fun ce => int_term (snd ce - 1) (fst ce) (cr_Tmin r) T) (cr_terms r).
Lemma H_full_deriv r T : 0 < cr_Tmin r -> 0 < T -> derivable_pt_lim (H_full r) T (cp_Cp r T).
Proof.
  intros Ha HT. rewrite cp_Cp_sum. apply (sum_terms_deriv (fun ce t => int_term (snd ce) (fst ce) (cr_Tmin r) t) (fun ce => fst ce * Rpower T (snd ce))).
  intros ce _. now apply int_term_deriv.
Qed.
Lemma S_full_deriv r T : 0 < cr_Tmin r -> 0 < T -> derivable_pt_lim (S_full r) T (cp_Cp r T / T).
Proof.
  intros Ha HT. replace (cp_Cp r T / T) with (sum_terms (fun ce => fst ce * Rpower T (snd ce - 1)) (cr_terms r)).
  - apply (sum_terms_deriv (fun ce t => int_term (snd ce - 1) (fst ce) (cr_Tmin r) t) (fun ce => fst ce * Rpower T (snd ce - 1))).
    intros ce _. now apply int_term_deriv.
  - rewrite cp_Cp_sum. unfold Rdiv. rewrite Rmult_comm. unfold polynomial. fold (sum_terms (fun ce => fst ce * Rpower T (snd ce)) (cr_terms r)).
    rewrite <- sum_terms_scale. apply sum_terms_ext. intros ce _.
    replace (snd ce - 1) with (snd ce + -(1)) by ring. rewrite Rpower_plus, Rpower_Ropp, Rpower_1 by auto. ring.
Qed.

Lemma clamp_lt r T : T < cr_Tmax r -> clamp r T = T. Proof. unfold clamp. destruct (Rlt_dec T (cr_Tmax r)); tauto. Qed.
Lemma clamp_le r T : T <= cr_Tmax r -> clamp r T = T. Proof. unfold clamp. destruct (Rlt_dec T (cr_Tmax r)); lra. Qed.
Lemma clamp_ge r T : cr_Tmax r <= T -> clamp r T = cr_Tmax r. Proof. unfold clamp. destruct (Rlt_dec T (cr_Tmax r)); lra. Qed.

Lemma cp_H_le r T : T <= cr_Tmax r -> cp_H r T = H_full r T. Proof. intros H. now rewrite cp_H_sum, clamp_le. Qed.
Lemma cp_S_le r T : T <= cr_Tmax r -> cp_S r T = S_full r T. Proof. intros H. now rewrite cp_S_sum, clamp_le. Qed.
Lemma cp_H_ge r T : cr_Tmax r <= T -> cp_H r T = cp_H r (cr_Tmax r). Proof. intros H. rewrite !cp_H_sum, clamp_ge by auto. now rewrite clamp_ge by lra. Qed.
Lemma cp_S_ge r T : cr_Tmax r <= T -> cp_S r T = cp_S r (cr_Tmax r). Proof. intros H. rewrite !cp_S_sum, clamp_ge by auto. now rewrite clamp_ge by lra. Qed.

Lemma deriv_locally (f g : R -> R) x l b : x < b -> (forall t, t < b -> f t = g t) -> derivable_pt_lim g x l -> derivable_pt_lim f x l.
Proof.
  intros Hx E D. apply is_derive_Reals. apply is_derive_Reals in D. apply (is_derive_ext_loc g); auto.
  exists (mkposreal (b - x) ltac:(lra)). intros y Hy. symmetry. apply E. unfold ball in Hy. cbn in Hy. unfold AbsRing_ball, abs, minus, plus, opp in Hy. cbn in Hy.
  apply Rabs_def2 in Hy. lra.
Qed.
Lemma cp_H_deriv r T : 0 < cr_Tmin r -> 0 < T < cr_Tmax r -> derivable_pt_lim (cp_H r) T (cp_Cp r T).
Proof. intros Ha HT. apply (deriv_locally _ (H_full r) T _ (cr_Tmax r)); [lra|intros t Ht; apply cp_H_le; lra|]. apply H_full_deriv; lra. Qed.
Lemma cp_S_deriv r T : 0 < cr_Tmin r -> 0 < T < cr_Tmax r -> derivable_pt_lim (cp_S r) T (cp_Cp r T / T).
Proof. intros Ha HT. apply (deriv_locally _ (S_full r) T _ (cr_Tmax r)); [lra|intros t Ht; apply cp_S_le; lra|]. apply S_full_deriv; lra. Qed.
Lemma cp_H_Tmin r : 0 < cr_Tmin r <= cr_Tmax r -> cp_H r (cr_Tmin r) = 0.
Proof. intros H. rewrite cp_H_le by lra. apply sum_terms_zero. intros. apply int_term_zero. lra. Qed.
Lemma cp_S_Tmin r : 0 < cr_Tmin r <= cr_Tmax r -> cp_S r (cr_Tmin r) = 0.
Proof. intros H. rewrite cp_S_le by lra. apply sum_terms_zero. intros. apply int_term_zero. lra. Qed.

(** Continuity of Cp. *)
Lemma Cp_continuity r T : 0 < T -> continuity_pt (cp_Cp r) T.
Proof.
  intros HT. assert (D : exists l, derivable_pt_lim (fun t => polynomial (cr_terms r) t) T l).
  { unfold polynomial. induction (cr_terms r) as [|ce l [d IH]].
    - exists 0. cbn. apply derivable_pt_lim_const.
    - exists (fst ce * (snd ce * Rpower T (snd ce - 1)) + d). cbn [fold_right].
      apply (derivable_pt_lim_plus (fun t => fst ce * Rpower t (snd ce))); auto.
      apply (derivable_pt_lim_scal (fun t => Rpower t (snd ce))). now apply derivable_pt_lim_power. }
  destruct D as [d D]. apply derivable_continuous_pt. exists d.
  apply (dlim_ext (fun t => polynomial (cr_terms r) t)); auto. intros t. now rewrite cp_Cp_sum.
Qed.
Lemma continuity_continuous f x : continuity_pt f x <-> continuous f x.
Proof. apply continuity_pt_filterlim. Qed.
Lemma CpT_continuity r T : 0 < T -> continuity_pt (fun t => cp_Cp r t / t) T.
Proof.
  intros HT. apply (continuity_pt_mult (cp_Cp r) (fun t => / t)); [now apply Cp_continuity|].
  apply continuity_pt_inv; [apply derivable_continuous_pt, derivable_pt_id|]. lra.
Qed.

(** Integral over (part of) one record, in any direction. *)
Lemma H_RInt r T : 0 < cr_Tmin r <= cr_Tmax r -> 0 < T <= cr_Tmax r -> is_RInt (cp_Cp r) (cr_Tmin r) T (cp_H r T).
Proof.
  intros Ha HT. replace (cp_H r T) with (minus (H_full r T) (H_full r (cr_Tmin r))).
  - apply (is_RInt_derive (H_full r) (cp_Cp r)); intros x Hx.
    + apply is_derive_Reals. apply H_full_deriv; [lra|]. unfold Rmin in Hx. destruct (Rle_dec _ _); lra.
    + apply continuity_continuous. apply Cp_continuity. unfold Rmin in Hx. destruct (Rle_dec _ _); lra.
  - rewrite cp_H_le by lra. rewrite <- (cp_H_le r (cr_Tmin r)) by lra. rewrite cp_H_Tmin by lra. unfold minus, plus, opp. cbn. lra.
Qed.
Lemma S_RInt r T : 0 < cr_Tmin r <= cr_Tmax r -> 0 < T <= cr_Tmax r -> is_RInt (fun t => cp_Cp r t / t) (cr_Tmin r) T (cp_S r T).
Proof.
  intros Ha HT. replace (cp_S r T) with (minus (S_full r T) (S_full r (cr_Tmin r))).
  - apply (is_RInt_derive (S_full r) (fun t => cp_Cp r t / t)); intros x Hx.
    + apply is_derive_Reals. apply S_full_deriv; [lra|]. unfold Rmin in Hx. destruct (Rle_dec _ _); lra.
    + apply continuity_continuous. apply CpT_continuity. unfold Rmin in Hx. destruct (Rle_dec _ _); lra.
  - rewrite cp_S_le by lra. rewrite <- (cp_S_le r (cr_Tmin r)) by lra. rewrite cp_S_Tmin by lra. unfold minus, plus, opp. cbn. lra.
Qed.

(** * Sorting *)
Definition ksorted := StronglySorted (fun a b : R * cprecord => fst a < fst b).
Lemma contiguous_sorted t0 l : contiguous t0 l -> ksorted l /\ List.Forall (fun x => t0 < fst x) l.
Proof.
  revert t0. induction l as [|[k r] l IH]; intros t0; cbn [contiguous].
  - split; constructor.
  - intros (H1 & H2 & H3 & H4). destruct (IH _ H4) as [S F]. split; constructor; auto.
    apply (Forall_impl (fun x => t0 < fst x)) in F; [exact F|]. intros a Ha. cbn in *. lra.
Qed.
Lemma insert_perm x l : Permutation (x :: l) (insert_record x l).
Proof. induction l as [|y l IH]; cbn; auto. destruct (Rle_dec _ _); auto. rewrite perm_swap. now constructor. Qed.
Lemma sorted_perm p : Permutation (ph_records p) (sorted_records p).
Proof. unfold sorted_records. induction (ph_records p) as [|x l IH]; cbn; auto. rewrite <- insert_perm. now constructor. Qed.
Lemma insert_sorted x l : StronglySorted (fun a b : R * cprecord => fst a <= fst b) l ->
  StronglySorted (fun a b : R * cprecord => fst a <= fst b) (insert_record x l).
Proof.
  induction 1 as [|y l S IH F]; cbn; [repeat constructor|]. destruct (Rle_dec (fst x) (fst y)).
  - constructor; [constructor; auto|]. constructor; auto. eapply Forall_impl; [|exact F]. cbn. intros; lra.
  - constructor; auto. rewrite <- insert_perm. constructor; auto. lra.
Qed.
Lemma sorted_sorted p : StronglySorted (fun a b : R * cprecord => fst a <= fst b) (sorted_records p).
Proof. unfold sorted_records. induction (ph_records p) as [|x l IH]; cbn; [constructor|]. now apply insert_sorted. Qed.
Lemma sorted_unique l l' : ksorted l -> StronglySorted (fun a b : R * cprecord => fst a <= fst b) l' -> Permutation l l' -> l' = l.
Proof.
  intros S. revert l'. induction S as [|x l S IH F]; intros l' S' P.
  - now apply Permutation_nil in P.
  - destruct l' as [|y l']; [symmetry in P; now apply Permutation_nil in P|]. inversion S'; subst.
    assert (x = y).
    { assert (Hy : In y (x :: l)) by (eapply Permutation_in; [symmetry; exact P|cbn; auto]).
      assert (Hx : In x (y :: l')) by (eapply Permutation_in; [exact P|cbn; auto]).
      destruct Hy as [|Hy]; auto. destruct Hx as [|Hx]; auto.
      rewrite Forall_forall in F, H2. specialize (F y Hy). specialize (H2 x Hx). cbn in *. lra. }
    subst y. f_equal. apply IH; auto. now apply Permutation_cons_inv in P.
Qed.
Lemma regular_sorted p : regular p -> ph_mag p = None /\ sorted_records p <> [] /\ contiguous T_ref (sorted_records p).
Proof.
  intros (M & l & P & N & C). split; auto. assert (E : sorted_records p = l).
  { apply sorted_unique; [now apply (contiguous_sorted T_ref)|apply sorted_sorted|]. rewrite P. apply sorted_perm. }
  now rewrite E.
Qed.

(** * The accumulation over records *)
Section Acc.
Variable F f : cprecord -> R -> R.
Hypothesis F_int : forall r T, 0 < cr_Tmin r <= cr_Tmax r -> 0 < T <= cr_Tmax r -> is_RInt (f r) (cr_Tmin r) T (F r T).
Hypothesis F_ge : forall r T, cr_Tmax r <= T -> F r T = F r (cr_Tmax r).
Definition piece (l : list (R * cprecord)) (d : R -> R) (t : R) : R := match find_record t l with Some r => f r t | None => d t end.
Definition last_key (t0 : R) (l : list (R * cprecord)) : R := List.last (map fst l) t0.

Lemma piece_cons_lt k r l d t : t < k -> piece ((k, r) :: l) d t = f r t.
Proof. intros H. unfold piece. cbn. destruct (Rlt_dec t k); tauto. Qed.
Lemma piece_cons_ge k r l d t : k <= t -> piece ((k, r) :: l) d t = piece l d t.
Proof. intros H. unfold piece. cbn. destruct (Rlt_dec t k); [lra|reflexivity]. Qed.
Lemma last_cons (k : R) ks t0 : List.last (k :: ks) t0 = List.last ks k.
Proof. revert k t0. induction ks as [|a ks IH]; intros k t0; [reflexivity|]. cbn [List.last] in *. rewrite <- IH with (t0 := t0). destruct ks; auto. Qed.

Lemma last_key_ge l : forall k, contiguous k l -> k <= last_key k l.
Proof.
  induction l as [|[k' r] l IH]; intros k C; unfold last_key in *; cbn [map fst]; [cbn; lra|]. rewrite last_cons.
  destruct C as (_ & _ & C3 & C4). specialize (IH _ C4). lra.
Qed.

Lemma accumulate_RInt d l : forall t0 T acc, contiguous t0 l -> 0 < t0 -> 0 < T ->
  let x := accumulate (fun r => F r T) T l acc in
  (fst x = true -> T <= last_key t0 l /\ is_RInt (piece l d) t0 T (snd x - acc)) /\
  (fst x = false -> (l <> [] -> last_key t0 l < T) /\ is_RInt (piece l d) t0 (last_key t0 l) (snd x - acc)).
Proof.
  induction l as [|[k r] l IH]; intros t0 T acc C H0 HT; cbn [accumulate].
  - cbn. split; [discriminate|]. intros _. split; [congruence|]. replace (acc - acc) with 0 by ring. apply (@is_RInt_point R_NormedModule).
  - destruct C as (C1 & C2 & C3 & C4). unfold last_key. cbn [map fst]. rewrite last_cons. fold (last_key k l).
    pose proof (last_key_ge _ _ C4) as LK.
    assert (P0 : forall u, 0 < u <= k -> is_RInt (piece ((k, r) :: l) d) t0 u (F r u)).
    { intros u Hu. apply (is_RInt_ext (f r)).
      - intros x Hx. rewrite piece_cons_lt; auto. unfold Rmax in Hx. destruct (Rle_dec t0 u); lra.
      - rewrite <- C1. apply F_int; lra. }
    destruct (Rle_dec T k) as [L|L]; cbn [fst snd].
    + split; [|discriminate]. intros _. split; [lra|]. replace (acc + F r T - acc) with (F r T) by ring. apply P0. lra.
    + assert (HR : F r T = F r k) by (rewrite F_ge by lra; now rewrite C2).
      destruct (IH k T (acc + F r T) C4 ltac:(lra) HT) as [I1 I2]. set (x := accumulate _ _ _ _) in *. split; intros E.
      * destruct (I1 E) as [A B]. split; auto. 
        apply (chasles _ t0 k T (F r k) (snd x - (acc + F r T))); [lra|apply P0; lra|]. apply (is_RInt_ext (piece l d)); auto. intros y Hy. symmetry. apply piece_cons_ge.
        unfold Rmin in Hy. destruct (Rle_dec k T); lra.
      * destruct (I2 E) as [A B]. split.
        -- intros _. destruct l as [|y l]; [cbn; lra|]. apply A. discriminate.
        -- apply (chasles _ t0 k (last_key k l) (F r k) (snd x - (acc + F r T))); [lra|apply P0; lra|]. apply (is_RInt_ext (piece l d)); auto. intros y Hy. symmetry. apply piece_cons_ge.
           unfold Rmin in Hy. destruct (Rle_dec k (last_key k l)); lra.
Qed.
End Acc.

Lemma find_record_none l : forall t0 T, contiguous t0 l -> last_key t0 l <= T -> find_record T l = None.
Proof.
  induction l as [|[k r] l IH]; intros t0 T C H; cbn [find_record]; auto. unfold last_key in H. cbn [map fst] in H. rewrite last_cons in H.
  destruct C as (_ & _ & C3 & C4). pose proof (last_key_ge _ _ C4) as LK. fold (last_key k l) in H. destruct (Rlt_dec T k); [lra|]. eapply IH; eauto.
Qed.
Lemma find_record_some l : forall t0 T, contiguous t0 l -> l <> [] -> T < last_key t0 l -> exists r, find_record T l = Some r.
Proof.
  induction l as [|[k r] l IH]; intros t0 T C N H; cbn [find_record]; [congruence|]. unfold last_key in H. cbn [map fst] in H. rewrite last_cons in H.
  destruct C as (_ & _ & C3 & C4). destruct (Rlt_dec T k); [eauto|]. fold (last_key k l) in H. destruct l as [|y l]; [cbn in H; lra|]. eapply IH; eauto. discriminate.
Qed.

Lemma last_record_key p : sorted_records p <> [] -> exists r, last_record p = Ok (last_key T_ref (sorted_records p), r) /\ In (last_key T_ref (sorted_records p), r) (sorted_records p).
Proof.
  intros N. unfold last_record, last_key. destruct (sorted_records p) as [|x l _] using rev_ind; [congruence|].
  rewrite rev_app_distr. cbn. rewrite map_app. cbn. rewrite last_last. exists (snd x). destruct x; split; auto. apply in_app_iff. cbn. auto.
Qed.

Lemma T_ref_pos : 0 < T_ref. Proof. unfold T_ref. lra. Qed.

(** The heat capacity of a regular phase as a piecewise function. *)
Lemma regular_Cp p : regular p -> exists rl, In (last_key T_ref (sorted_records p), rl) (sorted_records p) /\
  last_record p = Ok (last_key T_ref (sorted_records p), rl) /\
  forall T, phase_Cp p T = Ok (piece cp_Cp (sorted_records p) (fun _ => cp_Cp rl (last_key T_ref (sorted_records p))) T).
Proof.
  intros Rg. destruct (regular_sorted _ Rg) as (M & N & C). destruct (last_record_key _ N) as (rl & E & I). exists rl. split; auto. split; auto.
  intros T. unfold phase_Cp, piece, Cp_mag. rewrite M, E. destruct (find_record T (sorted_records p)); cbn [bind fst snd]; f_equal; lra.
Qed.
Lemma regular_Cp_last p : regular p -> exists c, phase_Cp p (last_key T_ref (sorted_records p)) = Ok c /\
  forall T, last_key T_ref (sorted_records p) <= T -> phase_Cp p T = Ok c.
Proof.
  intros Rg. destruct (regular_sorted _ Rg) as (M & N & C). destruct (regular_Cp _ Rg) as (rl & _ & _ & E). eexists. split; [apply E|].
  intros T HT. rewrite E. f_equal. unfold piece. now rewrite !(find_record_none _ T_ref) by (auto; lra).
Qed.

Lemma regular_H p T : regular p -> 0 < T -> exists h, phase_H p T = Ok h /\ is_RInt (fun t => value (phase_Cp p t)) T_ref T (h - ph_DHref p).
Proof.
  intros Rg HT. destruct (regular_sorted _ Rg) as (M & N & C). destruct (regular_Cp _ Rg) as (rl & I & L & E).
  set (lk := last_key T_ref (sorted_records p)) in *. set (d := fun _ : R => cp_Cp rl lk) in *.
  assert (EV : forall t, value (phase_Cp p t) = piece cp_Cp (sorted_records p) d t) by (intros t; now rewrite E).
  pose proof (accumulate_RInt cp_H cp_Cp H_RInt cp_H_ge d (sorted_records p) T_ref T (ph_DHref p) C T_ref_pos HT) as [A B].
  unfold phase_H. set (x := accumulate _ _ _ _) in *. fold lk in A, B. unfold H_mag. rewrite M.
  destruct (fst x) eqn:Ex.
  - eexists. split; [reflexivity|]. destruct (A eq_refl) as [_ A2]. apply (is_RInt_ext (piece cp_Cp (sorted_records p) d)); [intros; symmetry; apply EV|].
    replace (snd x + 0 - ph_DHref p) with (snd x - ph_DHref p) by ring. exact A2.
  - rewrite L. cbn [bind fst snd]. rewrite (E lk). cbn [bind]. eexists. split; [reflexivity|]. destruct (B eq_refl) as [B1 B2]. specialize (B1 N).
    apply (is_RInt_ext (piece cp_Cp (sorted_records p) d)); [intros; symmetry; apply EV|].
    assert (Pl : piece cp_Cp (sorted_records p) d lk = cp_Cp rl lk).
    { unfold piece, lk. rewrite (find_record_none _ T_ref) by (auto; lra). reflexivity. }
    rewrite Pl. apply (chasles _ T_ref lk T (snd x - ph_DHref p) (cp_Cp rl lk * (T - lk))); [ring|exact B2|]. apply (is_RInt_ext (fun _ => cp_Cp rl lk)).
    + intros y Hy. unfold piece. rewrite (find_record_none _ T_ref); auto. fold lk. unfold Rmin in Hy. destruct (Rle_dec lk T); lra.
    + apply RInt_const. ring.
Qed.

Lemma regular_S p T : regular p -> 0 < T -> exists s, phase_S p T = Ok s /\ is_RInt (fun t => value (phase_Cp p t) / t) T_ref T (s - ph_Sref p).
Proof.
  intros Rg HT. destruct (regular_sorted _ Rg) as (M & N & C). destruct (regular_Cp _ Rg) as (rl & I & L & E).
  set (lk := last_key T_ref (sorted_records p)) in *. set (d := fun t : R => cp_Cp rl lk / t).
  assert (EV : forall t, value (phase_Cp p t) / t = piece (fun r t => cp_Cp r t / t) (sorted_records p) d t).
  { intros t. rewrite E. cbn [value]. unfold piece. destruct (find_record t (sorted_records p)); reflexivity. }
  pose proof (accumulate_RInt cp_S (fun r t => cp_Cp r t / t) S_RInt cp_S_ge d (sorted_records p) T_ref T (ph_Sref p) C T_ref_pos HT) as [A B].
  unfold phase_S. set (x := accumulate _ _ _ _) in *. fold lk in A, B. unfold S_mag. rewrite M.
  pose proof (last_key_ge _ _ C) as LK. fold lk in LK. pose proof T_ref_pos as TP.
  destruct (fst x) eqn:Ex.
  - eexists. split; [reflexivity|]. destruct (A eq_refl) as [_ A2]. apply (is_RInt_ext (piece (fun r t => cp_Cp r t / t) (sorted_records p) d)); [intros; symmetry; apply EV|].
    replace (snd x + 0 - ph_Sref p) with (snd x - ph_Sref p) by ring. exact A2.
  - rewrite L. cbn [bind fst snd]. rewrite (E lk). cbn [bind]. eexists. split; [reflexivity|]. destruct (B eq_refl) as [B1 B2]. specialize (B1 N).
    apply (is_RInt_ext (piece (fun r t => cp_Cp r t / t) (sorted_records p) d)); [intros; symmetry; apply EV|].
    assert (Pl : piece cp_Cp (sorted_records p) (fun _ => cp_Cp rl lk) lk = cp_Cp rl lk).
    { unfold piece, lk. rewrite (find_record_none _ T_ref) by (auto; lra). reflexivity. }
    rewrite Pl. apply (chasles _ T_ref lk T (snd x - ph_Sref p) (cp_Cp rl lk * ln (T / lk))); [ring|exact B2|]. apply (is_RInt_ext (fun t => cp_Cp rl lk / t)).
    + intros y Hy. unfold piece. rewrite (find_record_none _ T_ref); auto. fold lk. unfold Rmin in Hy. destruct (Rle_dec lk T); lra.
    + apply (RInt_eq _ _ _ (minus (cp_Cp rl lk * ln (T / lk)) (cp_Cp rl lk * ln (lk / lk)))).
      { unfold minus, plus, opp. cbn. replace (lk / lk) with 1 by (field; lra). rewrite ln_1. ring. }
      apply (is_RInt_derive (fun t => cp_Cp rl lk * ln (t / lk)) (fun t => cp_Cp rl lk / t)); intros y Hy.
      * auto_derive; [apply Rdiv_lt_0_compat; unfold Rmin in Hy; destruct (Rle_dec lk T); lra|]. field. unfold Rmin in Hy; destruct (Rle_dec lk T); lra.
      * apply continuity_continuous. apply (continuity_pt_mult (fun _ => cp_Cp rl lk) (fun t => / t)); [apply continuity_pt_const; intros ? ?; reflexivity|].
        apply continuity_pt_inv; [apply derivable_continuous_pt, derivable_pt_id|]. unfold Rmin in Hy; destruct (Rle_dec lk T); lra.
Qed.

(** Continuity and derivatives from the integral. *)
Lemma locally_pos T : 0 < T -> locally T (fun t => 0 < t).
Proof.
  intros H. exists (mkposreal T H). intros y Hy. unfold ball in Hy. cbn in Hy. unfold AbsRing_ball, abs, minus, plus, opp in Hy. cbn in Hy.
  apply Rabs_def2 in Hy. lra.
Qed.
Lemma regular_H_locally p T : regular p -> 0 < T -> locally T (fun t => is_RInt (fun u => value (phase_Cp p u)) T_ref t (value (phase_H p t) - ph_DHref p)).
Proof.
  intros Rg HT. apply (filter_imp (fun t => 0 < t)); [|now apply locally_pos]. intros t Ht. destruct (regular_H p t Rg Ht) as (h & E & I). now rewrite E.
Qed.
Lemma regular_S_locally p T : regular p -> 0 < T -> locally T (fun t => is_RInt (fun u => value (phase_Cp p u) / u) T_ref t (value (phase_S p t) - ph_Sref p)).
Proof.
  intros Rg HT. apply (filter_imp (fun t => 0 < t)); [|now apply locally_pos]. intros t Ht. destruct (regular_S p t Rg Ht) as (h & E & I). now rewrite E.
Qed.
Lemma continuity_shift f c x : continuity_pt (fun t => f t - c) x -> continuity_pt f x.
Proof.
  intros H. apply (continuity_pt_ext (fun t => (f t - c) + c)); [intros; ring|]. apply continuity_pt_plus; auto. apply continuity_pt_const. intros ? ?; reflexivity.
Qed.
Lemma regular_H_continuous p T : regular p -> 0 < T -> continuity_pt (fun t => value (phase_H p t)) T.
Proof.
  intros Rg HT. apply (continuity_shift _ (ph_DHref p)). apply continuity_continuous.
  apply (continuous_RInt_1 (fun u => value (phase_Cp p u)) T_ref T (fun t => value (phase_H p t) - ph_DHref p)). now apply regular_H_locally.
Qed.
Lemma regular_S_continuous p T : regular p -> 0 < T -> continuity_pt (fun t => value (phase_S p t)) T.
Proof.
  intros Rg HT. apply (continuity_shift _ (ph_Sref p)). apply continuity_continuous.
  apply (continuous_RInt_1 (fun u => value (phase_Cp p u) / u) T_ref T (fun t => value (phase_S p t) - ph_Sref p)). now apply regular_S_locally.
Qed.
Lemma deriv_shift f c x l : derivable_pt_lim (fun t => f t - c) x l -> derivable_pt_lim f x l.
Proof.
  intros H. apply (dlim_ext (fun t => (f t - c) + c)); [intros; ring|].
  apply (dlim_eq _ _ (l + 0)); [ring|]. apply (derivable_pt_lim_plus (fun t => f t - c) (fun _ => c)); auto. apply derivable_pt_lim_const.
Qed.
Lemma regular_H_deriv p T : regular p -> 0 < T -> continuity_pt (fun t => value (phase_Cp p t)) T -> derivable_pt_lim (fun t => value (phase_H p t)) T (value (phase_Cp p T)).
Proof.
  intros Rg HT HC. apply (deriv_shift _ (ph_DHref p)). apply is_derive_Reals.
  apply (is_derive_RInt (fun u => value (phase_Cp p u)) (fun t => value (phase_H p t) - ph_DHref p) T_ref T); [now apply regular_H_locally|now apply continuity_continuous].
Qed.
Lemma regular_S_deriv p T : regular p -> 0 < T -> continuity_pt (fun t => value (phase_Cp p t)) T -> derivable_pt_lim (fun t => value (phase_S p t)) T (value (phase_Cp p T) / T).
Proof.
  intros Rg HT HC. apply (deriv_shift _ (ph_Sref p)). apply is_derive_Reals.
  apply (is_derive_RInt (fun u => value (phase_Cp p u) / u) (fun t => value (phase_S p t) - ph_Sref p) T_ref T); [now apply regular_S_locally|].
  apply continuity_continuous. apply (continuity_pt_mult (fun t => value (phase_Cp p t)) (fun t => / t)); auto.
  apply continuity_pt_inv; [apply derivable_continuous_pt, derivable_pt_id|]. lra.
Qed.

(** Cp is continuous except at the record bounds. *)
Lemma piece_locally l : forall t0 T, contiguous t0 l -> ~ In T (map fst l) ->
  exists eps, 0 < eps /\ forall t, Rabs (t - T) < eps -> find_record t l = find_record T l.
Proof.
  induction l as [|[k r] l IH]; intros t0 T C N; cbn [find_record map fst In] in *.
  - exists 1. split; [lra|]. reflexivity.
  - destruct C as (_ & _ & C3 & C4). destruct (IH k T C4) as (e & He & P); [tauto|]. assert (T <> k) by (intros ->; tauto).
    exists (Rmin e (Rabs (T - k))). split; [apply Rmin_glb_lt; auto; apply Rabs_pos_lt; lra|].
    intros t Ht. assert (H1 : Rabs (t - T) < e) by (eapply Rlt_le_trans; [exact Ht|apply Rmin_l]).
    assert (H2 : Rabs (t - T) < Rabs (T - k)) by (eapply Rlt_le_trans; [exact Ht|apply Rmin_r]).
    destruct (Rlt_dec T k), (Rlt_dec t k); auto; exfalso.
    + rewrite (Rabs_left (T - k)) in H2 by lra. apply Rabs_def2 in H2. lra.
    + rewrite (Rabs_right (T - k)) in H2 by lra. apply Rabs_def2 in H2. lra.
Qed.
Lemma regular_Cp_continuous p T : regular p -> 0 < T -> ~ In T (map fst (ph_records p)) -> continuity_pt (fun t => value (phase_Cp p t)) T.
Proof.
  intros Rg HT N. destruct (regular_sorted _ Rg) as (M & NE & C). destruct (regular_Cp _ Rg) as (rl & I & L & E).
  assert (N' : ~ In T (map fst (sorted_records p))).
  { intros X. apply N. eapply Permutation_in; [|exact X]. apply Permutation_map. symmetry. apply sorted_perm. }
  destruct (piece_locally _ _ _ C N') as (e & He & P).
  set (g := fun t => match find_record T (sorted_records p) with Some r => cp_Cp r t | None => cp_Cp rl (last_key T_ref (sorted_records p)) end).
  apply (continuity_pt_ext_loc g).
  - exists (mkposreal e He). intros y Hy. unfold ball in Hy. cbn in Hy. unfold AbsRing_ball, abs, minus, plus, opp in Hy. cbn in Hy.
    rewrite E. cbn [value]. unfold g, piece. rewrite (P y Hy). reflexivity.
  - unfold g. destruct (find_record T (sorted_records p)); [now apply Cp_continuity|]. apply continuity_pt_const. intros ? ?; reflexivity.
Qed.

(** * G = H - T S *)
Lemma accumulate2_split f g T l : forall h s,
  fst (accumulate2 f g T l h s) = fst (accumulate f T l h) /\ fst (accumulate2 f g T l h s) = fst (accumulate g T l s) /\
  fst (snd (accumulate2 f g T l h s)) = snd (accumulate f T l h) /\ snd (snd (accumulate2 f g T l h s)) = snd (accumulate g T l s).
Proof. induction l as [|[k r] l IH]; intros h s; cbn; auto. destruct (Rle_dec T k); cbn; auto. Qed.

Lemma G_mag_split p T : match ph_mag p with Some m => 0 < T /\ 0 < Tc_mag m /\ p_mag m <> 0 /\ D_mag m <> 0 | None => True end ->
  G_mag p T = H_mag p T - T * S_mag p T.
Proof.
  unfold G_mag, H_mag, S_mag. destruct (ph_mag p) as [m|]; [|intros; ring]. intros (HT & Hc & Hp & HD).
  assert (Ht : 0 < T / Tc_mag m) by (apply Rdiv_lt_0_compat; auto). set (tau := T / Tc_mag m) in *.
  destruct (Rle_dec tau 1).
  - unfold A_mag in *. field. repeat split; lra.
  - field. repeat split; lra.
Qed.

Lemma phase_G_eq p T : match ph_mag p with Some m => 0 < T /\ 0 < Tc_mag m /\ p_mag m <> 0 /\ D_mag m <> 0 | None => True end ->
  phase_G p T = do h <- phase_H p T; do s <- phase_S p T; Ok (h - T * s).
Proof.
  intros HM. unfold phase_G, phase_H, phase_S.
  destruct (accumulate2_split (fun r => cp_H r T) (fun r => cp_S r T) T (sorted_records p) (ph_DHref p) (ph_Sref p)) as (A & B & C & D).
  rewrite C, D, A. rewrite A in B. rewrite <- B. rewrite (G_mag_split _ _ HM). destruct (fst (accumulate _ _ _ (ph_DHref p))); cbn [bind].
  - f_equal. ring.
  - destruct (last_record p) as [l|e]; cbn [bind]; auto. destruct (phase_Cp p (fst l)) as [c|e]; cbn [bind]; auto. f_equal. ring.
Qed.
