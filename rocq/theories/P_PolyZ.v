(** Positivity of integer polynomials on an interval by bisection, with rounding
    downwards: cheap enough for the kernel without its virtual machine. *)
From Verif Require Import Prelude.
From Coq Require Import ZArith QArith Reals Qreals Lra Lia.
Local Open Scope list_scope.
Local Open Scope R_scope.

(** Coefficients, lowest power first. *)
Definition zpol := list Z.
Fixpoint evz (p : zpol) (x : R) : R := match p with [] => 0 | c :: p' => IZR c + x * evz p' x end.
Fixpoint zadd (p q : zpol) : zpol := match p, q with [], _ => q | _, [] => p | a :: p', b :: q' => (a + b)%Z :: zadd p' q' end.
Definition zscale (k : Z) (p : zpol) : zpol := map (Z.mul k) p.
Fixpoint zmul (p q : zpol) : zpol := match p with [] => [] | a :: p' => zadd (zscale a q) (0%Z :: zmul p' q) end.
Fixpoint zshift (A : Z) (p : zpol) : zpol := match p with [] => [] | c :: p' => let s := zshift A p' in zadd (c :: s) (zscale A s) end.
Fixpoint zshift1 (p : zpol) : zpol := match p with [] => [] | c :: p' => let s := zshift1 p' in zadd (c :: s) s end.
(** c_i E^i, starting with f *)
Fixpoint zgeom (f E : Z) (p : zpol) : zpol := match p with [] => [] | c :: p' => (c * f)%Z :: zgeom (f * E) E p' end.
(** D^(n-1) p (x / D) *)
Fixpoint zlift (D : Z) (p : zpol) : zpol * Z := match p with [] => ([], 1%Z) | c :: p' => let (q, f) := zlift D p' in ((c * f)%Z :: q, (f * D)%Z) end.
(** floor (c_i / 2^(k + i)) *)
Fixpoint zhalf (k : Z) (p : zpol) : zpol := match p with [] => [] | c :: p' => Z.shiftr c k :: zhalf (k + 1) p' end.
Fixpoint zlow (p : zpol) : Z := match p with [] => 0%Z | c :: p' => (c + Z.min 0 (zlow p'))%Z end.
(** Positive on [0, 1] *)
Fixpoint zbis (d : nat) (p : zpol) : bool :=
  if (0 <? zlow p)%Z then true else
  match d with O => false | S d => let l := zhalf 0 p in if zbis d l then zbis d (zshift1 l) else false end.
Definition zreduce (p : zpol) : zpol :=
  let k := (Z.log2 (fold_right (fun c m => Z.max (Z.abs c) m) 0 p) - 90)%Z in if (0 <? k)%Z then map (fun c => Z.shiftr c k) p else p.
Definition zpos (d : nat) (p : zpol) (lo hi : Q) : bool :=
  let D := (Zpos (Qden lo) * Zpos (Qden hi))%Z in let A := (Qnum lo * Zpos (Qden hi))%Z in let E := (Qnum hi * Zpos (Qden lo) - A)%Z in
  ((0 <? E)%Z && zbis d (zreduce (zgeom 1 E (zshift A (fst (zlift D p))))))%bool.

Lemma evz_add p q x : evz (zadd p q) x = evz p x + evz q x.
Proof. revert q; induction p as [|a p IH]; intros [|b q]; cbn [evz zadd]; try lra. rewrite plus_IZR, IH. ring. Qed.
Lemma evz_scale k p x : evz (zscale k p) x = IZR k * evz p x.
Proof. unfold zscale. induction p as [|a p IH]; cbn [map evz]; [lra|]. rewrite mult_IZR, IH. ring. Qed.
Lemma evz_mul p q x : evz (zmul p q) x = evz p x * evz q x.
Proof. induction p as [|a p IH]; cbn [zmul evz]; [lra|]. rewrite evz_add, evz_scale. cbn [evz]. rewrite IH. ring. Qed.
Lemma evz_shift A p x : evz (zshift A p) x = evz p (x + IZR A).
Proof. induction p as [|c p IH]; cbn [zshift evz]; [reflexivity|]. rewrite evz_add, evz_scale. cbn [evz]. rewrite IH. ring. Qed.
Lemma evz_shift1 p x : evz (zshift1 p) x = evz p (x + 1).
Proof. induction p as [|c p IH]; cbn [zshift1 evz]; [reflexivity|]. rewrite evz_add. cbn [evz]. rewrite IH. ring. Qed.
Lemma evz_geom f E p x : evz (zgeom f E p) x = IZR f * evz p (IZR E * x).
Proof. revert f; induction p as [|c p IH]; intros f; cbn [zgeom evz]; [ring|]. rewrite IH, !mult_IZR. ring. Qed.
Lemma zlift_pos D p : (0 < D)%Z -> (0 < snd (zlift D p))%Z.
Proof. intros H. induction p as [|c p IH]; cbn [zlift]; [reflexivity|]. destruct (zlift D p) as [q f]. cbn [snd] in *. now apply Z.mul_pos_pos. Qed.
Lemma evz_lift D p x : (0 < D)%Z -> IZR D * evz (fst (zlift D p)) (IZR D * x) = IZR (snd (zlift D p)) * evz p x.
Proof.
  intros H. assert (N : IZR D <> 0) by (apply not_0_IZR; lia). induction p as [|c p IH]; cbn [zlift fst snd evz]; [ring|]. destruct (zlift D p) as [q f]. cbn [fst snd evz] in *.
  rewrite !mult_IZR. replace (IZR D * (IZR c * IZR f + IZR D * x * evz q (IZR D * x))) with (IZR D * IZR c * IZR f + IZR D * x * (IZR D * evz q (IZR D * x))) by ring. rewrite IH. ring.
Qed.
Lemma shiftr_le c k : (0 <= k)%Z -> IZR (Z.shiftr c k) * IZR (2 ^ k) <= IZR c.
Proof. intros K. rewrite Z.shiftr_div_pow2 by auto. rewrite <- mult_IZR. apply IZR_le. rewrite Z.mul_comm. apply Z.mul_div_le. now apply Z.pow_pos_nonneg. Qed.
Lemma evz_half k p x : (0 <= k)%Z -> 0 <= x -> IZR (2 ^ k) * evz (zhalf k p) (2 * x) <= evz p x.
Proof.
  revert k. induction p as [|c p IH]; intros k K X; cbn [zhalf evz]; [lra|]. assert (A := shiftr_le c k K). assert (B := IH (k + 1)%Z ltac:(lia) X). rewrite Z.pow_add_r, mult_IZR in B by lia. change (IZR (2 ^ 1)) with 2 in B.
  assert (C := Rmult_le_compat_l x _ _ X B). lra.
Qed.
Lemma zlow_sound p x : 0 <= x <= 1 -> IZR (zlow p) <= evz p x.
Proof.
  intros X. induction p as [|c p IH]; cbn [zlow evz]; [lra|]. rewrite plus_IZR. apply Rplus_le_compat_l. destruct (Z.le_ge_cases 0 (zlow p)) as [G|G].
  - rewrite Z.min_l by auto. apply IZR_le in G. apply Rmult_le_pos; lra.
  - rewrite Z.min_r by auto. apply IZR_le in G. nra.
Qed.
Lemma zbis_sound d p x : zbis d p = true -> 0 <= x <= 1 -> 0 < evz p x.
Proof.
  assert (S : forall p x, (0 <? zlow p)%Z = true -> 0 <= x <= 1 -> 0 < evz p x). { intros q y H Y. apply Z.ltb_lt, IZR_lt in H. pose proof (zlow_sound q y Y). lra. }
  revert p x. induction d as [|d IH]; intros p x H X; cbn [zbis] in H.
  - destruct (0 <? zlow p)%Z eqn:E; [|discriminate]. now apply S.
  - destruct (0 <? zlow p)%Z eqn:E; [now apply S|]. destruct (zbis d (zhalf 0 p)) eqn:A; [|discriminate]. assert (L := evz_half 0 p x ltac:(lia) ltac:(lra)). change (IZR (2 ^ 0)) with 1 in L.
    assert (0 < evz (zhalf 0 p) (2 * x)); [|lra]. destruct (Rle_dec (2 * x) 1) as [G|G]; [apply IH; auto; lra|].
    assert (B := IH _ (2 * x - 1) H ltac:(lra)). rewrite evz_shift1 in B. replace (2 * x - 1 + 1) with (2 * x) in B by ring. exact B.
Qed.
Lemma zreduce_sound p x : 0 <= x -> 0 < evz (zreduce p) x -> 0 < evz p x.
Proof.
  intros X. unfold zreduce. set (k := (_ - 90)%Z). destruct (0 <? k)%Z eqn:E; [|auto]. apply Z.ltb_lt in E. intros H.
  assert (P : 0 < IZR (2 ^ k)) by (apply IZR_lt; apply Z.pow_pos_nonneg; lia).
  assert (L : IZR (2 ^ k) * evz (map (fun c => Z.shiftr c k) p) x <= evz p x).
  { clear H. clearbody k. induction p as [|c p IH]; cbn [map evz]; [lra|]. assert (A := shiftr_le c k ltac:(lia)). assert (C := Rmult_le_compat_l x _ _ X IH). lra. }
  assert (0 < IZR (2 ^ k) * evz (map (fun c => Z.shiftr c k) p) x) by now apply Rmult_lt_0_compat. lra.
Qed.
Lemma zpos_sound d p lo hi x : zpos d p lo hi = true -> Q2R lo <= x <= Q2R hi -> 0 < evz p x.
Proof.
  unfold zpos. set (D := (Zpos (Qden lo) * Zpos (Qden hi))%Z). set (A := (Qnum lo * Zpos (Qden hi))%Z). set (E := (Qnum hi * Zpos (Qden lo) - A)%Z).
  intros H X. apply andb_prop in H. destruct H as [HE H]. apply Z.ltb_lt in HE. assert (HD : (0 < D)%Z) by (unfold D; lia). assert (RE := IZR_lt _ _ HE). assert (RD := IZR_lt _ _ HD).
  assert (LO : IZR D * Q2R lo = IZR A). { unfold D, A, Q2R. rewrite !mult_IZR. field. apply not_0_IZR. discriminate. }
  assert (HI : IZR D * Q2R hi = IZR E + IZR A). { unfold E, D. rewrite minus_IZR. unfold Q2R. rewrite !mult_IZR. field. apply not_0_IZR. discriminate. }
  set (t := (IZR D * x - IZR A) / IZR E).
  assert (T : 0 <= t <= 1).
  { assert (B0 := Rmult_le_compat_l (IZR D) _ _ (Rlt_le _ _ RD) (proj1 X)). assert (B1 := Rmult_le_compat_l (IZR D) _ _ (Rlt_le _ _ RD) (proj2 X)). rewrite LO in B0. rewrite HI in B1.
    unfold t. split; [apply Rmult_le_pos; [lra|]; left; now apply Rinv_0_lt_compat|]. apply Rmult_le_reg_r with (IZR E); auto. unfold Rdiv. rewrite Rmult_assoc, Rinv_l by lra. lra. }
  assert (P := zreduce_sound _ t (proj1 T) (zbis_sound _ _ _ H T)). rewrite evz_geom, evz_shift in P.
  replace (IZR E * t + IZR A) with (IZR D * x) in P by (unfold t; field; lra). rewrite Rmult_1_l in P.
  assert (Q := evz_lift D p x HD). assert (F := IZR_lt _ _ (zlift_pos D p HD)). assert (0 < IZR (snd (zlift D p)) * evz p x) by (rewrite <- Q; now apply Rmult_lt_0_compat).
  apply Rmult_lt_reg_l with (IZR (snd (zlift D p))); lra.
Qed.
