(** The checks behind C98: the shipped polynomials against the measurements. *)
From Verif Require Import Prelude M_Lists M_Thermochem M_Data_Fluids M_Data_Measured Spec_Fit P_PolyZ P_Poly.
From Coq Require Import QArith Qabs Qminmax Reals Qreals Lra Lia.
Local Open Scope list_scope.
Local Open Scope R_scope.

Definition rows_of (f : string) : list (Q * Q) :=
  match lookup f model_sources with Some s =>
    match lookup (src_dataset s) measured_data with Some d =>
      match lookup "T" (ms_columns d), lookup (src_symbol s) (ms_columns d) with Some ts, Some ys => combine ts ys | _, _ => [] end
    | None => [] end | None => [] end.
Definition below (tol y : Q) : Q := (y - tol * Qabs y)%Q.
Definition above (tol y : Q) : Q := (y + tol * Qabs y)%Q.
(** p > c on [lo, hi], where p has the denominator [common] *)
Definition zabove (d : nat) (p : zpol) (c : Q) (lo hi : Q) : bool := zpos d (zadd (zscale (Zpos (Qden c)) p) [(- Qnum c * common)%Z]) lo hi.
Definition zbelow (d : nat) (p : zpol) (c : Q) (lo hi : Q) : bool := zpos d (zadd (zscale (- Zpos (Qden c)) p) [(Qnum c * common)%Z]) lo hi.
Definition Qleast (a b : Q) : Q := if Qle_bool a b then a else b.
Definition Qgreatest (a b : Q) : Q := if Qle_bool a b then b else a.
Fixpoint between_check (tol : Q) (p : zpol) (l : list (Q * Q)) : bool :=
  match l with
  | (T1, y1) :: (((T2, y2) :: _) as l') =>
      (zabove 12 p (below tol (Qleast y1 y2)) T1 T2 && zbelow 12 p (above tol (Qgreatest y1 y2)) T1 T2 && between_check tol p l')%bool
  | _ => true
  end.
Definition file_between (tol : string -> Q) (f : string) : bool :=
  match lookup f fluid_data with
  | Some q => let p := rev (qp_coeffs q) in (zfits common p && between_check (tol (symbol_of f)) (zints common p) (rows_of f))%bool
  | None => false
  end.
Lemma between_checked : forallb (fun fp => (if in_dec string_dec (fst fp) fluctuating then true else file_between tolerance (fst fp))) fluid_data = true.
Proof. vm_compute. reflexivity. Qed.

Lemma zabove_sound d p c lo hi x : zfits common p = true -> zabove d (zints common p) c lo hi = true -> Q2R lo <= x <= Q2R hi -> Q2R c < ev p x.
Proof.
  intros F A X. assert (S := zpos_sound _ _ _ _ x A X). rewrite evz_add, evz_scale, evz_ints in S by auto. cbn [evz] in S. rewrite mult_IZR, opp_IZR in S. pose proof common_pos as P.
  assert (D : 0 < IZR (Zpos (Qden c))) by (apply IZR_lt; reflexivity). assert (E : IZR (Qnum c) = Q2R c * IZR (Zpos (Qden c))) by (unfold Q2R; field; lra). rewrite E in S. clear E A.
  set (q := IZR (Zpos (Qden c))) in *. clearbody q. set (m := IZR common) in *. clearbody m. assert (PP : 0 < m * q) by now apply Rmult_lt_0_compat. apply Rmult_lt_reg_l with (m * q); auto. lra.
Qed.
Lemma zbelow_sound d p c lo hi x : zfits common p = true -> zbelow d (zints common p) c lo hi = true -> Q2R lo <= x <= Q2R hi -> ev p x < Q2R c.
Proof.
  intros F A X. assert (S := zpos_sound _ _ _ _ x A X). rewrite evz_add, evz_scale, evz_ints in S by auto. cbn [evz] in S. rewrite mult_IZR in S. pose proof common_pos as P.
  assert (D : 0 < IZR (Zpos (Qden c))) by (apply IZR_lt; reflexivity). assert (E : IZR (Qnum c) = Q2R c * IZR (Zpos (Qden c))) by (unfold Q2R; field; lra). rewrite E in S. clear E A.
  replace (IZR (- Zpos (Qden c))) with (- IZR (Zpos (Qden c))) in S by (rewrite <- opp_IZR; reflexivity).
  set (q := IZR (Zpos (Qden c))) in *. clearbody q. set (m := IZR common) in *. clearbody m. assert (PP : 0 < m * q) by now apply Rmult_lt_0_compat. apply Rmult_lt_reg_l with (m * q); auto. lra.
Qed.
Lemma Q2R_abs y : Q2R (Qabs y) = Rabs (Q2R y).
Proof.
  apply Qabs_case; intros H; apply Qle_Rle in H; rewrite ?RMicromega.Q2R_0 in H; unfold Rabs.
  - destruct (Rcase_abs (Q2R y)); lra.
  - rewrite Q2R_opp. destruct (Rcase_abs (Q2R y)); lra.
Qed.
Lemma below_R tol y : Q2R (below tol y) = Q2R y - Q2R tol * Rabs (Q2R y).
Proof. unfold below. now rewrite Q2R_minus, Q2R_mult, Q2R_abs. Qed.
Lemma above_R tol y : Q2R (above tol y) = Q2R y + Q2R tol * Rabs (Q2R y).
Proof. unfold above. now rewrite Q2R_plus, Q2R_mult, Q2R_abs. Qed.
Lemma least_R a b : Q2R (Qleast a b) = Rmin (Q2R a) (Q2R b).
Proof. unfold Qleast. destruct (Qle_bool a b) eqn:E; [apply Qle_bool_iff, Qle_Rle in E; now rewrite Rmin_left|]. rewrite Rmin_right; auto. destruct (Rle_lt_dec (Q2R b) (Q2R a)); auto. apply Rlt_le, Rle_Qle, Qle_bool_iff in r. congruence. Qed.
Lemma greatest_R a b : Q2R (Qgreatest a b) = Rmax (Q2R a) (Q2R b).
Proof. unfold Qgreatest. destruct (Qle_bool a b) eqn:E; [apply Qle_bool_iff, Qle_Rle in E; now rewrite Rmax_right|]. rewrite Rmax_left; auto. destruct (Rle_lt_dec (Q2R b) (Q2R a)); auto. apply Rlt_le, Rle_Qle, Qle_bool_iff in r. congruence. Qed.
Lemma between_of tol v a b lo hi : 0 <= tol -> lo = Rmin a b -> hi = Rmax a b -> lo - tol * Rabs lo < v -> v < hi + tol * Rabs hi -> about_between tol v a b.
Proof.
  intros TP -> -> L H. assert (M : Rmin a b <= Rmax a b) by (unfold Rmin, Rmax; destruct (Rle_dec a b); lra). unfold about_between, within_part.
  destruct (Rlt_le_dec v (Rmin a b)); [exists (Rmin a b)|destruct (Rlt_le_dec (Rmax a b) v); [exists (Rmax a b)|exists v]]; (split; [lra|]).
  - rewrite (Rabs_left (v - _)) by lra. lra.
  - rewrite (Rabs_right (v - _)) by lra. lra.
  - rewrite Rminus_diag_eq, Rabs_R0 by auto. apply Rmult_le_pos; auto. apply Rabs_pos.
Qed.
Lemma between_nth tol p l : zfits common p = true -> between_check tol (zints common p) l = true -> forall i T1 y1 T2 y2 x,
  nth_error l i = Some (T1, y1) -> nth_error l (S i) = Some (T2, y2) -> Q2R T1 <= x <= Q2R T2 -> Q2R (below tol (Qleast y1 y2)) < ev p x < Q2R (above tol (Qgreatest y1 y2)).
Proof.
  intros F. induction l as [|[t1 u1] [|[t2 u2] l] IH]; intros H i T1 y1 T2 y2 x A B X.
  - destruct i; discriminate.
  - destruct i as [|i]; cbn in B; [discriminate|destruct i; discriminate].
  - cbn [between_check] in H. apply andb_prop in H. destruct H as [H1 H]. apply andb_prop in H1. destruct H1 as [H1 H2]. destruct i as [|i].
    + cbn [nth_error] in A, B. injection A as -> ->. injection B as -> ->. split; [eapply zabove_sound|eapply zbelow_sound]; eauto.
    + exact (IH H i T1 y1 T2 y2 x A B X).
Qed.
Lemma nth_combine {A B} (l : list A) (m : list B) i x y : nth_error l i = Some x -> nth_error m i = Some y -> nth_error (combine l m) i = Some (x, y).
Proof. revert m i. induction l as [|a l IH]; intros [|b m] [|i]; cbn; try discriminate; [congruence|apply IH]. Qed.
Lemma row_of_rows f i T y : row_of f i T y -> nth_error (rows_of f) i = Some (T, y).
Proof. intros (s & d & ts & ys & S & D & A & B & C & E). unfold rows_of. rewrite S, D, A, B. now apply nth_combine. Qed.
Lemma combine_nth {A B} (l : list A) (m : list B) i x y : nth_error (combine l m) i = Some (x, y) -> nth_error l i = Some x /\ nth_error m i = Some y.
Proof. revert m i. induction l as [|a l IH]; intros [|b m] [|i]; cbn; try discriminate; [intros E; injection E as -> ->; auto|apply IH]. Qed.
Lemma rows_row f i T y : nth_error (rows_of f) i = Some (T, y) -> row_of f i T y.
Proof.
  unfold rows_of, row_of. destruct (lookup f model_sources) as [s|]; [|destruct i; discriminate]. destruct (lookup (src_dataset s) measured_data) as [d|] eqn:D; [|destruct i; discriminate].
  destruct (lookup "T" (ms_columns d)) as [ts|] eqn:A; [|destruct i; discriminate]. destruct (lookup (src_symbol s) (ms_columns d)) as [ys|] eqn:B; [|destruct i; discriminate]. intros H. apply combine_nth in H.
  exists s, d, ts, ys. tauto.
Qed.

(** At a measured temperature. *)
Fixpoint zev (p : zpol) (A : Z) : Z := match p with [] => 0%Z | c :: p' => (c + A * zev p' A)%Z end.
Lemma zev_R p A : IZR (zev p A) = evz p (IZR A).
Proof. induction p as [|c p IH]; cbn [zev evz]; auto. now rewrite plus_IZR, mult_IZR, IH. Qed.
Definition near_check (tol : Q) (p : zpol) (m : Q * Q) : bool :=
  let D := Zpos (Qden (fst m)) in let (l, f) := zlift D p in let v := (D * zev l (Qnum (fst m)))%Z in let lo := below tol (snd m) in let hi := above tol (snd m) in
  ((Qnum lo * (f * common) <=? v * Zpos (Qden lo)) && (v * Zpos (Qden hi) <=? Qnum hi * (f * common)))%Z%bool.
Lemma near_sound tol p T y : zfits common p = true -> near_check tol (zints common p) (T, y) = true -> Q2R (below tol y) <= ev p (Q2R T) <= Q2R (above tol y).
Proof.
  intros F H. unfold near_check in H. cbn [fst snd] in H. set (D := Zpos (Qden T)) in *. assert (DP : (0 < D)%Z) by reflexivity.
  assert (L := evz_lift D (zints common p) (Q2R T) DP). assert (LP := zlift_pos D (zints common p) DP). destruct (zlift D (zints common p)) as [l f]. cbn [fst snd] in L, LP.
  assert (E : IZR D * Q2R T = IZR (Qnum T)) by (unfold Q2R, D; field; apply not_0_IZR; discriminate). rewrite E, <- zev_R, evz_ints in L by auto. apply IZR_lt in LP. pose proof common_pos as P.
  apply andb_prop in H. destruct H as [A B]. apply Z.leb_le, IZR_le in A. apply Z.leb_le, IZR_le in B. rewrite !mult_IZR, L in A, B.
  assert (X : forall c, IZR (Qnum c) = Q2R c * IZR (Zpos (Qden c)) /\ 0 < IZR (Zpos (Qden c))) by (intros c; split; [unfold Q2R; field; apply not_0_IZR; discriminate|apply IZR_lt; reflexivity]).
  destruct (X (below tol y)) as [X1 X2]. destruct (X (above tol y)) as [X3 X4]. rewrite X1 in A. rewrite X3 in B. clear X X1 X3 L E.
  set (m := IZR common) in *. clearbody m. set (g := IZR f) in *. clearbody g. assert (0 < g * m) by now apply Rmult_lt_0_compat.
  split; [apply Rmult_le_reg_l with (g * m * IZR (Zpos (Qden (below tol y))))|apply Rmult_le_reg_l with (g * m * IZR (Zpos (Qden (above tol y))))]; try (now apply Rmult_lt_0_compat); lra.
Qed.
Definition file_near (f : string) : bool :=
  match lookup f fluid_data with
  | Some q => let p := rev (qp_coeffs q) in (zfits common p && forallb (near_check (tolerance (symbol_of f)) (zints common p)) (rows_of f))%bool
  | None => false
  end.
Lemma near_checked : forallb (fun fp => file_near (fst fp)) fluid_data = true.
Proof. vm_compute. reflexivity. Qed.
(** The limits. *)
Definition file_limits (f : string) : bool :=
  match lookup f fluid_data with
  | Some q => (existsb (fun m => Qeq_bool (fst m) (qp_min q)) (rows_of f) && existsb (fun m => Qeq_bool (fst m) (qp_max q)) (rows_of f) &&
               forallb (fun m => Qle_bool (qp_min q) (fst m) && Qle_bool (fst m) (qp_max q)) (rows_of f))%bool
  | None => false
  end.
Lemma limits_checked : forallb (fun fp => file_limits (fst fp)) fluid_data = true.
Proof. vm_compute. reflexivity. Qed.
