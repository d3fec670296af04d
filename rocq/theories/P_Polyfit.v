(** Polynomials, least squares and the models fitted to data. *)
From Verif Require Import Prelude M_Stoichiometry M_Csv M_Physical Spec_Physical P_Poly P_Physical M_Polyfit Spec_Polyfit.
From Coq Require Import Reals Lra Lia Psatz Permutation.
Local Open Scope list_scope.
Local Open Scope R_scope.

(** * Polynomial functions *)
Lemma poly_ext d f g : (forall x, f x = g x) -> polynomial d f -> polynomial d g.
Proof. intros E [c C]. exists c. intros x. now rewrite <- E. Qed.
Lemma poly_plus d f g : polynomial d f -> polynomial d g -> polynomial d (fun x => f x + g x).
Proof. intros [c C] [e E]. exists (fun i => c i + e i). intros x. rewrite C, E, <- sum_plus. apply sum_eq. intros. ring. Qed.
Lemma poly_scale d k f : polynomial d f -> polynomial d (fun x => k * f x).
Proof. intros [c C]. exists (fun i => k * c i). intros x. rewrite C, scal_sum. apply sum_eq. intros. ring. Qed.
Lemma poly_minus d f g : polynomial d f -> polynomial d g -> polynomial d (fun x => f x - g x).
Proof. intros F G. apply (poly_ext d (fun x => f x + (-1) * g x)); [intros; ring|]. apply poly_plus; auto. now apply (poly_scale d (-1) g). Qed.
Lemma poly_S d f : polynomial (S d) f <-> exists c g, polynomial d g /\ forall x, f x = c + x * g x.
Proof.
  split.
  - intros [c C]. exists (c 0%nat), (fun x => sum_f_R0 (fun i => c (S i) * x ^ i) d). split; [now exists (fun i => c (S i))|].
    intros x. rewrite C, decomp_sum by lia. cbn [pred pow]. rewrite Rmult_1_r. f_equal. rewrite scal_sum. apply sum_eq. intros. ring.
  - intros (c & g & [e E] & F). exists (fun i => match i with O => c | S j => e j end). intros x. rewrite F, decomp_sum by lia. cbn [pred pow]. rewrite Rmult_1_r. f_equal.
    rewrite E, scal_sum. apply sum_eq. intros. ring.
Qed.
Lemma poly_const d k : polynomial d (fun _ => k).
Proof. induction d as [|d IH]; [exists (fun _ => k); intros; cbn; ring|]. apply poly_S. exists k, (fun _ => 0 * k). split; [now apply poly_scale|]. intros; ring. Qed.
Lemma poly_0 f : polynomial 0 f <-> exists k, forall x, f x = k.
Proof. split; [intros [c C]; exists (c 0%nat); intros; rewrite C; cbn; ring|intros [k K]; apply (poly_ext 0 (fun _ => k)); [auto|apply poly_const]]. Qed.
Lemma poly_up d f : polynomial d f -> polynomial (S d) f.
Proof.
  revert f; induction d as [|d IH]; intros f F.
  - apply poly_0 in F. destruct F as [k K]. apply (poly_ext 1 (fun _ => k)); [auto|apply poly_const].
  - apply poly_S in F. destruct F as (c & g & G & E). apply poly_S. exists c, g. auto.
Qed.
Lemma poly_le d e f : (d <= e)%nat -> polynomial d f -> polynomial e f.
Proof. induction 1; auto. intros. apply poly_up; auto. Qed.
Lemma poly_shift d f a b : polynomial d f -> polynomial d (fun x => f (a * x + b)).
Proof.
  revert f; induction d as [|d IH]; intros f F.
  - apply poly_0 in F. destruct F as [k K]. apply poly_0. exists k. auto.
  - apply poly_S in F. destruct F as (c & g & G & E).
    assert (H : polynomial (S d) (fun x => (c + b * g (a * x + b)) + x * (a * g (a * x + b)))).
    { apply poly_plus; [apply poly_up, poly_plus; [apply poly_const|]|apply poly_S; exists 0, (fun x => a * g (a * x + b)); split; [|intros; ring]];
      apply (poly_scale d _ (fun x => g (a * x + b))), IH, G. }
    revert H. apply poly_ext. intros x. rewrite E. ring.
Qed.
Lemma poly_pow d i : (i <= d)%nat -> polynomial d (fun x => x ^ i).
Proof.
  intros L. apply (poly_le i); auto. clear L. induction i as [|i IH]; [apply (poly_const 0 1)|]. apply poly_S. exists 0, (fun x => x ^ i). split; auto. intros; cbn; ring.
Qed.
Lemma poly_factor d : forall f r, polynomial (S d) f -> exists g, polynomial d g /\ forall x, f x = (x - r) * g x + f r.
Proof.
  induction d as [|d IH]; intros f r F; apply poly_S in F; destruct F as (c & h & H & E).
  - apply poly_0 in H. destruct H as [k K]. exists (fun _ => k). split; [apply poly_const|]. intros x. rewrite !E, !K. ring.
  - destruct (IH h r H) as (g & G & X). exists (fun x => h r + x * g x). split; [apply poly_S; exists (h r), g; auto|].
    intros x. rewrite !E. rewrite (X x) at 1. ring.
Qed.
Lemma poly_roots d : forall f ts, polynomial d f -> NoDup ts -> length ts = S d -> (forall t, In t ts -> f t = 0) -> forall x, f x = 0.
Proof.
  induction d as [|d IH]; intros f ts F N L Z x; destruct ts as [|r ts]; try discriminate L.
  - apply poly_0 in F. destruct F as [k K]. rewrite K, <- (K r). apply Z. now left.
  - destruct (poly_factor d f r F) as (g & G & E). inversion N as [|? ? N1 N2]; subst.
    assert (A : forall x, g x = 0).
    { apply (IH g ts G N2); [cbn in L; lia|]. intros t I. assert (X := Z t (or_intror I)). rewrite E, (Z r (or_introl eq_refl)), Rplus_0_r in X.
      apply Rmult_integral in X. destruct X as [X|X]; auto. exfalso. apply N1. replace r with t by lra. exact I. }
    rewrite E, A, (Z r (or_introl eq_refl)). ring.
Qed.

(** * Least squares *)
Lemma dev_nonneg f data : 0 <= deviation f data.
Proof. induction data as [|[t y] data IH]; cbn [deviation]; [lra|]. pose proof (pow2_ge_0 (f t - y)). lra. Qed.
Lemma dev_ext f g data : (forall t, In t (map fst data) -> f t = g t) -> deviation f data = deviation g data.
Proof. induction data as [|[t y] data IH]; intros E; cbn [deviation]; auto. rewrite (E t) by (left; reflexivity). rewrite IH; auto. intros s I. apply E. now right. Qed.
Lemma dev_zero f data : deviation f data = 0 <-> forall t y, In (t, y) data -> f t = y.
Proof.
  induction data as [|[t y] data IH]; cbn [deviation In]; [tauto|]. pose proof (pow2_ge_0 (f t - y)) as P. pose proof (dev_nonneg f data) as Q. split.
  - intros Z t' y' [E|I].
    + injection E as <- <-. assert (X : (f t - y) ^ 2 = 0) by lra. assert (f t - y = 0) by nra. lra.
    + apply IH; auto. lra.
  - intros H. replace (f t) with y by (symmetry; apply H; now left). rewrite (proj2 IH); [ring|]. intros. apply H. now right.
Qed.
Lemma dev_perm f a b : Permutation a b -> deviation f a = deviation f b.
Proof.
  induction 1 as [|[t y] a b P IH|[t y] [s z] a|]; cbn [deviation]; auto; lra.
Qed.
(** the sum of residual times g *)
Fixpoint moment (f g : R -> R) (data : list (R * R)) : R := match data with [] => 0 | (t, y) :: r => (f t - y) * g t + moment f g r end.
Fixpoint norm (g : R -> R) (data : list (R * R)) : R := match data with [] => 0 | (t, _) :: r => g t ^ 2 + norm g r end.
Lemma norm_nonneg g data : 0 <= norm g data.
Proof. induction data as [|[t y] data IH]; cbn [norm]; [lra|]. pose proof (pow2_ge_0 (g t)). lra. Qed.
Lemma norm_zero g data : norm g data = 0 -> forall t, In t (map fst data) -> g t = 0.
Proof.
  induction data as [|[t y] data IH]; cbn [norm map fst In]; [tauto|]. pose proof (pow2_ge_0 (g t)). pose proof (norm_nonneg g data). intros Z s [<-|I]; [|apply IH; auto; lra].
  assert (g t ^ 2 = 0) by lra. nra.
Qed.
Lemma dev_vary f g e data : deviation (fun x => f x + e * g x) data = deviation f data + 2 * e * moment f g data + e ^ 2 * norm g data.
Proof. induction data as [|[t y] data IH]; cbn [deviation moment norm]; [ring|]. rewrite IH. ring. Qed.
Lemma best_moment d f g data : best_fit d f data -> polynomial d g -> moment f g data = 0.
Proof.
  intros [F B] G. set (S0 := moment f g data). set (G0 := norm g data).
  assert (V : forall e, 0 <= 2 * e * S0 + e ^ 2 * G0).
  { intros e. assert (X := B (fun x => f x + e * g x) (poly_plus d f (fun x => e * g x) F (poly_scale d e g G))). rewrite dev_vary in X. fold S0 G0 in X. lra. }
  pose proof (norm_nonneg g data) as P. fold G0 in P. destruct (Req_dec G0 0) as [Z|Z].
  - specialize (V (- S0)). rewrite Z in V. nra.
  - assert (A := V (- S0 / G0)). assert (E : 2 * (- S0 / G0) * S0 + (- S0 / G0) ^ 2 * G0 = - (S0 * S0 / G0)) by (field; auto). rewrite E in A.
    assert (Q : 0 < / G0) by (apply Rinv_0_lt_compat; lra). unfold Rdiv in A. assert (S0 * S0 <= 0); [|nra].
    apply Rmult_le_reg_r with (/ G0); lra.
Qed.
Lemma best_at_data d f g data : best_fit d f data -> best_fit d g data -> forall t, In t (map fst data) -> f t = g t.
Proof.
  intros F G. assert (M := best_moment d f (fun x => g x - f x) data F (poly_minus d g f (proj1 G) (proj1 F))).
  assert (V := dev_vary f (fun x => g x - f x) 1 data). rewrite M in V.
  rewrite (dev_ext _ g) in V by (intros; ring). assert (L := proj2 G f (proj1 F)). pose proof (norm_nonneg (fun x => g x - f x) data).
  assert (Z : norm (fun x => g x - f x) data = 0) by lra. intros t I. assert (X := norm_zero _ _ Z t I). cbn in X. lra.
Qed.
Lemma same_everywhere d f g data : polynomial d f -> polynomial d g -> enough d data -> (forall t, In t (map fst data) -> f t = g t) -> forall x, f x = g x.
Proof.
  intros F G (ts & N & L & I) E x. assert (Z := poly_roots d (fun x => f x - g x) ts (poly_minus d f g F G) N L). cbn in Z.
  enough (f x - g x = 0) by lra. apply Z. intros t T. rewrite (E t); [lra|auto].
Qed.
Lemma best_unique d f g data : best_fit d f data -> best_fit d g data -> enough d data -> forall x, f x = g x.
Proof. intros F G E. apply (same_everywhere d f g data); [apply F|apply G|auto|]. now apply (best_at_data d). Qed.
Lemma best_exact d f g data : best_fit d f data -> polynomial d g -> (forall t y, In (t, y) data -> g t = y) -> forall t y, In (t, y) data -> f t = y.
Proof. intros F G E. apply dev_zero. apply dev_zero in E. assert (L := proj2 F g G). pose proof (dev_nonneg f data). lra. Qed.
Lemma best_perm d f a b : Permutation a b -> best_fit d f a -> best_fit d f b.
Proof. intros P [F B]. split; auto. intros g G. rewrite <- !(dev_perm _ _ _ P). auto. Qed.
Lemma enough_perm d a b : Permutation a b -> enough d a -> enough d b.
Proof. intros P (ts & N & L & I). exists ts. repeat split; auto. intros t T. apply (Permutation_in _ (Permutation_map fst P)). auto. Qed.
Lemma dev_rescaled f a b k c data : a <> 0 -> deviation (fun x => k * f ((x - b) / a) + c) (rescaled a b k c data) = k ^ 2 * deviation f data.
Proof.
  intros A. induction data as [|[t y] data IH]; [cbn; ring|]. unfold rescaled in *. cbn [map deviation fst snd]. rewrite IH.
  replace ((a * t + b - b) / a) with t by (field; auto). ring.
Qed.
Lemma poly_affine d f a b k c : a <> 0 -> polynomial d f -> polynomial d (fun x => k * f ((x - b) / a) + c).
Proof.
  intros A F. apply poly_plus; [|apply poly_const]. apply (poly_scale d k (fun x => f ((x - b) / a))).
  apply (poly_ext d (fun x => f (/ a * x + - b / a))); [intros x; f_equal; field; auto|]. now apply (poly_shift d f).
Qed.
Lemma best_rescaled d f a b k c data : a <> 0 -> k <> 0 -> best_fit d f data -> best_fit d (fun x => k * f ((x - b) / a) + c) (rescaled a b k c data).
Proof.
  intros A K [F B]. split; [now apply poly_affine|]. intros g G.
  assert (H : polynomial d (fun x => / k * g (a * x + b) + - c / k)) by (apply poly_plus; [apply (poly_scale d _ (fun x => g (a * x + b))), (poly_shift d g), G|apply poly_const]).
  rewrite dev_rescaled by auto. specialize (B _ H). assert (X := dev_rescaled (fun x => / k * g (a * x + b) + - c / k) a b k c data A). cbn beta in X.
  rewrite (dev_ext _ g) in X; [rewrite X; apply Rmult_le_compat_l; [apply pow2_ge_0|auto]|].
  intros t _. replace (a * ((t - b) / a) + b) with t by (field; auto). field; auto.
Qed.
Lemma enough_rescaled d a b k c data : a <> 0 -> enough d data -> enough d (rescaled a b k c data).
Proof.
  intros A (ts & N & L & I). exists (map (fun t => a * t + b) ts). repeat split.
  - clear L I. induction N as [|t ts X N IH]; cbn [map]; constructor; auto. intros H. apply in_map_iff in H. destruct H as (s & E & S). apply X. replace t with s; auto.
    apply (Rmult_eq_reg_l a); auto. lra.
  - now rewrite map_length.
  - intros t H. apply in_map_iff in H. destruct H as (s & <- & S). apply I in S. apply in_map_iff in S. destruct S as (m & <- & M). unfold rescaled. rewrite map_map. cbn [fst]. apply (in_map (fun m => a * fst m + b)) in M. exact M.
Qed.

(** * The program *)
Lemma value_cons c p d x : value_of (c :: p) (S d) x = c * x ^ S d + value_of p d x.
Proof. unfold value_of. rewrite decomp_sum by lia. cbn [pred nth]. rewrite Nat.sub_0_r. reflexivity. Qed.
Lemma value_power p d x : length p = S d -> value_of p d x = power_sum p x.
Proof.
  revert p; induction d as [|d IH]; intros [|c p] L; try discriminate L.
  - destruct p; [|discriminate L]. unfold value_of. cbn. ring.
  - rewrite value_cons, IH by (cbn in L; lia). cbn [power_sum]. cbn in L. replace (length p) with (S d) by lia. reflexivity.
Qed.
Lemma min_acc l : forall a, let m := fold_left (fun a y => if Rlt_dec y a then y else a) l a in (m = a \/ In m l) /\ m <= a /\ forall x, In x l -> m <= x.
Proof.
  induction l as [|y l IH]; intros a; cbn [fold_left In]; [split; auto; split; [lra|tauto]|]. destruct (Rlt_dec y a) as [L|L].
  - destruct (IH y) as (A & B & C). split; [destruct A as [A|A]; auto|]. split; [lra|]. intros x [<-|X]; auto.
  - destruct (IH a) as (A & B & C). split; [destruct A as [A|A]; auto|]. split; [lra|]. intros x [<-|X]; auto. lra.
Qed.
Lemma max_acc l : forall a, let m := fold_left (fun a y => if Rlt_dec a y then y else a) l a in (m = a \/ In m l) /\ a <= m /\ forall x, In x l -> x <= m.
Proof.
  induction l as [|y l IH]; intros a; cbn [fold_left In]; [split; auto; split; [lra|tauto]|]. destruct (Rlt_dec a y) as [L|L].
  - destruct (IH y) as (A & B & C). split; [destruct A as [A|A]; auto|]. split; [lra|]. intros x [<-|X]; auto.
  - destruct (IH a) as (A & B & C). split; [destruct A as [A|A]; auto|]. split; [lra|]. intros x [<-|X]; auto. lra.
Qed.
Lemma list_min_ok l m : list_min l = Ok m <-> In m l /\ forall x, In x l -> m <= x.
Proof.
  destruct l as [|a l]; [split; [discriminate|intros [[] _]]|]. cbn [list_min]. destruct (min_acc l a) as (A & B & C). set (m0 := fold_left _ l a) in *. split.
  - injection 1 as <-. cbn [In]. split; [destruct A; auto|]. intros x [<-|X]; auto.
  - intros [I M]. f_equal. apply Rle_antisym; [destruct I as [<-|I]; auto|]. apply M. cbn [In]. destruct A as [A|A]; auto.
Qed.
Lemma list_max_ok l m : list_max l = Ok m <-> In m l /\ forall x, In x l -> x <= m.
Proof.
  destruct l as [|a l]; [split; [discriminate|intros [[] _]]|]. cbn [list_max]. destruct (max_acc l a) as (A & B & C). set (m0 := fold_left _ l a) in *. split.
  - injection 1 as <-. cbn [In]. split; [destruct A; auto|]. intros x [<-|X]; auto.
  - intros [I M]. f_equal. apply Rle_antisym; [apply M; cbn [In]; destruct A as [A|A]; auto|]. destruct I as [<-|I]; auto.
Qed.
Lemma list_min_some l : l <> [] -> exists m, list_min l = Ok m.
Proof. destruct l; [congruence|]. intros _. eexists. reflexivity. Qed.
Lemma list_max_some l : l <> [] -> exists m, list_max l = Ok m.
Proof. destruct l; [congruence|]. intros _. eexists. reflexivity. Qed.
Lemma map_fst_combine {A B} (a : list A) (b : list B) : length a = length b -> map fst (combine a b) = a.
Proof. revert b; induction a as [|x a IH]; intros [|y b] L; cbn; try discriminate; auto. f_equal. apply IH. cbn in L. lia. Qed.
Lemma poly_calc m T hi : pm_max m = Some hi -> poly_calculate m (at_T T) = if Rlt_dec T (pm_min m) then Err ValidationError else if Rlt_dec hi T then Err ValidationError else Ok (power_sum (pm_coeffs m) T).
Proof.
  intros E. unfold poly_calculate. rewrite check_T, E. cbn. destruct (Rlt_dec T (pm_min m)); cbn; auto. destruct (Rlt_dec hi T); cbn; auto. now rewrite polyval_sum.
Qed.
