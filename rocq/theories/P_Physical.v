(** Proofs about the physical property models. *)
From Verif Require Import Prelude M_Lists M_Thermochem M_ThermoMat M_Coals M_Stoichiometry M_Physical Spec_Physical P_Content P_Convert P_Poly.
From Coq Require Import Reals Lra Lia Psatz Permutation.
Local Open Scope list_scope.
Local Open Scope R_scope.

(** * Sums *)
Lemma total_ext {A} (f g : A -> R) l : (forall a, In a l -> f a = g a) -> total f l = total g l.
Proof. induction l as [|a l IH]; intros H; cbn; auto. rewrite H by now left. rewrite IH; auto. intros; apply H; now right. Qed.
Lemma total_scale {A} k (f : A -> R) l : total (fun a => k * f a) l = k * total f l.
Proof. induction l as [|a l IH]; cbn; [lra|]. rewrite IH. ring. Qed.
Lemma total_map {A B} (g : A -> B) (f : B -> R) l : total f (map g l) = total (fun a => f (g a)) l.
Proof. induction l as [|a l IH]; cbn; congruence. Qed.
Lemma total_nonneg {A} (f : A -> R) l : (forall a, In a l -> 0 <= f a) -> 0 <= total f l.
Proof. induction l as [|a l IH]; intros H; cbn; [lra|]. specialize (IH (fun b Hb => H b (or_intror Hb))). specialize (H a (or_introl eq_refl)). lra. Qed.
Lemma total_le {A} (f g : A -> R) l : (forall a, In a l -> f a <= g a) -> total f l <= total g l.
Proof. induction l as [|a l IH]; intros H; cbn; [lra|]. specialize (IH (fun b Hb => H b (or_intror Hb))). specialize (H a (or_introl eq_refl)). lra. Qed.
Lemma total_pos {A} (f : A -> R) l a : (forall a, In a l -> 0 <= f a) -> In a l -> 0 < f a -> 0 < total f l.
Proof.
  induction l as [|b l IH]; intros H I P; cbn; [contradiction|]. assert (N : 0 <= total f l) by (apply total_nonneg; intros; apply H; now right).
  destruct I as [->|I]; [lra|]. specialize (IH (fun c Hc => H c (or_intror Hc)) I P). specialize (H b (or_introl eq_refl)). lra.
Qed.
Lemma total_zero {A} (f : A -> R) l : (forall a, In a l -> f a = 0) -> total f l = 0.
Proof. induction l as [|a l IH]; intros H; cbn; [lra|]. rewrite H by now left. rewrite IH; [lra|]. intros; apply H; now right. Qed.
Lemma total_perm {A} (f : A -> R) l l' : Permutation l l' -> total f l = total f l'.
Proof. induction 1; cbn; lra. Qed.
Lemma total_positive_has {A} (f : A -> R) l : 0 < total f l -> exists a, In a l /\ 0 < f a.
Proof.
  induction l as [|a l IH]; cbn; intros H; [lra|]. destruct (Rlt_dec 0 (f a)) as [P|P]; [exists a; auto|].
  destruct IH as (b & I & Pb); [lra|]. exists b; auto.
Qed.
Lemma rsum_total {A} (f : A -> R) l : rsum (map f l) = total f l.
Proof. unfold rsum. induction l as [|a l IH]; cbn; congruence. Qed.
Lemma foldM_total {A} (f : R -> A -> res R) (g : A -> R) l s :
  (forall a s, In a l -> f s a = Ok (s + g a)) -> foldM f l s = Ok (s + total g l).
Proof.
  revert s. induction l as [|a l IH]; intros s H; cbn; [now rewrite Rplus_0_r|]. rewrite H by now left. cbn.
  rewrite IH by (intros; apply H; now right). apply f_equal. ring.
Qed.
Lemma rdiv_ok a b : b <> 0 -> rdiv a b = Ok (a / b).
Proof. unfold rdiv. destruct (Req_EM_T b 0); [contradiction|reflexivity]. Qed.
Lemma rdiv_0 a : rdiv a 0 = Err ZeroDivisionError.
Proof. unfold rdiv. destruct (Req_EM_T 0 0); [reflexivity|contradiction]. Qed.
Lemma ndiv_ok a b : b <> 0 -> ndiv a b = Ok (a / b).
Proof. unfold ndiv. destruct (Req_EM_T b 0); [contradiction|reflexivity]. Qed.
Lemma npow_pos x y : 0 < x -> npow x y = Ok (Rpower x y).
Proof. intros X. unfold npow. destruct (Rlt_dec x 0); [lra|]. destruct (Req_EM_T x 0); [lra|reflexivity]. Qed.
Lemma npow_neg x y : x < 0 -> npow x y = Err NonFinite.
Proof. intros X. unfold npow. now destruct (Rlt_dec x 0). Qed.

(** * Validation *)
Lemma forallb_ext {A} (f g : A -> bool) l : (forall a, f a = g a) -> forallb f l = forallb g l.
Proof. intros H. induction l as [|a l IH]; cbn; [reflexivity|]. now rewrite H, IH. Qed.
Lemma check_T m mx st : check_state [("T"%string, mkfield false m mx)] st =
  match st with
  | [] => Err ValidationError
  | _ => match lookup "T" st with
         | Some (VNum x) => if forallb (fun kv => if string_dec (fst kv) "T" then true else false) st
                               && (match m with Some l => if Rlt_dec x l then false else true | None => true end)
                               && (match mx with Some l => if Rlt_dec l x then false else true | None => true end) then Ok tt else Err ValidationError
         | _ => Err ValidationError
         end
  end.
Proof.
  unfold check_state, validate. cbn [forallb fst snd map]. destruct st as [|kv st]; [reflexivity|].
  destruct (lookup "T" (kv :: st)) as [[x|d|]|]; cbn [rule_ok fd_dict fd_min fd_max negb andb]; auto.
  replace (forallb (fun kv0 : string * sval => member string_dec (fst kv0) ["T"%string]) (kv :: st)) with
    (forallb (fun kv0 : string * sval => if string_dec (fst kv0) "T" then true else false) (kv :: st)).
  { rewrite andb_true_r. rewrite (andb_comm _ (forallb _ _)). rewrite andb_assoc. reflexivity. }
  apply forallb_ext. intros a. unfold member. destruct (in_dec string_dec (fst a) ["T"%string]) as [X|X]; destruct (string_dec (fst a) "T") as [Y|Y]; auto.
  - destruct X as [X|[]]. congruence.
  - exfalso. apply X. left. now symmetry.
Qed.
Lemma poly_ok m T : pm_min m <= T -> (forall hi, pm_max m = Some hi -> T <= hi) -> poly_calculate m (at_T T) = Ok (power_sum (pm_coeffs m) T).
Proof.
  intros A B. unfold poly_calculate. rewrite check_T. cbn. destruct (Rlt_dec T (pm_min m)); [lra|]. destruct (pm_max m) as [hi|]; cbn.
  - specialize (B hi eq_refl). destruct (Rlt_dec hi T); [lra|]. cbn. now rewrite polyval_sum.
  - now rewrite polyval_sum.
Qed.

(** * Mixtures *)
Section Mixture.
Variable gs : gas_table.
Variable T : R.
Definition kept (x : list (string * R)) := filter (fun cx => known_gas gs (fst cx)) x.
Lemma normalise_ok x : total snd (kept x) <> 0 ->
  normalise_gases gs x = Ok (map (fun cx => (fst cx, snd cx / total snd (kept x))) (kept x)).
Proof.
  intros N. unfold normalise_gases. fold (kept x). rewrite rsum_total. rewrite (mapM_ext _ (fun cx : string * R => Ok (fst cx, snd cx / total snd (kept x)))).
  - apply mapM_Ok.
  - intros a _. rewrite rdiv_ok by exact N. reflexivity.
Qed.
Lemma normalise_0 x : total snd (kept x) = 0 -> kept x <> [] -> normalise_gases gs x = Err ZeroDivisionError.
Proof. intros Z N. unfold normalise_gases. fold (kept x). rewrite rsum_total, Z. destruct (kept x) as [|[c a] l]; [contradiction|]. cbn [mapM fst snd]. now rewrite rdiv_0. Qed.
Lemma kept_In c a x : In (c, a) (kept x) <-> In (c, a) x /\ known_gas gs c = true.
Proof. unfold kept. rewrite filter_In. reflexivity. Qed.
Lemma kept_kept x : kept (kept x) = kept x.
Proof. unfold kept. induction x as [|a x IH]; cbn; auto. destruct (known_gas gs (fst a)) eqn:E; cbn; [rewrite E|]; congruence. Qed.
Lemma kept_times k x : kept (times k x) = times k (kept x).
Proof. unfold kept, times. induction x as [|a x IH]; cbn; auto. destruct (known_gas gs (fst a)) eqn:E; cbn; congruence. Qed.
Lemma kept_perm x y : Permutation x y -> Permutation (kept x) (kept y).
Proof. unfold kept. induction 1; cbn; repeat destruct (known_gas gs _); eauto using Permutation. Qed.
Lemma total_times k x : total snd (times k x) = k * total snd x.
Proof. unfold times. rewrite total_map. cbn. apply total_scale. Qed.
Lemma normalise_times k x : k <> 0 -> normalise_gases gs (times k x) = normalise_gases gs x.
Proof.
  intros K. destruct (Req_EM_T (total snd (kept x)) 0) as [Z|Z].
  - destruct (kept x) as [|a l] eqn:E.
    + unfold normalise_gases. fold (kept x) (kept (times k x)). rewrite kept_times, E. reflexivity.
    + rewrite <- E in Z. rewrite (normalise_0 x); auto; [|congruence]. apply normalise_0; rewrite kept_times; [rewrite total_times, Z; lra|rewrite E; discriminate].
  - rewrite (normalise_ok x Z). assert (Z' : total snd (kept (times k x)) <> 0) by (rewrite kept_times, total_times; apply Rmult_integral_contrapositive; auto).
    rewrite (normalise_ok _ Z'). rewrite kept_times, total_times. unfold times. rewrite map_map. apply f_equal. apply map_ext. intros [c a]. cbn. apply f_equal. field. auto.
Qed.
Lemma normalise_kept x : normalise_gases gs (kept x) = normalise_gases gs x.
Proof. unfold normalise_gases. fold (kept x) (kept (kept x)). now rewrite kept_kept. Qed.

(** The two mean-value models. *)
Definition mean (name : string) (w : R -> R) (x : list (string * R)) : res R :=
  do x <- normalise_gases gs x;
  do g <- mapM (fun cx => do m <- gas_property gs name T (fst cx); Ok (cx, m)) x;
  do num <- mapM (fun i => do M <- mm (fst (fst i)); Ok (snd i * snd (fst i) * w M)) g;
  do den <- mapM (fun i => do M <- mm (fst (fst i)); Ok (snd (fst i) * w M)) g;
  match x with [] => Err ZeroDivisionError | _ => ndiv (rsum num) (rsum den) end.
Lemma hz_mean x : herning_zipperer gs T x = mean "mu" sqrt x. Proof. reflexivity. Qed.
Lemma cp_mean x : ideal_Cp gs T x = mean "Cp" (fun M => M) x. Proof. reflexivity. Qed.
Lemma properties_ok (name : string) (v : string -> R) (x : list (string * R)) : (forall c a, In (c, a) x -> gas_property gs name T c = Ok (v c)) ->
  mapM (fun cx => do m <- gas_property gs name T (fst cx); Ok (cx, m)) x = Ok (map (fun cx => (cx, v (fst cx))) x).
Proof. intros H. rewrite (mapM_ext _ (fun cx => Ok (cx, v (fst cx)))); [apply mapM_Ok|]. intros [c a] I. cbn. now rewrite (H c a I). Qed.
Lemma total_weight k (f : string * R -> R) (x : list (string * R)) : k <> 0 -> (forall c a b, f (c, b * a) = b * f (c, a)) ->
  total f (map (fun cx => (fst cx, snd cx / k)) x) = / k * total f x.
Proof. intros K H. rewrite total_map. cbn. rewrite <- total_scale. apply total_ext. intros [c a] _. cbn. unfold Rdiv. rewrite Rmult_comm. apply H. Qed.
Lemma mean_ok name w (M v : string -> R) x :
  (forall c a, In (c, a) x -> known_gas gs c = true -> mm c = Ok (M c) /\ gas_property gs name T c = Ok (v c)) ->
  total snd (kept x) <> 0 -> total (fun cx => snd cx * w (M (fst cx))) (kept x) <> 0 ->
  mean name w x = Ok (weighted_mean (fun c => w (M c)) v (kept x)).
Proof.
  intros H N D. unfold mean. rewrite (normalise_ok x N). cbn [bind]. set (k := total snd (kept x)) in *.
  set (y := map (fun cx => (fst cx, snd cx / k)) (kept x)).
  assert (Y : forall c a, In (c, a) y -> mm c = Ok (M c) /\ gas_property gs name T c = Ok (v c)).
  { intros c a I. unfold y in I. apply in_map_iff in I. destruct I as ([c' a'] & E & I). injection E as <- <-. apply kept_In in I. cbn. now apply (H c' a'). }
  rewrite (properties_ok name v y) by (intros c a I; now apply (Y c a)). cbn [bind].
  rewrite mapM_map. rewrite (mapM_ext _ (fun cx : string * R => Ok (v (fst cx) * snd cx * w (M (fst cx))))) by (intros [c a] I; cbn; now rewrite (proj1 (Y c a I))).
  rewrite mapM_Ok. cbn [bind]. rewrite mapM_map. rewrite (mapM_ext _ (fun cx : string * R => Ok (snd cx * w (M (fst cx))))) by (intros [c a] I; cbn; now rewrite (proj1 (Y c a I))).
  rewrite mapM_Ok. cbn [bind]. rewrite !rsum_total. unfold y. rewrite !total_weight by (auto; intros; cbn; ring).
  assert (I : / k <> 0) by now apply Rinv_neq_0_compat. rewrite ndiv_ok by now apply Rmult_integral_contrapositive.
  destruct (kept x) as [|a l] eqn:E; [cbn in D; lra|]. cbn [map]. apply f_equal. unfold weighted_mean. rewrite <- E in *. field. auto.
Qed.
Lemma mean_times name w k x : k <> 0 -> mean name w (times k x) = mean name w x.
Proof. intros K. unfold mean. now rewrite normalise_times. Qed.
Lemma mean_kept name w x : mean name w (kept x) = mean name w x.
Proof. unfold mean. now rewrite normalise_kept. Qed.
Lemma mean_error name w c a x : In (c, a) x -> known_gas gs c = true -> (forall v, gas_property gs name T c <> Ok v) -> forall y, mean name w x <> Ok y.
Proof.
  intros I K H y E. unfold mean in E. destruct (Req_EM_T (total snd (kept x)) 0) as [Z|Z].
  - rewrite normalise_0 in E; auto; [discriminate|]. intros N. assert (In (c, a) (kept x)) by now apply kept_In. rewrite N in *. contradiction.
  - rewrite (normalise_ok x Z) in E. cbn [bind] in E.
    match type of E with bind ?d _ = _ => destruct d as [g|e] eqn:G end; [|discriminate]. apply mapM_Forall2 in G.
    assert (I' : In (c, a / total snd (kept x)) (map (fun cx => (fst cx, snd cx / total snd (kept x))) (kept x))).
    { apply in_map_iff. exists (c, a). split; [reflexivity|]. now apply kept_In. }
    clear E. revert G I'. generalize (map (fun cx => (fst cx, snd cx / total snd (kept x))) (kept x)). intros l G. induction G as [|p q l l' P G IH]; intros J; [contradiction|].
    destruct J as [->|J]; [|auto]. cbn in P. destruct (gas_property gs name T c) as [v|e] eqn:V; [|discriminate]. now apply (H v).
Qed.
Lemma mean_bounds (w v : string -> R) x lo hi : (forall c a, In (c, a) x -> 0 <= a /\ 0 < w c /\ lo <= v c <= hi) -> 0 < total snd x ->
  lo <= weighted_mean w v x <= hi.
Proof.
  intros H P. unfold weighted_mean. assert (D : 0 < total (fun cx => snd cx * w (fst cx)) x).
  { destruct (total_positive_has _ _ P) as ([c a] & I & A). apply total_pos with (c, a); auto.
    - intros [c' a'] I'. destruct (H c' a' I') as (A' & W & _). cbn. apply Rmult_le_pos; lra.
    - cbn in *. destruct (H c a I) as (_ & W & _). now apply Rmult_lt_0_compat. }
  set (d := total (fun cx => snd cx * w (fst cx)) x) in *. split.
  - apply Rmult_le_reg_r with d; auto. unfold Rdiv. rewrite Rmult_assoc, Rinv_l, Rmult_1_r by lra. unfold d. rewrite <- total_scale. apply total_le.
    intros [c a] I. destruct (H c a I) as (A & W & L & U). cbn. rewrite Rmult_assoc. apply Rmult_le_compat_r; auto. apply Rmult_le_pos; lra.
  - apply Rmult_le_reg_r with d; auto. unfold Rdiv. rewrite Rmult_assoc, Rinv_l, Rmult_1_r by lra. unfold d. rewrite <- total_scale. apply total_le.
    intros [c a] I. destruct (H c a I) as (A & W & L & U). cbn. rewrite Rmult_assoc. apply Rmult_le_compat_r; auto. apply Rmult_le_pos; lra.
Qed.
End Mixture.
