(** C45-C48, C66-C68: physical property models. *)
From Verif Require Import Prelude M_Lists M_Thermochem M_ThermoMat M_Coals M_Stoichiometry M_Physical M_Data_Fluids M_Fluids Spec_Physical P_Content P_Convert P_Poly P_Physical P_Wilke P_Slag P_Fluids P_Convection.
From Coq Require Import Reals Qreals Lra Lia Permutation.
Local Open Scope list_scope.
Local Open Scope R_scope.

(** * C45: polynomial models *)
Theorem C45_value : forall cs T, 0 <= T -> poly_calculate (new_poly cs) (at_T T) = Ok (power_sum cs T).
Proof. intros cs T H. apply (poly_ok (new_poly cs)); cbn; [lra|discriminate]. Qed.
Print Assumptions C45_value.
(** A model with limits (made by create, or read from a file). *)
Theorem C45_value_in_limits : forall cs lo hi T, lo <= T <= hi -> poly_calculate (mkpm cs lo (Some hi)) (at_T T) = Ok (power_sum cs T).
Proof. intros cs lo hi T H. apply (poly_ok (mkpm cs lo (Some hi))); cbn; [lra|]. intros h E. injection E as <-. lra. Qed.
Print Assumptions C45_value_in_limits.
(** A call gives a number only if the one argument is a T within the limits; then
    the number is the value of the polynomial.  All other calls raise. *)
Theorem C45_exactly : forall m st y, poly_calculate m st = Ok y <->
  exists T, lookup "T" st = Some (VNum T) /\ (forall k v, In (k, v) st -> k = "T"%string) /\ pm_min m <= T /\ (forall hi, pm_max m = Some hi -> T <= hi) /\ y = power_sum (pm_coeffs m) T.
Proof.
  intros m st y. unfold poly_calculate. rewrite check_T. split.
  - destruct st as [|kv st]; [discriminate|]. unfold number_of. destruct (lookup "T" (kv :: st)) as [[T|d|]|]; try discriminate. intros H.
    match type of H with bind (if ?a && ?b && ?c then _ else _) _ = _ => destruct a eqn:A; [|discriminate]; destruct b eqn:B; [|discriminate]; destruct c eqn:C; [|discriminate] end.
    cbn [andb bind] in H. injection H as <-. exists T. split; auto. split; [|split; [|split]].
    + intros k v I. rewrite forallb_forall in A. specialize (A _ I). cbn [fst] in A. destruct (string_dec k "T"); [auto|discriminate].
    + destruct (Rlt_dec T (pm_min m)); [discriminate|lra].
    + intros hi E. rewrite E in C. destruct (Rlt_dec hi T); [discriminate|lra].
    + apply polyval_sum.
  - intros (T & L & K & A & B & ->). destruct st as [|kv st]; [discriminate|]. unfold number_of. rewrite L.
    assert (F : forallb (fun kv0 : string * sval => if string_dec (fst kv0) "T" then true else false) (kv :: st) = true).
    { apply forallb_forall. intros [k v] I. cbn [fst]. rewrite (K k v I). reflexivity. }
    rewrite F. destruct (Rlt_dec T (pm_min m)); [lra|]. assert (C : match pm_max m with Some l => if Rlt_dec l T then false else true | None => true end = true).
    { destruct (pm_max m) as [hi|]; auto. specialize (B hi eq_refl). destruct (Rlt_dec hi T); [lra|auto]. }
    rewrite C. cbn [andb bind]. now rewrite polyval_sum.
Qed.
Print Assumptions C45_exactly.
Theorem C45_otherwise_raises : forall m st, (forall y, poly_calculate m st <> Ok y) -> poly_calculate m st = Err ValidationError.
Proof.
  intros m st H. assert (E : forall r, check_state [("T"%string, mkfield false (Some (pm_min m)) (pm_max m))] st = Ok r -> exists T, number_of "T" st = Ok T).
  { intros r. rewrite check_T. destruct st as [|kv st]; [discriminate|]. unfold number_of. destruct (lookup "T" (kv :: st)) as [[T|d|]|]; try discriminate. eauto. }
  unfold poly_calculate in *. destruct (check_state _ st) as [r|e] eqn:C.
  - destruct (E r eq_refl) as [T N]. rewrite N in H. cbn [bind] in H. now specialize (H _ eq_refl).
  - unfold check_state in C. destruct (validate _ st); [discriminate|]. injection C as <-. reflexivity.
Qed.
Print Assumptions C45_otherwise_raises.
Example C45_example : poly_calculate (mkpm [2; 3; 5] 100 (Some 1500)) (at_T 200) = Ok 80605 /\ poly_calculate (mkpm [2; 3; 5] 100 (Some 1500)) (at_T 50) = Err ValidationError /\ poly_calculate (new_poly [1]) [("T"%string, VOther)] = Err ValidationError.
Proof.
  split; [rewrite C45_value_in_limits by lra; cbn; apply f_equal; lra|]. split.
  - apply C45_otherwise_raises. intros y H. apply C45_exactly in H. destruct H as (T & L & _ & A & _). cbn in L. injection L as <-. cbn in A. lra.
  - apply C45_otherwise_raises. intros y H. apply C45_exactly in H. destruct H as (T & L & _). discriminate.
Qed.

(** * C46: ideal gases *)
Definition TP (T P : R) : state := [("T"%string, VNum T); ("P"%string, VNum P)].
Definition TPx (T P : R) (x : list (string * R)) : state := [("T"%string, VNum T); ("P"%string, VNum P); ("x"%string, VDict x)].
Lemma check_TP T P : 0 <= T -> 0 <= P -> check_state [("T"%string, positive_number); ("P"%string, positive_number)] (TP T P) = Ok tt.
Proof. intros A B. unfold check_state, validate, TP. cbn. destruct (Rlt_dec T 0); [lra|]. destruct (Rlt_dec P 0); [lra|]. reflexivity. Qed.
Lemma check_TPx T P x : 0 <= T -> 0 <= P -> check_state [("T"%string, positive_number); ("P"%string, positive_number); ("x"%string, dictionary)] (TPx T P x) = Ok tt.
Proof. intros A B. unfold check_state, validate, TPx. cbn. destruct (Rlt_dec T 0); [lra|]. destruct (Rlt_dec P 0); [lra|]. reflexivity. Qed.
Lemma rho_TP_ok M T P : 0 < T -> 0 <= P -> rho_TP M (TP T P) = Ok (M / 1000 * P / gas_constant / T).
Proof. intros A B. unfold rho_TP. rewrite check_TP by lra. change (number_of "T" (TP T P)) with (Ok T). change (number_of "P" (TP T P)) with (Ok P). cbn [bind]. apply rdiv_ok. lra. Qed.
(** rho R T = P M, with M in kg/mol. *)
Theorem C46_law : forall M T P, 0 < T -> 0 <= P -> exists rho, rho_TP M (TP T P) = Ok rho /\ rho * 8.314462618 * T = P * (M / 1000).
Proof. intros M T P A B. eexists. split; [now apply rho_TP_ok|]. unfold gas_constant. replace 8.314462618 with (8314462618 / 1000000000) by lra. field. lra. Qed.
Print Assumptions C46_law.
Theorem C46_law_fixed_pressure : forall M T P, 0 < T -> exists rho, rho_T M P (at_T T) = Ok rho /\ rho * 8.314462618 * T = P * (M / 1000).
Proof. intros M T P A. eexists. split; [now apply rho_T_ok|]. unfold gas_constant. replace 8.314462618 with (8314462618 / 1000000000) by lra. field. lra. Qed.
Print Assumptions C46_law_fixed_pressure.
Theorem C46_monotone : forall M T1 T2 P1 P2 r1 r2, 0 < M -> 0 < P1 -> 0 < T2 ->
  rho_TP M (TP T1 P1) = Ok r1 -> rho_TP M (TP T2 P2) = Ok r2 -> T2 <= T1 -> P1 <= P2 -> 0 < r1 /\ r1 <= r2 /\ (T2 < T1 \/ P1 < P2 -> r1 < r2).
Proof.
  intros M T1 T2 P1 P2 r1 r2 HM HP HT E1 E2 LT LP. rewrite rho_TP_ok in E1, E2 by lra. injection E1 as <-. injection E2 as <-.
  set (k := M / 1000 / gas_constant). assert (K : 0 < k) by (unfold k; apply Rdiv_lt_0_compat; [lra|apply gas_constant_pos]).
  assert (F : forall T P, 0 < T -> M / 1000 * P / gas_constant / T = k * (P / T)) by (intros; unfold k; field; split; [lra|]; pose proof gas_constant_pos; lra).
  rewrite !F by lra. assert (I : / T1 <= / T2) by (apply Rinv_le_contravar; lra). assert (0 < / T1) by (apply Rinv_0_lt_compat; lra).
  split; [apply Rmult_lt_0_compat; auto; apply Rdiv_lt_0_compat; lra|]. unfold Rdiv. split; [apply Rmult_le_compat_l; [lra|]; apply Rmult_le_compat; lra|].
  intros [L|L]; (apply Rmult_lt_compat_l; [lra|]).
  - assert (/ T1 < / T2) by (apply Rinv_lt_contravar; auto; apply Rmult_lt_0_compat; lra). apply Rlt_le_trans with (P1 * / T2); [apply Rmult_lt_compat_l; lra|apply Rmult_le_compat_r; lra].
  - apply Rlt_le_trans with (P2 * / T1); [apply Rmult_lt_compat_r; lra|apply Rmult_le_compat_l; lra].
Qed.
Print Assumptions C46_monotone.
Lemma rho_TPx_ok T P x M : 0 < T -> 0 <= P -> (forall c a, In (c, a) x -> mm c = Ok (M c)) ->
  rho_TPx (TPx T P x) = Ok (total (fun cx => snd cx * M (fst cx)) x / 1000 * P / gas_constant / T).
Proof.
  intros A B H. unfold rho_TPx. rewrite check_TPx by lra. change (number_of "T" (TPx T P x)) with (Ok T). change (number_of "P" (TPx T P x)) with (Ok P). change (dict_of "x" (TPx T P x)) with (Ok x). cbn [bind].
  rewrite (foldM_total _ (fun cx => snd cx * M (fst cx))). { cbn [bind]. rewrite Rplus_0_l. apply rdiv_ok. lra. }
  intros [c a] s I. cbn [fst snd]. now rewrite (H c a I).
Qed.
(** The mixture model uses the sum of x_i M_i; no normalisation takes place. *)
Theorem C46_mixture : forall T P x M, 0 < T -> 0 <= P -> (forall c a, In (c, a) x -> mm c = Ok (M c)) ->
  exists rho, rho_TPx (TPx T P x) = Ok rho /\ rho * 8.314462618 * T = P * (total (fun cx => snd cx * M (fst cx)) x / 1000).
Proof. intros T P x M A B H. eexists. split; [now apply (rho_TPx_ok T P x M)|]. unfold gas_constant. replace 8.314462618 with (8314462618 / 1000000000) by lra. field. lra. Qed.
Print Assumptions C46_mixture.
Theorem C46_mixture_pure : forall T P c M, 0 < T -> 0 <= P -> mm c = Ok M -> rho_TPx (TPx T P [(c, 1)]) = rho_TP M (TP T P).
Proof.
  intros T P c M A B H. rewrite rho_TP_ok by auto. rewrite (rho_TPx_ok T P _ (fun _ => M)); auto.
  - cbn [total fst snd]. apply f_equal. rewrite Rmult_1_l, Rplus_0_r. reflexivity.
  - intros d a [E|[]]. injection E as <- <-. exact H.
Qed.
Print Assumptions C46_mixture_pure.
Theorem C46_mixture_between : forall T P x M lo hi, 0 < T -> 0 <= P -> (forall c a, In (c, a) x -> 0 <= a /\ mm c = Ok (M c) /\ lo <= M c <= hi) -> total snd x = 1 ->
  exists r rl rh, rho_TPx (TPx T P x) = Ok r /\ rho_TP lo (TP T P) = Ok rl /\ rho_TP hi (TP T P) = Ok rh /\ rl <= r <= rh.
Proof.
  intros T P x M lo hi A B H S. do 3 eexists. split; [apply (rho_TPx_ok T P x M); auto; intros c a I; destruct (H c a I) as (_ & E & _); exact E|]. split; [now apply rho_TP_ok|]. split; [now apply rho_TP_ok|].
  set (m := total (fun cx => snd cx * M (fst cx)) x). assert (L : lo <= m <= hi).
  { unfold m. split.
    - replace lo with (total (fun cx => lo * snd cx) x) by (rewrite total_scale; rewrite S; ring). apply total_le. intros [c a] I. destruct (H c a I) as (Q & _ & L). cbn. rewrite (Rmult_comm a). apply Rmult_le_compat_r; lra.
    - replace hi with (total (fun cx => hi * snd cx) x) by (rewrite total_scale; rewrite S; ring). apply total_le. intros [c a] I. destruct (H c a I) as (Q & _ & L). cbn. rewrite (Rmult_comm a). apply Rmult_le_compat_r; lra. }
  set (k := P / gas_constant / T). assert (K : 0 <= k) by (unfold k; pose proof gas_constant_pos; apply Rmult_le_pos; [apply Rmult_le_pos; [lra|left; now apply Rinv_0_lt_compat]|left; now apply Rinv_0_lt_compat]).
  assert (F : forall z, z / 1000 * P / gas_constant / T = z / 1000 * k) by (intros; unfold k; field; pose proof gas_constant_pos; split; lra). rewrite !F. split; apply Rmult_le_compat_r; auto; lra.
Qed.
Print Assumptions C46_mixture_between.
Theorem C46_beta : forall T b, beta_T (at_T T) = Ok b <-> 0 < T /\ b * T = 1.
Proof.
  intros T b. split.
  - intros H. apply beta_inv in H. destruct H as [P ->]. split; auto. field. lra.
  - intros [P E]. rewrite beta_ok by auto. apply f_equal. apply Rmult_eq_reg_r with T; [|lra]. rewrite E. field. lra.
Qed.
Print Assumptions C46_beta.
(** At T = 0, which the validator accepts, the models raise. *)
Theorem C46_absolute_zero : forall M P, 0 <= P -> beta_T (at_T 0) = Err ZeroDivisionError /\ rho_TP M (TP 0 P) = Err ZeroDivisionError.
Proof.
  intros M P H. split.
  - unfold beta_T, positive_number. rewrite check_T. cbn. destruct (Rlt_dec 0 0); [lra|]. cbn. apply rdiv_0.
  - unfold rho_TP. rewrite check_TP by lra. change (number_of "T" (TP 0 P)) with (Ok 0). change (number_of "P" (TP 0 P)) with (Ok P). cbn [bind]. apply rdiv_0.
Qed.
Print Assumptions C46_absolute_zero.
Lemma mm_of fo q : match molar_mass (Some fo) with Ok m => Qeq_bool (this m) q | Err _ => false end = true -> mm fo = Ok (Q2R q).
Proof. unfold mm. destruct (molar_mass (Some fo)) as [m|e]; [|discriminate]. intros H. cbn [bind]. apply f_equal. apply Qeq_eqR. now apply Qeq_bool_iff. Qed.
Lemma mm_O2 : mm "O2" = Ok (319988 / 10000).
Proof. rewrite (mm_of "O2" (319988 # 10000)) by (vm_compute; reflexivity). apply f_equal. unfold Q2R. cbn. lra. Qed.
Lemma mm_N2 : mm "N2" = Ok (2801348 / 100000).
Proof. rewrite (mm_of "N2" (2801348 # 100000)) by (vm_compute; reflexivity). apply f_equal. unfold Q2R. cbn. lra. Qed.
Example C46_example : exists r, rho_TPx (TPx 300 101325 [("N2"%string, 79 / 100); ("O2"%string, 21 / 100)]) = Ok r /\ r * 8.314462618 * 300 = 101325 * ((79 / 100 * (2801348 / 100000) + 21 / 100 * (319988 / 10000)) / 1000).
Proof.
  destruct (C46_mixture 300 101325 [("N2"%string, 79 / 100); ("O2"%string, 21 / 100)] (fun c => if string_dec c "N2" then 2801348 / 100000 else 319988 / 10000)) as (r & E & L); try lra.
  - intros c a [I|[I|[]]]; injection I as <- <-; cbn; [apply mm_N2|apply mm_O2].
  - exists r. split; auto. rewrite L. cbn. lra.
Qed.

(** * C47: gas mixtures *)
(** The viscosity is the mean of the pure viscosities with weights x sqrt(M), the
    heat capacity the mean with weights x M, over the gases known. *)
Theorem C47_viscosity_mean : forall gs T x M v,
  (forall c a, In (c, a) x -> known_gas gs c = true -> mm c = Ok (M c) /\ gas_property gs "mu" T c = Ok (v c)) ->
  total snd (kept gs x) <> 0 -> total (fun cx => snd cx * sqrt (M (fst cx))) (kept gs x) <> 0 ->
  herning_zipperer gs T x = Ok (weighted_mean (fun c => sqrt (M c)) v (kept gs x)).
Proof. intros gs T x M v H N D. rewrite hz_mean. now apply (mean_ok gs T "mu" sqrt M v). Qed.
Print Assumptions C47_viscosity_mean.
Theorem C47_Cp_mean : forall gs T x M v,
  (forall c a, In (c, a) x -> known_gas gs c = true -> mm c = Ok (M c) /\ gas_property gs "Cp" T c = Ok (v c)) ->
  total snd (kept gs x) <> 0 -> total (fun cx => snd cx * M (fst cx)) (kept gs x) <> 0 ->
  ideal_Cp gs T x = Ok (weighted_mean M v (kept gs x)).
Proof. intros gs T x M v H N D. rewrite cp_mean. now apply (mean_ok gs T "Cp" (fun m => m) M v). Qed.
Print Assumptions C47_Cp_mean.
Lemma weights_pos gs (w : string -> R) x : (forall c a, In (c, a) x -> known_gas gs c = true -> 0 <= a /\ 0 < w c) -> 0 < total snd (kept gs x) -> 0 < total (fun cx => snd cx * w (fst cx)) (kept gs x).
Proof.
  intros H P. destruct (total_positive_has _ _ P) as ([c a] & I & A). apply total_pos with (c, a); auto.
  - intros [d b] J. apply kept_In in J. destruct (H d b (proj1 J) (proj2 J)) as [B W]. cbn. apply Rmult_le_pos; lra.
  - apply kept_In in I. destruct (H c a (proj1 I) (proj2 I)) as [_ W]. cbn in *. now apply Rmult_lt_0_compat.
Qed.
(** Amounts that are not negative and not all zero: between the extreme pure values. *)
Theorem C47_viscosity_between : forall gs T x lo hi,
  (forall c a, In (c, a) x -> known_gas gs c = true -> 0 <= a /\ (exists M, mm c = Ok M /\ 0 < M) /\ exists m, gas_property gs "mu" T c = Ok m /\ lo <= m <= hi) ->
  0 < total snd (kept gs x) -> exists mu, herning_zipperer gs T x = Ok mu /\ lo <= mu <= hi.
Proof.
  intros gs T x lo hi H P. set (M := fun c => match mm c with Ok m => m | Err _ => 0 end). set (v := fun c => match gas_property gs "mu" T c with Ok m => m | Err _ => 0 end).
  assert (G : forall c a, In (c, a) x -> known_gas gs c = true -> mm c = Ok (M c) /\ gas_property gs "mu" T c = Ok (v c) /\ 0 <= a /\ 0 < M c /\ lo <= v c <= hi).
  { intros c a I K. destruct (H c a I K) as (A & (m & E & Q) & (y & F & L)). unfold M, v. rewrite E, F. auto. }
  eexists. split.
  - apply (C47_viscosity_mean gs T x M v); [intros c a I K; destruct (G c a I K) as (A & B & _); auto|lra|]. apply Rgt_not_eq. apply (weights_pos gs (fun c => sqrt (M c))); auto.
    intros c a I K. destruct (G c a I K) as (_ & _ & A & B & _). split; auto. now apply sqrt_lt_R0.
  - apply mean_bounds; auto. intros c a I. apply kept_In in I. destruct (G c a (proj1 I) (proj2 I)) as (_ & _ & A & B & L). split; auto. split; auto. now apply sqrt_lt_R0.
Qed.
Print Assumptions C47_viscosity_between.
Theorem C47_Cp_between : forall gs T x lo hi,
  (forall c a, In (c, a) x -> known_gas gs c = true -> 0 <= a /\ (exists M, mm c = Ok M /\ 0 < M) /\ exists m, gas_property gs "Cp" T c = Ok m /\ lo <= m <= hi) ->
  0 < total snd (kept gs x) -> exists Cp, ideal_Cp gs T x = Ok Cp /\ lo <= Cp <= hi.
Proof.
  intros gs T x lo hi H P. set (M := fun c => match mm c with Ok m => m | Err _ => 0 end). set (v := fun c => match gas_property gs "Cp" T c with Ok m => m | Err _ => 0 end).
  assert (G : forall c a, In (c, a) x -> known_gas gs c = true -> mm c = Ok (M c) /\ gas_property gs "Cp" T c = Ok (v c) /\ 0 <= a /\ 0 < M c /\ lo <= v c <= hi).
  { intros c a I K. destruct (H c a I K) as (A & (m & E & Q) & (y & F & L)). unfold M, v. rewrite E, F. auto. }
  eexists. split.
  - apply (C47_Cp_mean gs T x M v); [intros c a I K; destruct (G c a I K) as (A & B & _); auto|lra|]. apply Rgt_not_eq. apply (weights_pos gs M); auto.
    intros c a I K. destruct (G c a I K) as (_ & _ & A & B & _). split; auto.
  - apply mean_bounds; auto. intros c a I. apply kept_In in I. destruct (G c a (proj1 I) (proj2 I)) as (_ & _ & A & B & L). auto.
Qed.
Print Assumptions C47_Cp_between.
Lemma kept_one gs c (a : R) : known_gas gs c = true -> kept gs [(c, a)] = [(c, a)].
Proof. intros K. unfold kept. cbn [filter fst]. now rewrite K. Qed.
Theorem C47_pure : forall gs T c a M, known_gas gs c = true -> mm c = Ok M -> 0 < M -> a <> 0 ->
  (forall m, gas_property gs "mu" T c = Ok m -> herning_zipperer gs T [(c, a)] = Ok m /\ (0 < a -> 0 < m -> wilke gs T [(c, a)] = Ok m)) /\
  (forall cp, gas_property gs "Cp" T c = Ok cp -> ideal_Cp gs T [(c, a)] = Ok cp).
Proof.
  intros gs T c a M K E P N. assert (S : 0 < sqrt M) by now apply sqrt_lt_R0. split; [intros m G; split|intros cp G].
  - rewrite (C47_viscosity_mean gs T _ (fun _ => M) (fun _ => m)).
    + rewrite kept_one by auto. unfold weighted_mean. cbn [total fst snd]. apply f_equal. field. split; [lra|auto].
    + intros d b [I|[]] _. injection I as <- <-. auto.
    + rewrite kept_one by auto. cbn. lra.
    + rewrite kept_one by auto. cbn [total fst snd]. rewrite Rplus_0_r. apply Rmult_integral_contrapositive. split; lra.
  - intros A Q. rewrite (wilke_ok gs T _ (fun _ => M) (fun _ => m)).
    + rewrite kept_one by auto. now rewrite wilke_one.
    + repeat constructor. intros [].
    + intros d b [I|[]] _. injection I as <- <-. repeat split; auto; lra.
    + rewrite kept_one by auto. cbn. lra.
  - rewrite (C47_Cp_mean gs T _ (fun _ => M) (fun _ => cp)).
    + rewrite kept_one by auto. unfold weighted_mean. cbn [total fst snd]. apply f_equal. field. split; [lra|auto].
    + intros d b [I|[]] _. injection I as <- <-. auto.
    + rewrite kept_one by auto. cbn. lra.
    + rewrite kept_one by auto. cbn [total fst snd]. rewrite Rplus_0_r. apply Rmult_integral_contrapositive. split; lra.
Qed.
Print Assumptions C47_pure.
(** Scaling all amounts changes nothing, whatever the amounts are. *)
Theorem C47_scale : forall gs T k x, k <> 0 ->
  herning_zipperer gs T (times k x) = herning_zipperer gs T x /\ ideal_Cp gs T (times k x) = ideal_Cp gs T x /\ wilke gs T (times k x) = wilke gs T x.
Proof. intros gs T k x K. split; [rewrite !hz_mean; now apply mean_times|]. split; [rewrite !cp_mean; now apply mean_times|]. unfold wilke. now rewrite normalise_times. Qed.
Print Assumptions C47_scale.
(** Components that are not in the table of gases are ignored. *)
Theorem C47_unknown_ignored : forall gs T x, 
  herning_zipperer gs T x = herning_zipperer gs T (kept gs x) /\ ideal_Cp gs T x = ideal_Cp gs T (kept gs x) /\ wilke gs T x = wilke gs T (kept gs x).
Proof. intros gs T x. split; [rewrite !hz_mean; symmetry; apply mean_kept|]. split; [rewrite !cp_mean; symmetry; apply mean_kept|]. unfold wilke. now rewrite normalise_kept. Qed.
Print Assumptions C47_unknown_ignored.
(** The order of the components does not matter. *)
Theorem C47_order : forall gs T x y M v, Permutation x y ->
  (forall c a, In (c, a) x -> known_gas gs c = true -> mm c = Ok (M c) /\ gas_property gs "mu" T c = Ok (v c)) ->
  total snd (kept gs x) <> 0 -> total (fun cx => snd cx * sqrt (M (fst cx))) (kept gs x) <> 0 -> herning_zipperer gs T x = herning_zipperer gs T y.
Proof.
  intros gs T x y M v P H N D. assert (Q := kept_perm gs x y P). rewrite (C47_viscosity_mean gs T x M v) by auto. rewrite (C47_viscosity_mean gs T y M v).
  - apply f_equal. unfold weighted_mean. now rewrite !(total_perm _ _ _ Q).
  - intros c a I. apply (H c a). apply Permutation_in with y; auto. now symmetry.
  - now rewrite <- (total_perm _ _ _ Q).
  - now rewrite <- (total_perm _ _ _ Q).
Qed.
Print Assumptions C47_order.
(** Wilke's formula. *)
Theorem C47_wilke : forall gs T x M v, NoDup (map fst x) ->
  (forall c a, In (c, a) x -> known_gas gs c = true -> mm c = Ok (M c) /\ gas_property gs "mu" T c = Ok (v c) /\ 0 <= a /\ 0 < M c /\ 0 < v c) ->
  0 < total snd (kept gs x) -> wilke gs T x = Ok (wilke_mu M v (kept gs x)) /\ 0 < wilke_mu M v (kept gs x).
Proof.
  intros gs T x M v N H P. split; [now apply wilke_ok|]. apply wilke_positive. split; [now apply kept_NoDup|]. split; [|exact P].
  intros c a I. apply kept_In in I. destruct (H c a (proj1 I) (proj2 I)) as (_ & _ & A & B & C). auto.
Qed.
Print Assumptions C47_wilke.
Theorem C47_wilke_order : forall gs T x y M v, Permutation x y -> NoDup (map fst x) ->
  (forall c a, In (c, a) x -> known_gas gs c = true -> mm c = Ok (M c) /\ gas_property gs "mu" T c = Ok (v c) /\ 0 <= a /\ 0 < M c /\ 0 < v c) ->
  0 < total snd (kept gs x) -> wilke gs T x = wilke gs T y.
Proof.
  intros gs T x y M v P N H S. assert (Q := kept_perm gs x y P). rewrite (wilke_ok gs T x M v) by auto. rewrite (wilke_ok gs T y M v).
  - apply f_equal. now apply wilke_perm.
  - apply Permutation_NoDup with (map fst x); auto. now apply Permutation_map.
  - intros c a I. apply (H c a). apply Permutation_in with y; auto. now symmetry.
  - now rewrite <- (total_perm _ _ _ Q).
Qed.
Print Assumptions C47_wilke_order.
(** Gases of one viscosity and molar mass mix to that viscosity. *)
Theorem C47_wilke_identical : forall gs T x m M0, NoDup (map fst x) -> 0 < m -> 0 < M0 ->
  (forall c a, In (c, a) x -> known_gas gs c = true -> mm c = Ok M0 /\ gas_property gs "mu" T c = Ok m /\ 0 <= a) ->
  0 < total snd (kept gs x) -> wilke gs T x = Ok m.
Proof.
  intros gs T x m M0 N A B H P. rewrite (wilke_ok gs T x (fun _ => M0) (fun _ => m)); auto.
  - apply f_equal. apply (wilke_identical _ _ _ m M0); [split; [now apply kept_NoDup|split; auto]|auto]. intros c a I. apply kept_In in I. destruct (H c a (proj1 I) (proj2 I)) as (_ & _ & C). auto.
  - intros c a I K. destruct (H c a I K) as (C & D & E). auto.
Qed.
Print Assumptions C47_wilke_identical.
(** With amounts that add up to zero, or without any known gas, the models raise - but Wilke's
    model answers 0 for a mixture without known gases. *)
Theorem C47_no_known_gas_refuted : forall gs T x, kept gs x = [] -> wilke gs T x = Ok 0 /\ herning_zipperer gs T x = Err ZeroDivisionError /\ ideal_Cp gs T x = Err ZeroDivisionError.
Proof.
  intros gs T x K. assert (E : normalise_gases gs x = Ok []) by (unfold normalise_gases; fold (kept gs x); rewrite K; reflexivity).
  unfold wilke, herning_zipperer, ideal_Cp. rewrite E. auto.
Qed.
Print Assumptions C47_no_known_gas_refuted.
Theorem C47_zero_total : forall gs T x, kept gs x <> [] -> total snd (kept gs x) = 0 ->
  wilke gs T x = Err ZeroDivisionError /\ herning_zipperer gs T x = Err ZeroDivisionError /\ ideal_Cp gs T x = Err ZeroDivisionError.
Proof. intros gs T x K Z. assert (E := normalise_0 gs x Z K). unfold wilke, herning_zipperer, ideal_Cp. rewrite E. auto. Qed.
Print Assumptions C47_zero_total.
(** Every known component has to have its property at T, even one of which there
    is nothing: no mixture with an entry for water vapour has a viscosity or a
    heat capacity below 373.15 K. *)
Theorem C47_range_of_all_components_refuted : forall T x a, In ("H2O"%string, a) x -> T < 373.15 ->
  (forall y, herning_zipperer gases T x <> Ok y) /\ (forall y, ideal_Cp gases T x <> Ok y).
Proof.
  intros T x a I L.
  assert (G : forall f p, lookup f fluid_data = Some p -> qp_min p = (37315 # 100)%Q -> forall v, poly_file f (at_T T) <> Ok v).
  { intros f p E Q v H. apply poly_file_inv in H. destruct H as (q & E' & R & _). assert (q = p) by congruence. subst q. rewrite Q in R. replace (Q2R (37315 # 100)) with 373.15 in R by (unfold Q2R; cbn; lra). lra. }
  split; intros y; [rewrite hz_mean|rewrite cp_mean]; apply (mean_error gases T _ _ "H2O"%string a); auto; intros v H; unfold gas_property in H;
    change (lookup "H2O" gases) with (Some (gas_ideal "water-vapour" (ideal_rho "H2O"))) in H; cbv beta iota in H.
  - change (property (gas_ideal "water-vapour" (ideal_rho "H2O")) "mu" (at_T T)) with (poly_file "water-vapour-mu-polynomialmodelt-dataset-water-vapour-lienhard2018" (at_T T)) in H.
    revert H. eapply G; vm_compute; reflexivity.
  - change (property (gas_ideal "water-vapour" (ideal_rho "H2O")) "Cp" (at_T T)) with (poly_file "water-vapour-cp-polynomialmodelt-dataset-water-vapour-lienhard2018" (at_T T)) in H.
    revert H. eapply G; vm_compute; reflexivity.
Qed.
Print Assumptions C47_range_of_all_components_refuted.
