(** C95: models fitted to data sets. *)
From Verif Require Import Prelude M_Stoichiometry M_Csv M_Physical Spec_Physical P_Poly P_Physical M_Polyfit Spec_Polyfit P_Polyfit.
From Coq Require Import Reals Lra Lia Psatz Permutation.
Local Open Scope list_scope.
Local Open Scope R_scope.

Lemma create_inv solve ds data symbol degree m : create solve ds data symbol degree = Ok m ->
  exists xs ys lo hi, column data temp = Ok xs /\ column data symbol = Ok ys /\ length xs = length ys /\ xs <> [] /\ (0 <= degree)%Z /\
    list_min xs = Ok lo /\ list_max xs = Ok hi /\ ft_model m = mkpm (solve xs ys (Z.to_nat degree)) lo (Some hi).
Proof.
  unfold create, polyfit. destruct (column data temp) as [xs|] eqn:X; [|discriminate]. destruct (column data symbol) as [ys|] eqn:Y; [|discriminate]. cbn [bind].
  destruct (degree <? 0)%Z eqn:D; [discriminate|]. destruct xs as [|x xs]; [discriminate|]. destruct (Nat.eqb_spec (length (x :: xs)) (length ys)) as [L|]; [|discriminate]. cbn [bind].
  destruct (tget (ds_names ds) symbol); [|discriminate]. destruct (tget (ds_displays ds) symbol); [|discriminate]. destruct (tget (ds_units ds) symbol); [|discriminate]. cbn [bind].
  destruct (list_min (x :: xs)) as [lo|] eqn:LO; [|discriminate]. destruct (list_max (x :: xs)) as [hi|] eqn:HI; [|discriminate]. cbn [bind]. injection 1 as <-.
  exists (x :: xs), ys, lo, hi. rewrite LO, HI. repeat split; auto; [discriminate|]. apply Z.ltb_ge in D. exact D.
Qed.

(** The model says of itself what the data set's header says of the column. *)
Theorem C95_describes : forall solve ds data symbol degree xs ys name display units,
  column data temp = Ok xs -> column data symbol = Ok ys -> length xs = length ys -> xs <> [] -> (0 <= degree)%Z ->
  tget (ds_names ds) symbol = Ok name -> tget (ds_displays ds) symbol = Ok display -> tget (ds_units ds) symbol = Ok units ->
  exists m, create solve ds data symbol degree = Ok m /\ ft_material m = ds_material ds /\ ft_property m = name /\ ft_symbol m = symbol /\
    ft_display m = display /\ ft_units m = units /\ ft_datasets m = [ds_name ds].
Proof.
  intros solve ds data symbol degree xs ys name display units X Y L N D A B C. unfold create, polyfit. rewrite X, Y. cbn [bind]. apply Z.ltb_ge in D. rewrite D. destruct xs as [|x xs]; [congruence|].
  rewrite L, Nat.eqb_refl, A, B, C. cbn [bind list_min list_max]. eexists. split; [reflexivity|]. cbn. auto 10.
Qed.
Print Assumptions C95_describes.
(** When no model can be made. *)
Theorem C95_failures : forall solve ds data symbol degree,
  (column data temp = Err KeyError \/ column data symbol = Err KeyError -> create solve ds data symbol degree = Err KeyError) /\
  (forall xs ys, column data temp = Ok xs -> column data symbol = Ok ys -> (degree < 0)%Z -> create solve ds data symbol degree = Err ValueError) /\
  (forall ys, column data temp = Ok [] -> column data symbol = Ok ys -> (0 <= degree)%Z -> create solve ds data symbol degree = Err TypeError) /\
  (forall xs ys, column data temp = Ok xs -> column data symbol = Ok ys -> length xs = length ys -> xs <> [] -> (0 <= degree)%Z ->
    tget (ds_names ds) symbol = Err KeyError -> create solve ds data symbol degree = Err KeyError).
Proof.
  intros solve ds data symbol degree. unfold create, polyfit. split; [|split; [|split]].
  - intros [E|E]; rewrite E; [reflexivity|]. destruct (column data temp) as [xs|e] eqn:X; [reflexivity|]. cbn. clear -X. assert (K : e = KeyError); [|now rewrite K]. revert X. induction data as [|[k v] data IH]; cbn [column]; [congruence|]. destruct (list_eq_dec ascii_dec k temp); [discriminate|auto].
  - intros xs ys X Y D. rewrite X, Y. cbn [bind]. apply Z.ltb_lt in D. now rewrite D.
  - intros ys X Y D. rewrite X, Y. cbn [bind]. apply Z.ltb_ge in D. now rewrite D.
  - intros xs ys X Y L N D E. rewrite X, Y. cbn [bind]. apply Z.ltb_ge in D. rewrite D. destruct xs; [congruence|]. rewrite L, Nat.eqb_refl, E. reflexivity.
Qed.
Print Assumptions C95_failures.

Section Fitted.
Variables (solve : solver) (ds : dataset) (data : frame) (symbol : text) (degree : Z) (m : fitted) (xs ys : list R).
Hypothesis (X : column data temp = Ok xs) (Y : column data symbol = Ok ys) (M : create solve ds data symbol degree = Ok m).
Lemma fitted_model : exists lo hi, length xs = length ys /\ xs <> [] /\ (0 <= degree)%Z /\ In lo xs /\ (forall x, In x xs -> lo <= x) /\ In hi xs /\ (forall x, In x xs -> x <= hi) /\ ft_model m = mkpm (solve xs ys (Z.to_nat degree)) lo (Some hi).
Proof.
  destruct (create_inv _ _ _ _ _ _ M) as (xs' & ys' & lo & hi & X' & Y' & L & N & D & A & B & E). assert (xs' = xs) by congruence. assert (ys' = ys) by congruence. subst. apply list_min_ok in A. apply list_max_ok in B. exists lo, hi. intuition.
Qed.
Lemma fitted_range T : (within xs T -> poly_calculate (ft_model m) (at_T T) = Ok (power_sum (solve xs ys (Z.to_nat degree)) T)) /\ (~ within xs T -> poly_calculate (ft_model m) (at_T T) = Err ValidationError).
Proof.
  destruct fitted_model as (lo & hi & L & N & D & A1 & A2 & B1 & B2 & E). rewrite (poly_calc _ T hi) by now rewrite E. rewrite E. cbn [pm_min pm_coeffs]. split.
  - intros (a & b & A & B & C). specialize (A2 a A). specialize (B2 b B). destruct (Rlt_dec T lo); [lra|]. destruct (Rlt_dec hi T); [lra|]. reflexivity.
  - intros W. destruct (Rlt_dec T lo); auto. destruct (Rlt_dec hi T); auto. exfalso. apply W. exists lo, hi. repeat split; auto; lra.
Qed.
Hypothesis (P : promised (solve xs ys (Z.to_nat degree)) (Z.to_nat degree) (combine xs ys)).
Lemma fitted_value T : within xs T -> poly_calculate (ft_model m) (at_T T) = Ok (value_of (solve xs ys (Z.to_nat degree)) (Z.to_nat degree) T).
Proof. intros W. rewrite (proj1 (fitted_range T) W). now rewrite value_power by apply P. Qed.
End Fitted.

(** The model answers between the lowest and the highest temperature of its data,
    and nowhere else. *)
Theorem C95_range : forall solve ds data symbol degree m xs T, column data temp = Ok xs -> create solve ds data symbol degree = Ok m ->
  (within xs T -> exists y, poly_calculate (ft_model m) (at_T T) = Ok y) /\ (~ within xs T -> poly_calculate (ft_model m) (at_T T) = Err ValidationError).
Proof.
  intros solve ds data symbol degree m xs T X M. destruct (create_inv _ _ _ _ _ _ M) as (xs' & ys & lo & hi & X' & Y & _). assert (xs' = xs) by congruence. subst xs'.
  destruct (fitted_range solve ds data symbol degree m xs ys X Y M T) as [A B]. split; eauto.
Qed.
Print Assumptions C95_range.
(** Among the polynomials of the degree asked for, the model is one that deviates
    least from the data. *)
Theorem C95_least_squares : forall solve ds data symbol degree m xs ys,
  column data temp = Ok xs -> column data symbol = Ok ys -> create solve ds data symbol degree = Ok m ->
  promised (solve xs ys (Z.to_nat degree)) (Z.to_nat degree) (combine xs ys) ->
  exists f, best_fit (Z.to_nat degree) f (combine xs ys) /\ forall T, within xs T -> poly_calculate (ft_model m) (at_T T) = Ok (f T).
Proof.
  intros solve ds data symbol degree m xs ys X Y M P. exists (value_of (solve xs ys (Z.to_nat degree)) (Z.to_nat degree)). split; [apply P|]. intros T W. eapply fitted_value; eauto.
Qed.
Print Assumptions C95_least_squares.
(** Data that obey a polynomial law of that degree are reproduced; with enough
    temperatures so is the law, at every temperature in the range. *)
Theorem C95_reproduces : forall solve ds data symbol degree m xs ys law,
  column data temp = Ok xs -> column data symbol = Ok ys -> create solve ds data symbol degree = Ok m ->
  promised (solve xs ys (Z.to_nat degree)) (Z.to_nat degree) (combine xs ys) ->
  polynomial (Z.to_nat degree) law -> (forall T y, In (T, y) (combine xs ys) -> y = law T) ->
  (forall T, In T xs -> poly_calculate (ft_model m) (at_T T) = Ok (law T)) /\
  (enough (Z.to_nat degree) (combine xs ys) -> forall T, within xs T -> poly_calculate (ft_model m) (at_T T) = Ok (law T)).
Proof.
  intros solve ds data symbol degree m xs ys law X Y M P G E. destruct (fitted_model solve ds data symbol degree m xs ys X Y M) as (lo & hi & L & N & _).
  assert (V := fitted_value solve ds data symbol degree m xs ys X Y M P). set (f := value_of _ _) in *.
  assert (D : forall T, In T (map fst (combine xs ys)) -> f T = law T).
  { intros T I. apply in_map_iff in I. destruct I as ([t y] & <- & I). cbn [fst]. rewrite <- (E t y I). apply (best_exact (Z.to_nat degree) f law (combine xs ys) (proj2 P) G); auto. intros t' y' I'. symmetry. auto. }
  split.
  - intros T I. rewrite V by (exists T, T; repeat split; auto; lra). f_equal. apply D. rewrite map_fst_combine; auto.
  - intros En T W. rewrite V by auto. f_equal. apply (same_everywhere (Z.to_nat degree) f law (combine xs ys)); auto. apply P.
Qed.
Print Assumptions C95_reproduces.
(** The residuals cancel: their sum is zero, and so are their moments up to the
    degree of the model. *)
Theorem C95_residuals : forall solve ds data symbol degree m xs ys,
  column data temp = Ok xs -> column data symbol = Ok ys -> create solve ds data symbol degree = Ok m ->
  promised (solve xs ys (Z.to_nat degree)) (Z.to_nat degree) (combine xs ys) ->
  exists f, (forall T, within xs T -> poly_calculate (ft_model m) (at_T T) = Ok (f T)) /\
    forall i, (Z.of_nat i <= degree)%Z -> residual_moment f i (combine xs ys) = 0.
Proof.
  intros solve ds data symbol degree m xs ys X Y M P. exists (value_of (solve xs ys (Z.to_nat degree)) (Z.to_nat degree)). split; [intros T W; eapply fitted_value; eauto|].
  intros i I. assert (A := best_moment _ _ (fun x => x ^ i) _ (proj2 P) (poly_pow (Z.to_nat degree) i ltac:(lia))). rewrite <- A. generalize (combine xs ys). intros l. induction l as [|[t y] l IH]; cbn [residual_moment moment]; auto. now rewrite IH.
Qed.
Print Assumptions C95_residuals.
(** Neither the order of the rows nor the units matter: a data set with the same
    measurements in another order and other units (k T + ..) gives the same model
    in those units. *)
Theorem C95_rows_and_units : forall solve ds data symbol degree m xs ys solve' ds' data' symbol' m' xs' ys' a b k c,
  column data temp = Ok xs -> column data symbol = Ok ys -> create solve ds data symbol degree = Ok m ->
  promised (solve xs ys (Z.to_nat degree)) (Z.to_nat degree) (combine xs ys) ->
  column data' temp = Ok xs' -> column data' symbol' = Ok ys' -> create solve' ds' data' symbol' degree = Ok m' ->
  promised (solve' xs' ys' (Z.to_nat degree)) (Z.to_nat degree) (combine xs' ys') ->
  a <> 0 -> k <> 0 -> Permutation (combine xs' ys') (rescaled a b k c (combine xs ys)) -> enough (Z.to_nat degree) (combine xs ys) ->
  forall T, within xs T -> exists y, poly_calculate (ft_model m) (at_T T) = Ok y /\ poly_calculate (ft_model m') (at_T (a * T + b)) = Ok (k * y + c).
Proof.
  intros solve ds data symbol degree m xs ys solve' ds' data' symbol' m' xs' ys' a b k c X Y M P X' Y' M' P' A K Q E T W.
  destruct (fitted_model solve ds data symbol degree m xs ys X Y M) as (_ & _ & L & _). destruct (fitted_model solve' ds' data' symbol' degree m' xs' ys' X' Y' M') as (_ & _ & L' & _).
  exists (value_of (solve xs ys (Z.to_nat degree)) (Z.to_nat degree) T). split; [exact (fitted_value solve ds data symbol degree m xs ys X Y M P T W)|].
  assert (I : forall x, In x xs -> In (a * x + b) xs').
  { intros x H. rewrite <- (map_fst_combine xs' ys') by auto. apply (Permutation_in _ (Permutation_map fst (Permutation_sym Q))). unfold rescaled. rewrite map_map. cbn [fst].
    rewrite <- (map_fst_combine xs ys L) in H. apply in_map_iff in H. destruct H as (p & <- & H). apply (in_map (fun p => a * fst p + b)) in H. exact H. }
  assert (W' : within xs' (a * T + b)).
  { destruct W as (u & v & U & V & B). destruct (Rle_or_lt 0 a) as [S|S]; [exists (a * u + b), (a * v + b)|exists (a * v + b), (a * u + b)]; repeat split; auto; nra. }
  rewrite (fitted_value solve' ds' data' symbol' degree m' xs' ys' X' Y' M' P' _ W'). f_equal.
  set (f := value_of (solve xs ys (Z.to_nat degree)) (Z.to_nat degree)) in *.
  assert (B := best_rescaled (Z.to_nat degree) f a b k c _ A K (proj2 P)). apply (best_perm _ _ _ _ (Permutation_sym Q)) in B.
  rewrite (best_unique _ _ _ _ (proj2 P') B) by (apply (enough_perm _ _ _ (Permutation_sym Q)), enough_rescaled; auto).
  replace ((a * T + b - b) / a) with T by (field; auto). reflexivity.
Qed.
Print Assumptions C95_rows_and_units.
(** A higher degree never fits the data worse. *)
Theorem C95_higher_degree : forall solve ds data symbol degree degree' m m' xs ys,
  column data temp = Ok xs -> column data symbol = Ok ys -> create solve ds data symbol degree = Ok m -> create solve ds data symbol degree' = Ok m' ->
  promised (solve xs ys (Z.to_nat degree)) (Z.to_nat degree) (combine xs ys) -> promised (solve xs ys (Z.to_nat degree')) (Z.to_nat degree') (combine xs ys) ->
  (degree <= degree')%Z -> exists f f', (forall T, within xs T -> poly_calculate (ft_model m) (at_T T) = Ok (f T) /\ poly_calculate (ft_model m') (at_T T) = Ok (f' T)) /\
    deviation f' (combine xs ys) <= deviation f (combine xs ys).
Proof.
  intros solve ds data symbol degree degree' m m' xs ys X Y M M' P P' D. do 2 eexists. split; [intros T W; split; eapply fitted_value; eauto|]. cbn beta. apply P'. apply (poly_le (Z.to_nat degree)); [lia|apply P].
Qed.
Print Assumptions C95_higher_degree.

(** * Cases *)
Definition header : dataset := mkds (text_of "x.csv") (text_of "Air") (text_of "d") (text_of "r") [text_of "Temperature"; text_of "Density"] [temp; text_of "\rho"] [text_of "K"; text_of "kg/m3"] [temp; text_of "rho"]
  (tdict_of [temp; text_of "rho"] [text_of "Temperature"; text_of "Density"]) (tdict_of [temp; text_of "rho"] [temp; text_of "\rho"]) (tdict_of [temp; text_of "rho"] [text_of "K"; text_of "kg/m3"]).
Definition scattered : frame := [(temp, [0; 1; 2]); (text_of "rho", [0; 1; 0])].
Definition flat : solver := fun _ _ _ => [0; 1 / 3].
(** A straight line through scattered points: the hypotheses of the theorems hold
    and the fit is not exact. *)
Example C95_case : exists m, create flat header scattered (text_of "rho") 1 = Ok m /\ promised (flat [0; 1; 2] [0; 1; 0] 1%nat) 1 (combine [0; 1; 2] [0; 1; 0]) /\
  enough 1 (combine [0; 1; 2] [0; 1; 0]) /\ within [0; 1; 2] (1 / 2) /\ ~ within [0; 1; 2] 3 /\ deviation (value_of [0; 1 / 3] 1) (combine [0; 1; 2] [0; 1; 0]) = 2 / 3.
Proof.
  assert (D : deviation (value_of [0; 1 / 3] 1) (combine [0; 1; 2] [0; 1; 0]) = 2 / 3) by (unfold value_of; cbn; lra).
  eexists. split; [unfold create; cbn; reflexivity|]. split; [|split; [|split; [|split]]]; auto.
  - split; [reflexivity|]. split.
    + exists (fun i => match i with O => 1 / 3 | _ => 0 end). intros x. unfold value_of. cbn. lra.
    + intros g [c C]. change (flat [0; 1; 2] [0; 1; 0] 1%nat) with [0; 1 / 3]. rewrite D. cbn [combine deviation]. rewrite !C. cbn [sum_f_R0 pow]. generalize (c 0%nat) (c 1%nat). intros u v. match goal with |- _ <= ?e => replace e with (2 / 3 + 3 * (u + v - 1 / 3) ^ 2 + 2 * v ^ 2) by (cbn; field) end. pose proof (pow2_ge_0 (u + v - 1 / 3)). pose proof (pow2_ge_0 v). lra.
  - exists [0; 1]. repeat split; [repeat constructor; cbn; intuition; lra|]. intros t. cbn. tauto.
  - exists 0, 1. cbn. intuition; lra.
  - intros (a & b & A & B & C). cbn in A, B. intuition; lra.
Qed.
(** With too few temperatures the law is not determined: two solutions that both
    deviate least from the data disagree between them. *)
Theorem C95_few_temperatures_refuted : exists p q, promised p 2 [(0, 0); (2, 0)] /\ promised q 2 [(0, 0); (2, 0)] /\ value_of p 2 1 <> value_of q 2 1.
Proof.
  assert (B : forall k, promised [k; - 2 * k; 0] 2 [(0, 0); (2, 0)]).
  { intros k. split; [reflexivity|]. split.
    - exists (fun i => match i with O => 0 | 1%nat => - 2 * k | _ => k end). intros x. unfold value_of. cbn. lra.
    - intros g _. replace (deviation (value_of [k; - 2 * k; 0] 2) [(0, 0); (2, 0)]) with 0; [apply dev_nonneg|]. unfold value_of. cbn. lra. }
  exists [0; - 2 * 0; 0], [1; - 2 * 1; 0]. repeat split; try apply B. unfold value_of. cbn. lra.
Qed.
Print Assumptions C95_few_temperatures_refuted.

(** * Plotting *)
Definition measured_at (symbol : text) (ds : text * frame) (xy : list R * list R) : Prop := column (snd ds) temp = Ok (fst xy) /\ column (snd ds) symbol = Ok (snd xy) /\ fst xy <> [].
Lemma plot_acc symbol datasets measured : Forall2 (measured_at symbol) datasets measured -> forall u v pts, exists u' v',
  foldM (plot_step symbol) datasets ((u, v), pts)
  = Ok ((u', v'), pts ++ map (fun xy => combine (fst xy) (snd xy)) measured) /\
  u' <= u /\ v <= v' /\ (u' = u \/ In u' (concat (map fst measured))) /\ (v' = v \/ In v' (concat (map fst measured))) /\
  forall t, In t (concat (map fst measured)) -> u' <= t <= v'.
Proof.
  induction 1 as [|ds xy datasets measured (A & B & C) F IH]; intros u v pts.
  - exists u, v. cbn. rewrite app_nil_r. repeat split; auto; try lra; tauto.
  - cbn [foldM]. unfold plot_step at 1. rewrite A, B. cbn [bind]. destruct (list_min_some _ C) as [lo LO]. destruct (list_max_some _ C) as [hi HI]. rewrite LO, HI. cbn [bind fst snd].
    destruct (IH (if Rlt_dec u lo then u else lo) (if Rlt_dec hi v then v else hi) (pts ++ [combine (fst xy) (snd xy)])) as (u' & v' & E & E1 & E2 & E3 & E4 & E5). exists u', v'. rewrite E. split; [now rewrite <- app_assoc|].
    apply list_min_ok in LO. apply list_max_ok in HI. cbn [map concat]. setoid_rewrite in_app_iff. destruct LO as [LI LO]. destruct HI as [HI1 HI].
    split; [destruct (Rlt_dec u lo); lra|]. split; [destruct (Rlt_dec hi v); lra|].
    split; [destruct E3 as [E3|E3]; auto; destruct (Rlt_dec u lo); auto; right; left; congruence|]. split; [destruct E4 as [E4|E4]; auto; destruct (Rlt_dec hi v); auto; right; left; congruence|].
    intros t [T|T]; auto. specialize (LO t T). specialize (HI t T). destruct (Rlt_dec u lo), (Rlt_dec hi v); lra.
Qed.
Lemma line_in a b x : a <= b -> In x (linspace80 a b) -> a <= x <= b.
Proof.
  intros L I. unfold linspace80 in I. apply in_map_iff in I. destruct I as (i & <- & I). apply in_seq in I.
  assert (J : 0 <= INR i <= 79) by (split; [apply pos_INR|replace 79 with (INR 79) by (cbn; lra); apply le_INR; lia]). assert (0 <= (b - a) / 79) by lra. nra.
Qed.
Lemma mapM_line m hi l : pm_max m = Some hi -> Forall (fun x => pm_min m <= x <= hi) l ->
  mapM (fun x => do y <- poly_calculate m (at_T x); Ok (x, y)) l = Ok (map (fun x => (x, power_sum (pm_coeffs m) x)) l).
Proof.
  intros E. induction 1 as [|x l [A B] F IH]; [reflexivity|]. cbn [mapM map]. rewrite (poly_calc m x hi E). destruct (Rlt_dec x (pm_min m)); [lra|]. destruct (Rlt_dec hi x); [lra|]. cbn [bind]. rewrite IH. reflexivity.
Qed.
(** The plot shows the measurements of every data set and, where these and the
    model's range overlap, a line of 80 points on the model from the lowest to
    the highest common temperature. *)
Theorem C95_plot : forall m symbol datasets measured lo hi top, Forall2 (measured_at symbol) datasets measured -> pm_max m = Some top ->
  let temps := concat (map fst measured) in
  In lo temps -> In hi temps -> (forall t, In t temps -> lo <= t <= hi) -> lo <= 10 ^ 100 -> - 10 ^ 100 <= hi ->
  pm_min m <= top -> lo <= top -> pm_min m <= hi ->
  exists line, plot m symbol datasets = Ok (map (fun xy => combine (fst xy) (snd xy)) measured, line) /\ length line = 80%nat /\
    fst (nth 0 line (0, 0)) = Rmax (pm_min m) lo /\ fst (nth 79 line (0, 0)) = Rmin top hi /\
    forall T y, In (T, y) line -> Rmax (pm_min m) lo <= T <= Rmin top hi /\ poly_calculate m (at_T T) = Ok y.
Proof.
  intros m symbol datasets measured lo hi top F E temps LO HI B BL BH R1 R2 R3. unfold plot.
  destruct (plot_acc symbol datasets measured F (10 ^ 100) (- 10 ^ 100) []) as (u & v & A & U & V & U' & V' & W). rewrite A. cbn [bind fst snd app]. rewrite E. fold temps in U', V', W.
  assert (u = lo) by (apply Rle_antisym; [apply W; auto|destruct U' as [U'|U']; [lra|apply B; auto]]).
  assert (v = hi) by (apply Rle_antisym; [destruct V' as [V'|V']; [lra|apply B; auto]|apply W; auto]). subst u v.
  assert (L := proj1 (B hi HI)).
  replace (if Rlt_dec lo (pm_min m) then pm_min m else lo) with (Rmax (pm_min m) lo) by (unfold Rmax; destruct (Rle_dec (pm_min m) lo), (Rlt_dec lo (pm_min m)); lra).
  replace (if Rlt_dec top hi then top else hi) with (Rmin top hi) by (unfold Rmin; destruct (Rle_dec top hi), (Rlt_dec top hi); lra).
  set (a := Rmax (pm_min m) lo). set (b := Rmin top hi).
  assert (AB : a <= b) by (unfold a, b, Rmax, Rmin; destruct (Rle_dec (pm_min m) lo), (Rle_dec top hi); lra).
  assert (A1 : pm_min m <= a) by apply Rmax_l. assert (B1 : b <= top) by apply Rmin_l.
  rewrite (mapM_line m top _ E) by (apply Forall_forall; intros x I; apply line_in in I; auto; lra). cbn [bind]. eexists. split; [reflexivity|].
  split; [unfold linspace80; now rewrite !map_length, seq_length|]. split; [|split].
  - unfold linspace80. cbn. lra.
  - unfold linspace80. cbn [seq map nth fst]. replace (INR 79) with 79 by (rewrite INR_IZR_INZ; reflexivity). field.
  - intros T y I. apply in_map_iff in I. destruct I as (x & Q & I). injection Q as <- <-. apply line_in in I; auto. split; auto. rewrite (poly_calc m x top E). destruct (Rlt_dec x (pm_min m)); [lra|]. destruct (Rlt_dec top x); [lra|]. reflexivity.
Qed.
Print Assumptions C95_plot.
(** A model without an upper limit, made with the class itself, cannot be
    plotted, and no model can be plotted with data outside its range. *)
Theorem C95_plot_refuted : (forall cs symbol datasets measured, Forall2 (measured_at symbol) datasets measured -> plot (new_poly cs) symbol datasets = Err KeyError) /\
  (forall m symbol datasets measured lo top, Forall2 (measured_at symbol) datasets measured -> pm_max m = Some top -> In lo (concat (map fst measured)) ->
   (forall t, In t (concat (map fst measured)) -> lo <= t) -> pm_min m <= top -> top < lo -> lo <= 10 ^ 100 -> plot m symbol datasets = Err ValidationError).
Proof.
  split.
  - intros cs symbol datasets measured F. unfold plot. destruct (plot_acc symbol datasets measured F (10 ^ 100) (- 10 ^ 100) []) as (u & v & A & _). rewrite A. reflexivity.
  - intros m symbol datasets measured lo top F E LO B R1 R2 BL. unfold plot. destruct (plot_acc symbol datasets measured F (10 ^ 100) (- 10 ^ 100) []) as (u & v & A & U & V & U' & V' & W). rewrite A. cbn [bind fst snd app]. rewrite E.
    assert (u = lo) by (apply Rle_antisym; [apply W; auto|destruct U' as [U'|U']; [lra|apply B; auto]]). subst u. destruct (Rlt_dec lo (pm_min m)); [lra|]. unfold linspace80. cbn [seq map mapM]. rewrite (poly_calc m _ top E). cbn [INR]. rewrite Rmult_0_l, Rplus_0_r.
    destruct (Rlt_dec lo (pm_min m)); [lra|]. destruct (Rlt_dec top lo); [|lra]. reflexivity.
Qed.
Print Assumptions C95_plot_refuted.
Example C95_plot_case : Forall2 (measured_at (text_of "rho")) [(text_of "x.csv", scattered)] [([0; 1; 2], [0; 1; 0])] /\ In 0 (concat [[0; 1; 2]]) /\ In 2 (concat [[0; 1; 2]]).
Proof. split; [|cbn; auto]. constructor; [|constructor]. repeat split. discriminate. Qed.
