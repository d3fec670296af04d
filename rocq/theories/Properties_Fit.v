(** C98: the shipped models and the measurements they were made from. *)
From Verif Require Import Prelude M_Lists M_Thermochem M_Physical M_Data_Fluids M_Data_Measured M_Fluids Spec_Physical Spec_Fit P_PolyZ P_Poly P_Physical P_Fluids P_Fit Properties_Fluids.
From Coq Require Import QArith Reals Qreals Lra Lia.
Local Open Scope list_scope.
Local Open Scope R_scope.

Lemma same_files : map fst model_sources = map fst fluid_data. Proof. reflexivity. Qed.
Lemma lookup_map {A B} f (l : list (string * A)) (m : list (string * B)) : map fst l = map fst m -> lookup f l <> None -> exists b, lookup f m = Some b.
Proof. revert m. induction l as [|[k a] l IH]; intros [|[k' b] m]; cbn [map fst lookup]; try discriminate; [congruence|]. intros E. injection E as -> E. destruct (String.eqb f k'); [eauto|]. now apply IH. Qed.
Lemma file_of_row f i T y : row_of f i T y -> exists q, In (f, q) fluid_data /\ lookup f fluid_data = Some q.
Proof.
  intros (s & d & ts & ys & S & _). destruct (lookup_map f model_sources fluid_data same_files) as [q Q]; [congruence|]. exists q. split; auto. now apply lookup_In.
Qed.
Lemma tolerance_pos s : 0 <= Q2R (tolerance s).
Proof. unfold tolerance. destruct (String.eqb s "Cp"); unfold Q2R; cbn [Qnum Qden]; lra. Qed.
Lemma limits f q : In (f, q) fluid_data -> lookup f fluid_data = Some q ->
  (exists i y, exists T, row_of f i T y /\ Q2R T = Q2R (qp_min q)) /\ (exists i y, exists T, row_of f i T y /\ Q2R T = Q2R (qp_max q)) /\
  (forall i T y, row_of f i T y -> Q2R (qp_min q) <= Q2R T <= Q2R (qp_max q)).
Proof.
  intros I L. assert (C := proj1 (forallb_forall _ _) limits_checked _ I). cbn [fst] in C. unfold file_limits in C. rewrite L in C. apply andb_prop in C. destruct C as [C C3]. apply andb_prop in C. destruct C as [C1 C2].
  assert (X : forall b, existsb (fun m => Qeq_bool (fst m) b) (rows_of f) = true -> exists i y, exists T, row_of f i T y /\ Q2R T = Q2R b).
  { intros b H. apply existsb_exists in H. destruct H as ([T y] & H & E). apply In_nth_error in H. destruct H as [i H]. exists i, y, T. split; [now apply rows_row|]. apply Qeq_bool_iff in E. now apply Qeq_eqR. }
  split; [auto|split; [auto|]]. intros i T y H. apply row_of_rows, nth_error_In in H. assert (D := proj1 (forallb_forall _ _) C3 _ H). cbn [fst] in D. apply andb_prop in D. destruct D as [D1 D2]. apply Qle_bool_iff in D1, D2. split; now apply Qle_Rle.
Qed.
Lemma file_value f q x : lookup f fluid_data = Some q -> Q2R (qp_min q) <= x <= Q2R (qp_max q) -> poly_file f (at_T x) = Ok (ev (rev (qp_coeffs q)) x).
Proof. intros L H. unfold poly_file. rewrite L. now apply read_poly_ok. Qed.

(** Every shipped model gives every measurement of its data set within 3.1 % (heat
    capacities within 0.6 %). *)
Theorem C98_measurements : forall f T y, measured_in f T y ->
  exists v, poly_file f (at_T (Q2R T)) = Ok v /\ within_part (Q2R (tolerance (symbol_of f))) v (Q2R y).
Proof.
  intros f T y [i H]. destruct (file_of_row f i T y H) as (q & I & L). destruct (limits f q I L) as (_ & _ & W). eexists. split; [apply (file_value f q); auto; eapply W; eauto|].
  assert (C := proj1 (forallb_forall _ _) near_checked _ I). cbn [fst] in C. unfold file_near in C. rewrite L in C. cbv zeta in C. apply andb_prop in C. destruct C as [F C].
  assert (N := proj1 (forallb_forall _ _) C _ (nth_error_In _ _ (row_of_rows f i T y H))). apply near_sound in N; auto. rewrite below_R, above_R in N. apply Rabs_le. lra.
Qed.
Print Assumptions C98_measurements.
(** It answers between the lowest and the highest temperature measured, and
    nowhere else. *)
Theorem C98_range : forall f x, (exists s, lookup f model_sources = Some s) ->
  (exists v, poly_file f (at_T x) = Ok v) <-> exists T1 y1 T2 y2, measured_in f T1 y1 /\ measured_in f T2 y2 /\ Q2R T1 <= x <= Q2R T2.
Proof.
  intros f x [s S]. destruct (lookup_map f model_sources fluid_data same_files) as [q L]; [congruence|]. assert (I := lookup_In _ _ _ L). destruct (limits f q I L) as ((i & y & T & H & E) & (i' & y' & T' & H' & E') & W). split.
  - intros V. apply (C67_files_defined f q x L) in V. exists T, y, T', y'. rewrite E, E'. split; [now exists i|]. split; [now exists i'|]. exact V.
  - intros (T1 & y1 & T2 & y2 & [j A] & [k B] & X). apply W in A. apply W in B. apply (C67_files_defined f q x L). lra.
Qed.
Print Assumptions C98_range.
(** Between two neighbouring measurements the models do not leave what was
    measured there by more than that, four files excepted. *)
Theorem C98_between_partial : forall f T1 y1 T2 y2 x, neighbours f T1 y1 T2 y2 -> ~ In f fluctuating -> Q2R T1 <= x <= Q2R T2 ->
  exists v, poly_file f (at_T x) = Ok v /\ about_between (Q2R (tolerance (symbol_of f))) v (Q2R y1) (Q2R y2).
Proof.
  intros f T1 y1 T2 y2 x (i & A & B) N X. destruct (file_of_row f i T1 y1 A) as (q & I & L). destruct (limits f q I L) as (_ & _ & W). assert (W1 := W _ _ _ A). assert (W2 := W _ _ _ B).
  eexists. split; [apply (file_value f q); auto; lra|].
  assert (C := proj1 (forallb_forall _ _) between_checked _ I). cbn [fst] in C. destruct (in_dec string_dec f fluctuating); [contradiction|]. unfold file_between in C. rewrite L in C. cbv zeta in C. apply andb_prop in C. destruct C as [F C].
  assert (K := between_nth _ _ _ F C i T1 y1 T2 y2 x (row_of_rows _ _ _ _ A) (row_of_rows _ _ _ _ B) X). rewrite below_R, above_R, least_R, greatest_R in K.
  eapply between_of; [apply tolerance_pos|reflexivity|reflexivity| |]; lra.
Qed.
Print Assumptions C98_between_partial.
(** No fluid uses one of the four: every property that a fluid takes from a file
    comes from the data set of that fluid, and from a model that is sound between
    the measurements. *)
Theorem C98_fluids : forall g material ds props, In (g, material, ds, props) resting -> forall p, In p props ->
  exists m f, lookup g (("water"%string, water) :: gases) = Some m /\ (forall st, property m p st = poly_file f st) /\
    lookup f model_sources = Some (mksrc ds material p) /\ ~ In f fluctuating.
Proof.
  intros g material ds props I p P. cbn [resting In] in I.
  repeat destruct I as [I|I]; try contradiction; injection I as <- <- <- <-; cbn [In] in P; repeat destruct P as [<-|P]; try contradiction;
    (do 2 eexists; split; [reflexivity|]; split; [intros st; unfold property, air, gas_ideal, gas_poly, water; cbn [lookup String.eqb Ascii.eqb Bool.eqb]; first [rewrite gas_file_eq; reflexivity|reflexivity]|]; split; [vm_compute; reflexivity|]; cbn [In fluctuating]; intuition discriminate).
Qed.
Print Assumptions C98_fluids.
Lemma far_below f q T1 y1 T2 y2 (i : nat) x part c hi : nth_error (rows_of f) i = Some (T1, y1) -> nth_error (rows_of f) (S i) = Some (T2, y2) ->
  lookup f fluid_data = Some q -> (Qle_bool T1 x && Qle_bool x T2 && Qle_bool (qp_min q) x && Qle_bool x (qp_max q) && Qle_bool x hi && zfits common (rev (qp_coeffs q)) && zbelow 12 (zints common (rev (qp_coeffs q))) c x hi &&
    Qle_bool 0 part && Qle_bool part 1 && Qle_bool 0 y1 && Qle_bool 0 y2 && Qle_bool c ((1 - part) * y1) && Qle_bool c ((1 - part) * y2))%bool = true ->
  neighbours f T1 y1 T2 y2 /\ Q2R T1 <= Q2R x <= Q2R T2 /\ exists v, poly_file f (at_T (Q2R x)) = Ok v /\ ~ about_between (Q2R part) v (Q2R y1) (Q2R y2).
Proof.
  intros A B L H. repeat (apply andb_prop in H; let K := fresh "H" in destruct H as [H K]).
  repeat match goal with K : Qle_bool _ _ = true |- _ => apply Qle_bool_iff, Qle_Rle in K end.
  split; [exists i; split; now apply rows_row|]. split; [split; assumption|].
  eexists. split; [apply (file_value f q); auto|]. intros (w & W & D).
  match goal with K : zbelow _ _ _ _ _ = true, F : zfits _ _ = true |- _ => assert (Z := zbelow_sound _ _ _ _ _ (Q2R x) F K ltac:(lra)) end.
  rewrite ?Q2R_mult, ?Q2R_minus, ?RMicromega.Q2R_0, ?RMicromega.Q2R_1 in *. set (v := ev _ _) in *. clearbody v. unfold within_part in D.
  assert (W0 : 0 <= w) by (unfold Rmin in W; destruct (Rle_dec (Q2R y1) (Q2R y2)); lra). rewrite (Rabs_right w) in D by lra.
  assert (Y : (1 - Q2R part) * Rmin (Q2R y1) (Q2R y2) <= (1 - Q2R part) * w) by (apply Rmult_le_compat_l; lra).
  assert (Y' : Q2R c <= (1 - Q2R part) * Rmin (Q2R y1) (Q2R y2)) by (unfold Rmin; destruct (Rle_dec (Q2R y1) (Q2R y2)); lra).
  assert (D' := Rle_abs (- (v - w))). rewrite Rabs_Ropp in D'. lra.
Qed.
(** The density files of air and nitrogen: at 1541 K that of nitrogen is 40 %, at
    1474 K that of air 17 % away from everything between the two measurements
    around it. *)
Theorem C98_between_refuted :
  (exists T1 y1 T2 y2 x v, neighbours "nitrogen-rho-polynomialmodelt-dataset-nitrogen-lienhard2018" T1 y1 T2 y2 /\ Q2R T1 <= x <= Q2R T2 /\
     poly_file "nitrogen-rho-polynomialmodelt-dataset-nitrogen-lienhard2018" (at_T x) = Ok v /\ ~ about_between (Q2R (4 # 10)) v (Q2R y1) (Q2R y2)) /\
  (exists T1 y1 T2 y2 x v, neighbours "air-rho-polynomialmodelt-dataset-air-lienhard2018" T1 y1 T2 y2 /\ Q2R T1 <= x <= Q2R T2 /\
     poly_file "air-rho-polynomialmodelt-dataset-air-lienhard2018" (at_T x) = Ok v /\ ~ about_between (Q2R (17 # 100)) v (Q2R y1) (Q2R y2)).
Proof.
  assert (K : forall f T1 y1 T2 y2 x part, (neighbours f T1 y1 T2 y2 /\ Q2R T1 <= Q2R x <= Q2R T2 /\ exists v, poly_file f (at_T (Q2R x)) = Ok v /\ ~ about_between (Q2R part) v (Q2R y1) (Q2R y2)) ->
    exists T1 y1 T2 y2 x v, neighbours f T1 y1 T2 y2 /\ Q2R T1 <= x <= Q2R T2 /\ poly_file f (at_T x) = Ok v /\ ~ about_between (Q2R part) v (Q2R y1) (Q2R y2)).
  { intros f T1 y1 T2 y2 x part (A & B & v & C & D). exists T1, y1, T2, y2, (Q2R x), v. auto. }
  split.
  - destruct (lookup "nitrogen-rho-polynomialmodelt-dataset-nitrogen-lienhard2018" fluid_data) as [q|] eqn:L; [|vm_compute in L; discriminate].
    eapply (K _ _ _ _ _ 1541%Q). eapply (far_below _ q _ _ _ _ 12 1541%Q (4 # 10) (1225 # 10000) 1542%Q); [vm_compute; reflexivity|vm_compute; reflexivity|exact L|].
    vm_compute in L. injection L as <-. vm_compute. reflexivity.
  - destruct (lookup "air-rho-polynomialmodelt-dataset-air-lienhard2018" fluid_data) as [q|] eqn:L; [|vm_compute in L; discriminate].
    eapply (K _ _ _ _ _ 1474%Q). eapply (far_below _ q _ _ _ _ 30 1474%Q (17 # 100) (195 # 1000) 1475%Q); [vm_compute; reflexivity|vm_compute; reflexivity|exact L|].
    vm_compute in L. injection L as <-. vm_compute. reflexivity.
Qed.
Print Assumptions C98_between_refuted.

(** * Cases *)
Example C98_measured_case : measured_in "water-mu" 275 (168 # 100000) /\ neighbours "nitrogen-mu-polynomialmodelt-dataset-nitrogen-lienhard2018" 100 (68 # 10000000) 200 (129 # 10000000) /\ ~ In "water-mu"%string fluctuating /\
  exists s, lookup "water-mu" model_sources = Some s.
Proof. split; [exists 1%nat; apply rows_row; reflexivity|]. split; [exists 0%nat; split; apply rows_row; reflexivity|]. split; [cbn [In fluctuating]; intuition discriminate|]. eexists. reflexivity. Qed.
