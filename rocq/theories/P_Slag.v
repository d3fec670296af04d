(** Proofs about the slag viscosity models. *)
From Verif Require Import Prelude M_Lists M_Thermochem M_ThermoMat M_Coals M_Stoichiometry M_Physical Spec_Physical P_Content P_Convert P_Poly P_Physical.
From Coq Require Import Reals Qreals Lra Lia Psatz.
Local Open Scope list_scope.
Local Open Scope R_scope.

Lemma weymann_pos A E T : 0 < A -> 0 < T -> 0 < weymann A E T.
Proof. intros. unfold weymann. pose proof (exp_pos (E / T)). apply Rmult_lt_0_compat; auto. now apply Rmult_lt_0_compat. Qed.
Lemma weymann_decreasing A E T1 T2 : 0 < A -> 0 < T1 -> T1 < T2 -> T2 <= E -> weymann A E T2 < weymann A E T1.
Proof.
  intros HA H1 H12 HE. unfold weymann. rewrite !(Rmult_assoc A). apply Rmult_lt_compat_l; auto.
  set (y := E / T1 - E / T2). assert (Y : y = E * (T2 - T1) / (T1 * T2)) by (unfold y; field; split; lra).
  assert (I : (T2 - T1) / T1 <= y). { rewrite Y. replace ((T2 - T1) / T1) with (T2 * (T2 - T1) / (T1 * T2)) by (field; split; lra).
    apply Rmult_le_compat_r; [left; apply Rinv_0_lt_compat, Rmult_lt_0_compat; lra|]. apply Rmult_le_compat_r; lra. }
  assert (P : 0 < (T2 - T1) / T1) by (apply Rdiv_lt_0_compat; lra).
  assert (X : 1 + y < exp y) by (apply exp_ineq1; lra).
  replace (E / T1) with (E / T2 + y) by (unfold y; ring). rewrite exp_plus. pose proof (exp_pos (E / T2)) as Q.
  replace T2 with (T1 * (1 + (T2 - T1) / T1)) at 1 by (field; lra). rewrite !Rmult_assoc. apply Rmult_lt_compat_l; auto. rewrite Rmult_comm. apply Rmult_lt_compat_l; lra.
Qed.

(** * Urbain *)
Definition shares (x : list (string * R)) : list (string * R) := map (fun cx => (fst cx, snd cx / total snd x)) x.
Lemma shares_ok x : total snd x <> 0 -> mapM (fun cx : string * R => do y <- rdiv (snd cx) (rsum (map snd x)); Ok (fst cx, y)) x = Ok (shares x).
Proof. intros N. rewrite rsum_total. rewrite (mapM_ext _ (fun cx : string * R => Ok (fst cx, snd cx / total snd x))); [apply mapM_Ok|]. intros a _. now rewrite rdiv_ok. Qed.
Lemma shares_0 x : x <> [] -> total snd x = 0 -> mapM (fun cx : string * R => do y <- rdiv (snd cx) (rsum (map snd x)); Ok (fst cx, y)) x = Err ZeroDivisionError.
Proof. intros N Z. rewrite rsum_total, Z. destruct x as [|a x]; [contradiction|]. cbn [mapM]. now rewrite rdiv_0. Qed.
Lemma shares_times k x : k <> 0 -> total snd x <> 0 -> shares (times k x) = shares x.
Proof.
  intros K N. unfold shares. rewrite total_times. unfold times. rewrite map_map. apply map_ext. intros [c a]. cbn. apply f_equal. field. auto.
Qed.
Definition urbain_of (T : R) (x : list (string * R)) : res R :=
  let X := get0 x in
  let xg := X "SiO2"%string + X "P2O5"%string in
  let xm := X "CaO"%string + X "MgO"%string + X "Na2O"%string + X "K2O"%string + 3 * X "CaF2"%string + X "FeO"%string + X "MnO"%string + 2 * X "TiO2"%string + 2 * X "ZrO2"%string in
  let xa := X "Al2O3"%string + X "Fe2O3"%string + X "B2O3"%string in
  let norm := 1 + X "CaF2"%string + X "Fe2O3"%string + X "TiO2"%string + X "ZrO2"%string in
  do xg_norm <- rdiv xg norm; do xm_norm <- rdiv xm norm; do xa_norm <- rdiv xa norm;
  do a <- rdiv xm_norm (xm_norm + xa_norm);
  let B := urbain_B a xg_norm in
  let A := exp (- (2693 / 10000) * B - 116725 / 10000) in
  do e <- rdiv (1000 * B) T;
  Ok (A * T * exp e / 10).
Lemma urbain_unfold T x : urbain T x = do x <- mapM (fun cx : string * R => do y <- rdiv (snd cx) (rsum (map snd x)); Ok (fst cx, y)) x; urbain_of T x.
Proof. reflexivity. Qed.
Lemma urbain_times k T x : k <> 0 -> urbain T (times k x) = urbain T x.
Proof.
  intros K. rewrite !urbain_unfold. destruct (Req_EM_T (total snd x) 0) as [Z|Z].
  - destruct x as [|a x]; [reflexivity|]. rewrite (shares_0 (a :: x)); auto; [|discriminate]. rewrite shares_0; auto; [destruct a; discriminate|]. rewrite total_times, Z. lra.
  - rewrite (shares_ok x Z). rewrite shares_ok; [now rewrite shares_times|]. rewrite total_times. now apply Rmult_integral_contrapositive.
Qed.
Lemma urbain_form x T y : urbain T x = Ok y -> exists B, forall T', T' <> 0 -> urbain T' x = Ok (weymann (exp (- (2693 / 10000) * B - 116725 / 10000) / 10) (1000 * B) T').
Proof.
  rewrite !urbain_unfold. intros H. match type of H with bind ?d _ = _ => destruct d as [s|e] eqn:E end; [|discriminate]. cbn [bind] in H. unfold urbain_of in H.
  match type of H with bind ?d _ = _ => destruct d as [g|e] eqn:E1 end; [|discriminate]. cbn [bind] in H.
  match type of H with bind ?d _ = _ => destruct d as [m|e] eqn:E2 end; [|discriminate]. cbn [bind] in H.
  match type of H with bind ?d _ = _ => destruct d as [a|e] eqn:E3 end; [|discriminate]. cbn [bind] in H.
  match type of H with bind ?d _ = _ => destruct d as [al|e] eqn:E4 end; [|discriminate]. cbn [bind] in H.
  exists (urbain_B al g). intros T' N. rewrite !urbain_unfold, E. cbn [bind]. unfold urbain_of. rewrite E1. cbn [bind]. rewrite E2. cbn [bind]. rewrite E3. cbn [bind]. rewrite E4. cbn [bind].
  rewrite rdiv_ok by auto. cbn [bind]. apply f_equal. unfold weymann, Rdiv. ring.
Qed.
(** B is at least 9.68 for fractions in [0, 1]. *)
Definition qB0 : qpol := [138 # 10; 399355 # 10000; - 44049 # 1000].
Definition qB1 : qpol := [30481 # 1000; - 1171505 # 10000; 1299978 # 10000].
Definition qB2 : qpol := [- 409429 # 10000; 2340846 # 10000; - 30004 # 100].
Definition qB3 : qpol := [607619 # 10000; - 1539276 # 10000; 2111616 # 10000].
Lemma ev3 a b c x : ev [a; b; c] x = Q2R a + Q2R b * x + Q2R c * x ^ 2.
Proof. cbn [ev]. ring. Qed.
Lemma checked d p a : pos_on d p 0 1 = true -> 0 <= a <= 1 -> 0 < ev p a.
Proof. intros H A. apply (pos_on_sound d p 0 1); auto. rewrite Q2R_0. replace (Q2R 1) with 1 by (unfold Q2R; cbn; lra). exact A. Qed.
Lemma urbain_B_low a g : 0 <= a <= 1 -> 0 <= g -> 968 / 100 < urbain_B a g.
Proof.
  intros A G.
  assert (P0 : 0 < ev (padd qB0 [- 968 # 100]) a) by (apply (checked 10); [vm_compute; reflexivity|auto]).
  assert (P1 : 0 < ev qB1 a) by (apply (checked 10); [vm_compute; reflexivity|auto]).
  assert (P3 : 0 < ev qB3 a) by (apply (checked 10); [vm_compute; reflexivity|auto]).
  assert (PD : 0 < ev (padd (pscale 4 (pmul qB1 qB3)) (pneg (pmul qB2 qB2))) a) by (apply (checked 10); [vm_compute; reflexivity|auto]).
  rewrite ev_add in P0. rewrite ev_add, ev_scale, ev_neg, !ev_mul in PD. cbn [ev] in P0.
  assert (E0 : ev qB0 a = 138 / 10 + 399355 / 10000 * a - 44049 / 1000 * a ^ 2) by (unfold qB0; rewrite ev3; unfold Q2R; cbn; field).
  assert (E1 : ev qB1 a = 30481 / 1000 - 1171505 / 10000 * a + 1299978 / 10000 * a ^ 2) by (unfold qB1; rewrite ev3; unfold Q2R; cbn; field).
  assert (E2 : ev qB2 a = - (409429 / 10000) + 2340846 / 10000 * a - 30004 / 100 * a ^ 2) by (unfold qB2; rewrite ev3; unfold Q2R; cbn; field).
  assert (E3 : ev qB3 a = 607619 / 10000 - 1539276 / 10000 * a + 2111616 / 10000 * a ^ 2) by (unfold qB3; rewrite ev3; unfold Q2R; cbn; field).
  unfold urbain_B. rewrite <- E0, <- E1, <- E2, <- E3. clear E0 E1 E2 E3.
  replace (Q2R (- 968 # 100)) with (- (968 / 100)) in P0 by (unfold Q2R; cbn; field). replace (Q2R 4) with 4 in PD by (unfold Q2R; cbn; field).
  set (b0 := ev qB0 a) in *. set (b1 := ev qB1 a) in *. set (b2 := ev qB2 a) in *. set (b3 := ev qB3 a) in *. clearbody b0 b1 b2 b3.
  assert (Q : 0 <= b1 + b2 * g + b3 * g ^ 2).
  { apply Rmult_le_reg_l with (4 * b3); [lra|]. rewrite Rmult_0_r. replace (4 * b3 * (b1 + b2 * g + b3 * g ^ 2)) with ((2 * b3 * g + b2) ^ 2 + (4 * (b1 * b3) - b2 * b2)) by ring. pose proof (pow2_ge_0 (2 * b3 * g + b2)). lra. }
  assert (0 <= g * (b1 + b2 * g + b3 * g ^ 2)) by now apply Rmult_le_pos. nra.
Qed.
Lemma get0_nonneg x c : (forall d a, In (d, a) x -> 0 <= a) -> 0 <= get0 x c.
Proof.
  intros H. unfold get0. induction x as [|[d a] x IH]; cbn [lookup]; [lra|]. destruct (String.eqb c d); [apply (H d a); now left|]. apply IH. intros e b I. apply (H e b). now right.
Qed.
Lemma shares_nonneg x : (forall d a, In (d, a) x -> 0 <= a) -> total snd x <> 0 -> forall d a, In (d, a) (shares x) -> 0 <= a.
Proof.
  intros H N d a I. unfold shares in I. apply in_map_iff in I. destruct I as ([c b] & E & I). injection E as <- <-. cbn.
  assert (0 <= total snd x) by (apply total_nonneg; intros [e z] J; now apply (H e z)). apply Rmult_le_pos; [now apply (H c b)|]. left. apply Rinv_0_lt_compat. lra.
Qed.
Lemma get0_shares x c : get0 (shares x) c = get0 x c / total snd x.
Proof.
  unfold get0, shares. generalize (total snd x). intros t. induction x as [|[d a] x IH]; cbn [map lookup fst snd]; [unfold Rdiv; ring|]. destruct (String.eqb c d); auto.
Qed.
(** Share of the network modifiers (with the weights of the model). *)
Definition modifiers : list (string * R) :=
  [("CaO"%string, 1); ("MgO"%string, 1); ("Na2O"%string, 1); ("K2O"%string, 1); ("CaF2"%string, 3); ("FeO"%string, 1); ("MnO"%string, 1); ("TiO2"%string, 2); ("ZrO2"%string, 2)].
Lemma urbain_B_of x T y : (forall c a, In (c, a) x -> 0 <= a) -> urbain T x = Ok y -> exists B, 968 / 100 < B /\
  forall T', T' <> 0 -> urbain T' x = Ok (weymann (exp (- (2693 / 10000) * B - 116725 / 10000) / 10) (1000 * B) T').
Proof.
  intros H U. rewrite urbain_unfold in U. match type of U with bind ?d _ = _ => destruct d as [s|e] eqn:E end; [|discriminate]. cbn [bind] in U.
  destruct x as [|p x]. { cbn in E. injection E as <-. exfalso. unfold urbain_of, get0 in U. cbn [lookup] in U. revert U. do 3 (rewrite rdiv_ok by lra; cbn [bind]).
    replace ((0 + 0 + 0 + 0 + 3 * 0 + 0 + 0 + 2 * 0 + 2 * 0) / (1 + 0 + 0 + 0 + 0) + (0 + 0 + 0) / (1 + 0 + 0 + 0 + 0)) with 0 by field. rewrite rdiv_0. discriminate. }
  destruct (Req_EM_T (total snd (p :: x)) 0) as [Z|Z]; [rewrite shares_0 in E; auto; discriminate|]. assert (E' := E). rewrite (shares_ok _ Z) in E'. injection E' as <-.
  assert (S := shares_nonneg _ H Z). assert (G := fun c => get0_nonneg _ c S). set (s := shares (p :: x)) in *.
  unfold urbain_of in U. set (norm := 1 + get0 s "CaF2" + get0 s "Fe2O3" + get0 s "TiO2" + get0 s "ZrO2") in *.
  assert (N : 1 <= norm) by (unfold norm; pose proof (G "CaF2"%string); pose proof (G "Fe2O3"%string); pose proof (G "TiO2"%string); pose proof (G "ZrO2"%string); lra).
  assert (NI : 0 < / norm) by (apply Rinv_0_lt_compat; lra).
  set (xg := get0 s "SiO2" + get0 s "P2O5") in *. set (xa := get0 s "Al2O3" + get0 s "Fe2O3" + get0 s "B2O3") in *.
  match type of U with context [rdiv (?a + 2 * get0 s "ZrO2") _] => set (xm := a + 2 * get0 s "ZrO2") in * end.
  assert (XG : 0 <= xg) by (unfold xg; pose proof (G "SiO2"%string); pose proof (G "P2O5"%string); lra).
  assert (XA : 0 <= xa) by (unfold xa; pose proof (G "Al2O3"%string); pose proof (G "Fe2O3"%string); pose proof (G "B2O3"%string); lra).
  assert (XM : 0 <= xm) by (unfold xm; pose proof (G "CaO"%string); pose proof (G "MgO"%string); pose proof (G "Na2O"%string); pose proof (G "K2O"%string); pose proof (G "CaF2"%string); pose proof (G "FeO"%string); pose proof (G "MnO"%string); pose proof (G "TiO2"%string); pose proof (G "ZrO2"%string); lra).
  rewrite !(rdiv_ok _ norm) in U by lra. cbn [bind] in U.
  destruct (Req_EM_T (xm / norm + xa / norm) 0) as [D|D]; [rewrite D, rdiv_0 in U; discriminate|].
  assert (MG : 0 <= xm / norm) by (apply Rmult_le_pos; lra). assert (AG : 0 <= xa / norm) by (apply Rmult_le_pos; lra). assert (GG : 0 <= xg / norm) by (apply Rmult_le_pos; lra).
  rewrite rdiv_ok in U by auto. cbn [bind] in U. exists (urbain_B (xm / norm / (xm / norm + xa / norm)) (xg / norm)). split.
  - apply urbain_B_low; auto. assert (DP : 0 < xm / norm + xa / norm) by lra. split; [apply Rmult_le_pos; [lra|]; left; now apply Rinv_0_lt_compat|].
    apply Rmult_le_reg_r with (xm / norm + xa / norm); auto. unfold Rdiv at 1. rewrite Rmult_assoc, Rinv_l by lra. lra.
  - intros T' N'. rewrite urbain_unfold, E. cbn [bind]. unfold urbain_of. fold xg xa xm norm. rewrite !(rdiv_ok _ norm) by lra. cbn [bind]. rewrite rdiv_ok by auto. cbn [bind].
    rewrite rdiv_ok by auto. cbn [bind]. apply f_equal. unfold weymann, Rdiv. ring.
Qed.
Lemma urbain_defined x T c a : (forall c a, In (c, a) x -> 0 <= a) -> In c ["CaO"; "MgO"; "Na2O"; "K2O"; "CaF2"; "FeO"; "MnO"; "TiO2"; "ZrO2"; "Al2O3"; "Fe2O3"; "B2O3"]%string ->
  lookup c x = Some a -> 0 < a -> T <> 0 -> exists y, urbain T x = Ok y.
Proof.
  intros H K L A NT.
  assert (I : In (c, a) x) by (clear - L; induction x as [|[d b] x IH]; cbn [lookup] in L; [discriminate|]; destruct (String.eqb_spec c d); [injection L as ->; subst; now left|right; auto]).
  assert (Z : 0 < total snd x) by (apply total_pos with (c, a); auto; intros [d b] J; now apply (H d b)).
  assert (S := shares_nonneg _ H (Rgt_not_eq _ _ Z)). assert (G := fun c => get0_nonneg _ c S). rewrite urbain_unfold. rewrite shares_ok by lra. cbn [bind].
  assert (GC : 0 < get0 (shares x) c) by (rewrite get0_shares; unfold get0; rewrite L; now apply Rdiv_lt_0_compat).
  set (s := shares x) in *. unfold urbain_of. set (norm := 1 + get0 s "CaF2" + get0 s "Fe2O3" + get0 s "TiO2" + get0 s "ZrO2") in *.
  assert (N : 1 <= norm) by (unfold norm; pose proof (G "CaF2"%string); pose proof (G "Fe2O3"%string); pose proof (G "TiO2"%string); pose proof (G "ZrO2"%string); lra).
  assert (NI : 0 < / norm) by (apply Rinv_0_lt_compat; lra).
  rewrite !(rdiv_ok _ norm) by lra. cbn [bind]. rewrite rdiv_ok; [cbn [bind]; rewrite rdiv_ok by auto; cbn [bind]; eauto|].
  pose proof (G "CaO"%string); pose proof (G "MgO"%string); pose proof (G "Na2O"%string); pose proof (G "K2O"%string); pose proof (G "CaF2"%string); pose proof (G "FeO"%string); pose proof (G "MnO"%string); pose proof (G "TiO2"%string); pose proof (G "ZrO2"%string).
  pose proof (G "Al2O3"%string); pose proof (G "Fe2O3"%string); pose proof (G "B2O3"%string).
  unfold Rdiv. rewrite <- Rmult_plus_distr_r. apply Rgt_not_eq, Rmult_lt_0_compat; auto.
  cbn [In] in K. repeat destruct K as [<-|K]; lra.
Qed.

(** * Riboud *)
Lemma dict_set_times k x c v : dict_set (times k x) c (k * v) = times k (dict_set x c v).
Proof. induction x as [|[d a] x IH]; cbn [times dict_set map fst snd]; [reflexivity|]. destruct (string_dec c d); cbn [map fst snd]; [reflexivity|]. apply f_equal. exact IH. Qed.
Lemma lookup_times k x c : lookup c (times k x) = option_map (Rmult k) (lookup c x).
Proof. induction x as [|[d a] x IH]; cbn; auto. destruct (String.eqb c d); auto. Qed.
Lemma double_times k x f t : double_cation (times k x) f t = times k (double_cation x f t).
Proof. unfold double_cation. rewrite lookup_times. destruct (lookup f x) as [v|]; cbn [option_map]; auto. rewrite <- dict_set_times. f_equal. ring. Qed.
Lemma prepare_times k x : riboud_prepare (times k x) = times k (riboud_prepare x).
Proof. unfold riboud_prepare. now rewrite !double_times. Qed.
Lemma get0_times k x c : get0 (times k x) c = k * get0 x c.
Proof. unfold get0. rewrite lookup_times. destruct (lookup c x); cbn; lra. Qed.
Lemma lookup_set x k v c : lookup c (dict_set x k v) = if string_dec c k then Some v else lookup c x.
Proof.
  induction x as [|[d a] x IH]; cbn [dict_set lookup].
  - destruct (String.eqb_spec c k), (string_dec c k); congruence.
  - destruct (string_dec k d) as [->|N]; cbn [lookup].
    + destruct (String.eqb_spec c d), (string_dec c d); congruence.
    + destruct (String.eqb_spec c d) as [->|N']; [|exact IH]. destruct (string_dec d k); congruence.
Qed.
Lemma set_same x k v : lookup k x = Some v -> dict_set x k v = x.
Proof. induction x as [|[d a] x IH]; cbn [dict_set lookup]; [discriminate|]. destruct (String.eqb_spec k d) as [->|N]; destruct (string_dec _ _); try congruence. intros H. now rewrite IH. Qed.
Lemma lookup_double x f t c : c <> t -> lookup c (double_cation x f t) = lookup c x.
Proof. intros N. unfold double_cation. destruct (lookup f x); auto. rewrite lookup_set. destruct (string_dec c t); congruence. Qed.
Lemma lookup_double_to x f t : lookup t (double_cation x f t) = match lookup f x with Some v => Some (2 * v) | None => lookup t x end.
Proof. unfold double_cation. destruct (lookup f x); auto. rewrite lookup_set. destruct (string_dec t t); congruence. Qed.
Lemma double_fixed x f t : match lookup f x with Some v => lookup t x = Some (2 * v) | None => True end -> double_cation x f t = x.
Proof. unfold double_cation. destruct (lookup f x); auto. apply set_same. Qed.
Lemma prepare_other x c : c <> "PO2.5"%string -> c <> "FeO1.5"%string -> c <> "BO1.5"%string -> lookup c (riboud_prepare x) = lookup c x.
Proof. intros A B C. unfold riboud_prepare. now rewrite !lookup_double. Qed.
Lemma prepare_fixed x : 
  match lookup "P2O5" x with Some v => lookup "PO2.5" x = Some (2 * v) | None => True end ->
  match lookup "Fe2O3" x with Some v => lookup "FeO1.5" x = Some (2 * v) | None => True end ->
  match lookup "B2O3" x with Some v => lookup "BO1.5" x = Some (2 * v) | None => True end -> riboud_prepare x = x.
Proof. intros A B C. unfold riboud_prepare. rewrite (double_fixed x "P2O5"); auto. rewrite (double_fixed x "Fe2O3"); auto. now apply double_fixed. Qed.
Lemma prepare_idem x : riboud_prepare (riboud_prepare x) = riboud_prepare x.
Proof.
  assert (P : lookup "P2O5" (riboud_prepare x) = lookup "P2O5" x) by (apply prepare_other; discriminate).
  assert (F : lookup "Fe2O3" (riboud_prepare x) = lookup "Fe2O3" x) by (apply prepare_other; discriminate).
  assert (B : lookup "B2O3" (riboud_prepare x) = lookup "B2O3" x) by (apply prepare_other; discriminate).
  apply prepare_fixed; [rewrite P|rewrite F|rewrite B]; unfold riboud_prepare.
  - rewrite !(lookup_double _ _ _ "PO2.5") by discriminate. rewrite lookup_double_to. destruct (lookup "P2O5" x); auto.
  - rewrite (lookup_double _ "B2O3" _ "FeO1.5") by discriminate. rewrite lookup_double_to. rewrite lookup_double by discriminate. destruct (lookup "Fe2O3" x); auto.
  - rewrite lookup_double_to. rewrite !lookup_double by discriminate. destruct (lookup "B2O3" x); auto.
Qed.
Definition riboud_of (T : R) (x : list (string * R)) : res R :=
   let x2 := rsum (map (get0 x) riboud_cao) in
   let x3 := rsum (map (get0 x) ["Al2O3"%string]) in
   let x4 := rsum (map (get0 x) ["CaF2"%string]) in
   let x5 := rsum (map (get0 x) riboud_na2o) in
   let A := exp (- (1751 / 100) + 173 / 100 * x2 + 582 / 100 * x4 + 702 / 100 * x5 - 3376 / 100 * x3) in
   let B := 31140 - 23896 * x2 - 46356 * x4 - 39159 * x5 + 68833 * x3 in
   do e <- rdiv B T;
   Ok (A * T * exp e / 10).
Definition riboud_shares (x : list (string * R)) : list (string * R) := map (fun c => (c, get0 x c / total (get0 x) riboud_all)) riboud_all.
Lemma riboud_ok T x : total (get0 (riboud_prepare x)) riboud_all <> 0 -> snd (riboud T x) = riboud_of T (riboud_shares (riboud_prepare x)).
Proof.
  intros N. unfold riboud. cbn [snd]. rewrite rsum_total. set (y := riboud_prepare x) in *. unfold riboud_of, riboud_shares.
  rewrite (mapM_ext _ (fun c => Ok (c, get0 y c / total (get0 y) riboud_all))) by (intros c _; now rewrite rdiv_ok). rewrite mapM_Ok. reflexivity.
Qed.
Lemma riboud_0 T x : total (get0 (riboud_prepare x)) riboud_all = 0 -> snd (riboud T x) = Err ZeroDivisionError.
Proof. intros Z. unfold riboud. cbn [snd]. rewrite rsum_total, Z. unfold riboud_all. cbn [app mapM]. now rewrite rdiv_0. Qed.
Lemma riboud_times k T x : k <> 0 -> snd (riboud T (times k x)) = snd (riboud T x).
Proof.
  intros K. assert (E : forall y, total (get0 (times k y)) riboud_all = k * total (get0 y) riboud_all) by (intros y; rewrite <- total_scale; apply total_ext; intros; apply get0_times).
  destruct (Req_EM_T (total (get0 (riboud_prepare x)) riboud_all) 0) as [Z|Z].
  - rewrite (riboud_0 T x Z). apply riboud_0. rewrite prepare_times, E, Z. lra.
  - rewrite (riboud_ok T x Z). rewrite riboud_ok by (rewrite prepare_times, E; now apply Rmult_integral_contrapositive). f_equal. unfold riboud_shares. apply map_ext. intros c.
    rewrite prepare_times, E, get0_times. apply f_equal. field. auto.
Qed.
Lemma get0_of_map (f : string -> R) l c : In c l -> get0 (map (fun c => (c, f c)) l) c = f c.
Proof. unfold get0. induction l as [|d l IH]; cbn [map lookup In]; [contradiction|]. intros I. destruct (String.eqb_spec c d) as [->|N]; auto. destruct I as [->|I]; [congruence|auto]. Qed.
Definition riboud_E (x : list (string * R)) : R :=
  31140 - 23896 * total (get0 x) riboud_cao - 46356 * get0 x "CaF2" - 39159 * total (get0 x) riboud_na2o + 68833 * get0 x "Al2O3".
Lemma riboud_form T x y : snd (riboud T x) = Ok y -> exists A, 0 < A /\
  forall T', T' <> 0 -> snd (riboud T' x) = Ok (weymann A (riboud_E (riboud_shares (riboud_prepare x))) T').
Proof.
  intros H. destruct (Req_EM_T (total (get0 (riboud_prepare x)) riboud_all) 0) as [Z|Z]; [rewrite riboud_0 in H by auto; discriminate|].
  set (s := riboud_shares (riboud_prepare x)).
  exists (exp (- (1751 / 100) + 173 / 100 * rsum (map (get0 s) riboud_cao) + 582 / 100 * rsum (map (get0 s) ["CaF2"%string]) + 702 / 100 * rsum (map (get0 s) riboud_na2o) - 3376 / 100 * rsum (map (get0 s) ["Al2O3"%string])) / 10).
  split; [apply Rdiv_lt_0_compat; [apply exp_pos|lra]|]. intros T' N. rewrite riboud_ok by auto. fold s. unfold riboud_of. rewrite rdiv_ok by auto. cbn [bind]. apply f_equal. unfold weymann, riboud_E.
  rewrite <- !rsum_total. cbn [map rsum fold_right]. rewrite !Rplus_0_r. unfold Rdiv. ring.
Qed.
