(** Proofs for C87: thermo packages. *)
From Verif Require Import Prelude M_Lists M_Thermochem M_ThermoMat Spec_Thermo Spec_ThermoMat Spec_MisuseThermo P_Content P_ThermoMat.
From Coq Require Import Reals Lra.
Local Open Scope list_scope.
Local Open Scope R_scope.

Lemma secant_err f n : (forall x, exists y, f x = Ok y) -> forall x0 x1 y0 y1 e, secant f n x0 x1 y0 y1 = Err e -> e = NonFinite.
Proof.
  intros F. induction n as [|n IH]; intros x0 x1 y0 y1 e; cbn [secant]; [discriminate|]. unfold ndiv. destruct (Req_EM_T (y1 - y0) 0); cbn [bind]; [intros [= <-]; reflexivity|].
  destruct (F (x1 - y1 * ((x1 - x0) / (y1 - y0)))) as [y E]. rewrite E. cbn [bind]. destruct (Rlt_dec (Rabs y1) (1 / 100000)); [discriminate|]. apply IH.
Qed.
Lemma find_T_err h T H e : (forall x, exists y, h x = Ok y) -> find_T h T H = Err e -> e = NonFinite.
Proof.
  intros F. unfold find_T. destruct (F T) as [a ->]. destruct (F (T + 10)) as [b ->]. cbn [bind]. apply secant_err. intros x. destruct (F x) as [y ->]. cbn. eauto.
Qed.
Lemma set_H_err db p H e : known db (tp_material p) -> wf p -> tp_coal p = false -> finish (set_H db p H) = Err e -> e = NonFinite.
Proof.
  intros K W C. unfold set_H, finish, calculate_T. destruct (find_T (calculate_H db (set_TH p (tp_T p) H)) (tp_T (set_TH p (tp_T p) H)) H) as [T|e'] eqn:F; cbn [snd bind]; [discriminate|]. intros [= <-].
  revert F. apply find_T_err. intros x. exists (enthalpy db (set_TH p (tp_T p) H) x). apply calculate_H_ok; auto.
Qed.
Lemma index_absent_err p c : ~ lists p c -> get_compound_index (tp_material p) c = Err ValueError.
Proof. intros N. unfold get_compound_index. now apply index_absent. Qed.
Lemma fold_missing db p o cs : known db (tp_material p) -> wf o -> forall r0, wf r0 -> tp_material r0 = tp_material p -> forall e,
  foldM (fun r c => if negb (member string_dec c (tm_compounds (tp_material p))) then Err PyException else
             do x <- get_compound_mass o c; add_pair db r c x) cs r0 = Err e <-> e = PyException /\ exists c, In c cs /\ ~ lists p c.
Proof.
  intros K Wo. induction cs as [|c cs IH]; intros r0 W M e; cbn [foldM].
  - split; [discriminate|]. intros (_ & c & [] & _).
  - destruct (member string_dec c (tm_compounds (tp_material p))) eqn:I; cbn [negb bind].
    + apply member_In in I. rewrite (get_compound_mass_has o c Wo). cbn [bind]. rewrite <- M in I. assert (K' : known db (tp_material r0)) by now rewrite M.
      destruct (add_pair_ok db r0 c (has o c) K' W I) as (r1 & -> & M1 & W1 & _). cbn [bind]. rewrite M in I. rewrite (IH r1 W1 ltac:(congruence) e). split; intros (-> & d & Hd & N); (split; [auto|]); exists d; (split; [|auto]); [right; auto|]. destruct Hd as [<-|Hd]; auto. exfalso. apply N, I.
    + split; [intros [= <-]; split; auto; exists c; split; [left; auto|]; intros L; apply (member_In string_dec) in L; congruence|]. intros (-> & _). reflexivity.
Qed.
Theorem add_failure db p a e : sound db p -> (forall o, a = APackage o -> wf o /\ (tm_id (tp_material p) = tm_id (tp_material o) -> tp_material o = tp_material p)) -> e <> NonFinite ->
  (add db p a = Err e <-> add_fault p a e).
Proof.
  intros (W & K & C & Co) HO NF. destruct a as [o|c x|c x T|x|c|m|]; cbn [add].
  - destruct (HO o eq_refl) as [Wo S]. destruct (Z.eqb_spec (tm_id (tp_material p)) (tm_id (tp_material o))) as [I|I].
    + specialize (S I). destruct W as [N L], Wo as [N' L']. destruct (radd_ok (tp_masses p) (tp_masses o)) as (ms & E & Lm); [congruence|]. rewrite E. cbn [bind].
      destruct (new_package_ok db (tp_material p) ms 1 25 K N) as (r1 & E1 & M1 & X1 & _ & _ & C1 & _ & _); [congruence|]. rewrite E1. cbn [bind].
      destruct (finish (set_H db r1 (tp_H p + tp_H o))) as [r2|e'] eqn:F; cbn [bind].
      * split; [discriminate|]. intros H. inversion H; contradiction.
      * apply set_H_err in F; [|now rewrite M1|split; [now rewrite M1|congruence]|auto]. split; [intros [= <-]; contradiction|]. intros H. inversion H; contradiction.
    + pose proof (fold_missing db p o (tm_compounds (tp_material o)) K Wo p W eq_refl) as FM. destruct (foldM _ (tm_compounds (tp_material o)) p) as [r1|e'] eqn:F; cbn [bind].
      * destruct (add_each_ok db p o _ K Wo p r1 W eq_refl F) as (W1 & M1 & _ & _ & C1 & Inc & _). split.
        -- intros H. apply set_H_err in H; [contradiction|now rewrite M1|auto|congruence].
        -- intros H. inversion H as [| |o' c' I1 I2 I3| | | |]; subst. exfalso. apply I3. now apply Inc.
      * destruct (proj1 (FM e') eq_refl) as (-> & d & Id & Nd). split.
        -- intros [= <-]. econstructor; eauto.
        -- intros H. inversion H; subst. reflexivity.
  - destruct (in_dec string_dec c (tm_compounds (tp_material p))) as [I|I].
    + destruct (add_pair_ok db p c x K W I) as (r & -> & _). split; [discriminate|]. intros H. inversion H; contradiction.
    + unfold add_pair. rewrite index_absent_err by auto. cbn [bind]. split; [intros [= <-]; now constructor|]. intros H. now inversion H.
  - destruct (in_dec string_dec c (tm_compounds (tp_material p))) as [I|I].
    + split; [|intros H; inversion H; contradiction]. intros H. exfalso. revert H. unfold get_compound_index. destruct (index_total string_dec _ _ I) as [i E]. rewrite E. cbn [bind]. apply index_ok in E. destruct E as [E _].
      rewrite (known_H db (tp_material p)) by auto. cbn [bind]. destruct (mul_ok db p 1 K W ltac:(lra)) as (r & -> & M & Wr & _ & _ & Cr & _). cbn [bind].
      assert (Li : (i < length (tp_masses r))%nat) by (rewrite (proj2 Wr), M; apply nth_error_Some; congruence).
      unfold get. destruct (nth_error (tp_masses r) i) as [y|] eqn:Y; [|apply nth_error_None in Y; lia]. cbn [bind]. destruct (set_nth_ok (tp_masses r) i (y + x) Li) as [ms R]. rewrite R. cbn [bind].
      destruct (finish (set_H db (set_masses r ms) (tp_H p + specific_H db c T * x))) as [r2|e'] eqn:F; cbn [bind]; [discriminate|]. apply set_H_err in F; cbn [set_masses tp_material tp_coal]; [|now rewrite M| |auto].
      * intros [= <-]. contradiction.
      * assert (Lr : length ms = length (tp_masses r)) by (eapply (set_nth_weigh (fun _ => 1) (tm_compounds (tp_material r)) c i); eauto; [symmetry; apply Wr|now rewrite M]). destruct Wr as [Nr Lr']. split; cbn; congruence.
    + rewrite index_absent_err by auto. cbn [bind]. split; [intros [= <-]; now constructor|]. intros H. now inversion H.
  - split; [intros [= <-]; constructor|]. intros H. now inversion H.
  - split; [intros [= <-]; constructor|]. intros H. now inversion H.
  - split; [intros [= <-]; constructor|]. intros H. now inversion H.
  - split; [intros [= <-]; constructor|]. intros H. now inversion H.
Qed.

Theorem extract_failure db p a e : sound db p -> (forall m, a = AMaterial m -> known db m /\ NoDup (tm_compounds m)) ->
  (snd (extract db p a) = Err e <-> extract_fault p a e).
Proof.
  intros (W & K & C & Co) HM. destruct a as [o|c x|c x T|x|c|m|].
  - cbn. split; [intros [= <-]; constructor|]. intros H. now inversion H.
  - destruct (in_dec string_dec c (tm_compounds (tp_material p))) as [I|I].
    + destruct (Rlt_dec (has p c) x) as [L|L].
      * rewrite (extract_pair_error db p c x W I L). cbn. split; [intros [= <-]; now constructor|]. intros H. now inversion H.
      * destruct (extract_pair_ok db p c x K W C I ltac:(lra)) as (p' & r & -> & _). cbn. split; [discriminate|]. intros H. inversion H; subst. lra.
    + destruct (extract_pair_absent db p c x I) as (r & -> & _). cbn. split; [discriminate|]. intros H. inversion H; contradiction.
  - cbn. split; [intros [= <-]; constructor|]. intros H. now inversion H.
  - destruct (Rlt_dec (mass_of p) x) as [L|L].
    { rewrite (extract_mass_error db p x W L). cbn. split; [intros [= <-]; now constructor|]. intros H. inversion H; subst; auto. lra. }
    pose proof (mass_rsum p W) as Em. cbn [extract]. unfold extract_mass. rewrite <- Em. destruct (Rlt_dec (mass_of p) x); [contradiction|]. unfold ndiv. destruct (Req_EM_T (mass_of p) 0) as [Z|Z].
    { cbn. split; [intros [= <-]; constructor; auto; lra|]. intros H. inversion H; subst; auto. lra. }
    destruct W as [N Le]. destruct (new_package_ok db (tp_material p) (rscale (tp_masses p) (x / mass_of p)) (tp_P p) (tp_T p) K N) as (r & -> & _); [unfold rscale; now rewrite map_length|].
    rewrite keep_T_ok; auto; [|split; cbn; [exact N|unfold rscale; now rewrite map_length]]. cbn. split; [discriminate|]. intros H. inversion H; subst; contradiction.
  - cbn [extract]. destruct (in_dec string_dec c (tm_compounds (tp_material p))) as [I|I].
    + destruct (extract_compound_in db p c K W C I) as (p' & r & -> & _). cbn. split; [discriminate|]. intros H. inversion H.
    + destruct (extract_compound_absent db p c I) as (r & -> & _). cbn. split; [discriminate|]. intros H. inversion H.
  - destruct (HM m eq_refl) as [Km Nm]. cbn [extract]. unfold extract_material. destruct (empty_ok db m 1 25) as (r & -> & M & X & _ & _ & Cr & _ & Lr & _).
    destruct (extract_each_ok db (tm_compounds m) p r) as (p' & r' & -> & _); auto; [now rewrite M|split; [now rewrite M|now rewrite M]|rewrite M; apply incl_refl|]. cbn. split; [discriminate|]. intros H. inversion H.
  - cbn. split; [intros [= <-]; constructor|]. intros H. now inversion H.
Qed.

Lemma lookup_in {A} k (d : list (string * A)) : (exists v, lookup k d = Some v) <-> In k (map fst d).
Proof.
  induction d as [|[c v] d IH]; cbn [lookup map fst]; [split; [intros [v H]; discriminate|intros []]|]. destruct (String.eqb_spec k c) as [->|N]; [split; eauto; left; auto|]. rewrite IH. split; [right; auto|]. intros [E|I]; auto. congruence.
Qed.
Lemma lookup_none {A} k (d : list (string * A)) : lookup k d = None <-> ~ In k (map fst d).
Proof. rewrite <- lookup_in. destruct (lookup k d); split; try discriminate; auto. - intros H. exfalso. eauto. - intros _ [v H]. discriminate. Qed.
Lemma mapM_div mass t a : mapM (fun x => ndiv (mass * x) t) a = if Req_EM_T t 0 then match a with [] => Ok [] | _ => Err NonFinite end else Ok (map (fun x => mass * x / t) a).
Proof.
  unfold ndiv. destruct (Req_EM_T t 0) as [Z|Z]; [destruct a; reflexivity|]. induction a as [|x a IH]; cbn [mapM map]; auto. cbn [bind]. rewrite IH. reflexivity.
Qed.
(** For assays that are not of coal, with one entry per compound. *)
Theorem create_failure db m n mass P T norm e : known db m -> NoDup (tm_compounds m) -> (forall a, lookup n (tm_assays m) = Some a -> length a = length (tm_compounds m)) -> ~ In "IsCoal"%string (tm_properties m) ->
  (create_package db m (Some n) mass P T norm = Err e <-> create_fault m n mass norm e).
Proof.
  intros K N L NC. unfold create_package, get_assay_total, find_assay. destruct (lookup n (tm_assays m)) as [a|] eqn:E.
  2:{ assert (NI : ~ In n (map fst (tm_assays m))) by now apply lookup_none. destruct norm; cbn [bind]; (split; [intros [= <-]; now constructor|]); intros H; inversion H; subst; auto; congruence. }
  assert (I : In n (map fst (tm_assays m))) by (apply lookup_in; eauto).
  assert (IC : is_coal m n = Ok false). { unfold is_coal. destruct (member string_dec "IsCoal"%string (tm_properties m)) eqn:MB; auto. apply member_In in MB. contradiction. }
  assert (G : forall ms, length ms = length a -> (do coal <- is_coal m n; do hhv <- get_HHV m n; new_package db m ms P T coal hhv) = Err e <-> e = KeyError /\ ~ In n (map fst (tm_custom m))).
  { intros ms Lm. rewrite IC. cbn [bind]. unfold get_HHV, custom_of. destruct (lookup n (tm_custom m)) as [d|] eqn:EC; cbn [bind].
    - assert (In n (map fst (tm_custom m))) by (apply lookup_in; eauto). split; [|tauto]. unfold new_package. destruct (Rlt_dec 0 (rsum ms)); [|discriminate]. rewrite calculate_H_ok; auto; [discriminate|]. split; auto. cbn. rewrite Lm. now apply L.
    - apply lookup_none in EC. split; [intros [= <-]; auto|]. intros (-> & _). auto. }
  destruct norm; cbn [bind]; rewrite mapM_div.
  - destruct (Req_EM_T (rsum a) 0) as [Z|Z].
    + destruct a as [|x a]; cbn [bind].
      * rewrite (G [] eq_refl). split; [intros [-> Q]; eapply create_no_properties; eauto|]. intros H. inversion H as [|b B1 B2 B3 B4|b B1 B2 B3]; subst; auto; try tauto. congruence.
      * split; [intros [= <-]; eapply create_no_total; eauto; discriminate|]. intros H. inversion H as [|b B1 B2 B3 B4|b B1 B2 B3]; subst; auto; [contradiction|]. assert (b = x :: a) by congruence. subst b. destruct (B2 eq_refl) as [Q|Q]; [discriminate|contradiction].
    + cbn [bind]. rewrite (G _ (map_length _ _)). split; [intros [-> Q]; eapply create_no_properties; eauto|]. intros H. inversion H as [|b B1 B2 B3 B4|b B1 B2 B3]; subst; auto; try tauto. assert (b = a) by congruence. subst b. contradiction.
  - destruct (Req_EM_T 1 0) as [Z|Z]; [lra|]. cbn [bind]. rewrite (G _ (map_length _ _)). split; [intros [-> Q]; eapply create_no_properties; eauto; discriminate|]. intros H. inversion H as [|b B1 B2 B3 B4|b B1 B2 B3]; subst; auto; try tauto. discriminate.
Qed.
