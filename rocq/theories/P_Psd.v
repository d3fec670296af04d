(** Proofs about [M_Psd]: packages of finite numbers. *)
From Verif Require Import Prelude M_Stoichiometry M_Text M_Lists M_Float M_Psd Spec_Material P_Convert P_Content P_Float.
From Coq Require Import Field.
Local Open Scope list_scope.
Local Open Scope Z_scope.

Notation pkg m ms := (mkpsd m (map Fin ms)).
Notation qcontent := (content qdec).

Lemma get_mass_fin m ms : get_mass (pkg m ms) = Fin (Qcsum ms).
Proof. apply fsum_fin. Qed.
Lemma get_class_fin m ms s : length ms = length (ps_classes m) -> NoDup (ps_classes m) -> In s (ps_classes m) ->
  get_size_class_mass (pkg m ms) s = Ok (Fin (qcontent (ps_classes m) ms s)).
Proof.
  intros L N H. unfold get_size_class_mass, get_size_class_index. cbn [pk_material pk_masses]. destruct (index_total qdec _ _ H) as [i E]. rewrite E. cbn [bind].
  destruct (put_spec qdec _ _ _ _ L E) as (y & Y & _ & _ & C & _). unfold get. rewrite nth_error_map, Y. cbn [option_map]. now rewrite C.
Qed.
Lemma add_class_fin m ms s x : length ms = length (ps_classes m) -> In s (ps_classes m) ->
  exists ms', add_class (pkg m ms) (Fin s) (Fin x) = Ok (pkg m ms') /\ length ms' = length ms /\ Qcsum ms' = (Qcsum ms + x)%Qc /\
    forall d, qcontent (ps_classes m) ms' d = (qcontent (ps_classes m) ms d + if qdec s d then x else 0)%Qc.
Proof.
  intros L H. unfold add_class, class_index, get_size_class_index. cbn [pk_material pk_masses]. destruct (index_total qdec _ _ H) as [i E]. rewrite E. cbn [bind].
  destruct (put_spec qdec _ _ _ _ L E) as (y & Y & Li & _ & _ & S & D). exists (put i (y + x)%Qc ms). unfold get. rewrite nth_error_map, Y. cbn [option_map bind fadd].
  rewrite set_nth_put by (rewrite map_length; auto). cbn [bind]. rewrite map_put. split; auto. split; [now apply put_length|]. split; [rewrite S; ring|].
  intros d. rewrite D. destruct (qdec s d); ring.
Qed.
Lemma add_class_absent m ms s x : ~ In s (ps_classes m) -> add_class (mkpsd m ms) (Fin s) x = Err ValueError.
Proof. intros H. unfold add_class, class_index, get_size_class_index. cbn [pk_material]. now rewrite index_absent. Qed.

Definition add_step (m : material) (o r : package) (s : Qc) : res package :=
  if negb (member qdec s (ps_classes m)) then Err TypeError else do x <- get_size_class_mass o s; add_class r (Fin s) x.
Lemma add_different p o : ps_id (pk_material p) <> ps_id (pk_material o) ->
  add p (APackage o) = foldM (add_step (pk_material p) o) (ps_classes (pk_material o)) p.
Proof. intros H. unfold add. apply Z.eqb_neq in H. rewrite H. reflexivity. Qed.
Lemma loop_fin m m' ms' ss : length ms' = length (ps_classes m') -> NoDup (ps_classes m') -> incl ss (ps_classes m') -> incl ss (ps_classes m) -> NoDup ss ->
  forall ms, length ms = length (ps_classes m) ->
  exists rs, foldM (add_step m (pkg m' ms')) ss (pkg m ms) = Ok (pkg m rs) /\ length rs = length ms /\
    Qcsum rs = (Qcsum ms + Qcsum (map (qcontent (ps_classes m') ms') ss))%Qc /\
    forall d, qcontent (ps_classes m) rs d = (qcontent (ps_classes m) ms d + if in_dec qdec d ss then qcontent (ps_classes m') ms' d else 0)%Qc.
Proof.
  intros L' N'. induction ss as [|s ss IH]; intros I' I N ms L; cbn [foldM].
  - exists ms. split; auto. split; auto. split; [unfold Qcsum; cbn; ring|intros; cbn; ring].
  - unfold add_step at 1. assert (Mc : member qdec s (ps_classes m) = true) by (apply member_In; apply I; cbn; auto). rewrite Mc. cbn [negb].
    rewrite get_class_fin by (auto; apply I'; cbn; auto). cbn [bind].
    destruct (add_class_fin m ms s (qcontent (ps_classes m') ms' s) L) as (ms1 & -> & L1 & S1 & C1); [apply I; cbn; auto|]. cbn [bind]. inversion N; subst.
    destruct (IH (fun a h => I' a (or_intror h)) (fun a h => I a (or_intror h)) H2 ms1) as (rs & -> & Lr & Sr & Cr); [congruence|].
    exists rs. split; auto. split; [congruence|]. split.
    + rewrite Sr, S1. cbn [map]. rewrite sum_cons. ring.
    + intros d. rewrite Cr, C1. destruct (qdec s d) as [e|e]; destruct (in_dec qdec d ss) as [D|D], (in_dec qdec d (s :: ss)) as [D'|D']; subst; cbn in *; try tauto; try ring.
Qed.
Lemma add_other m m' ms ms' : ps_id m <> ps_id m' -> length ms = length (ps_classes m) -> length ms' = length (ps_classes m') -> NoDup (ps_classes m') -> incl (ps_classes m') (ps_classes m) ->
  exists rs, add (pkg m ms) (APackage (pkg m' ms')) = Ok (pkg m rs) /\ length rs = length ms /\ Qcsum rs = (Qcsum ms + Qcsum ms')%Qc /\
    forall d, qcontent (ps_classes m) rs d = (qcontent (ps_classes m) ms d + qcontent (ps_classes m') ms' d)%Qc.
Proof.
  intros D L L' N I. rewrite add_different by auto. cbn [pk_material]. destruct (loop_fin m m' ms' (ps_classes m')) with (ms := ms) as (rs & E & Lr & S & C); auto. apply incl_refl.
  exists rs. split; auto. split; auto. split; [rewrite S, sum_has; auto|]. intros d. rewrite C. destruct (in_dec qdec d _) as [H|H]; auto. now rewrite (content_absent qdec _ ms' d H).
Qed.
Lemma add_other_missing m m' ms ms' s : ps_id m <> ps_id m' -> length ms = length (ps_classes m) -> length ms' = length (ps_classes m') -> NoDup (ps_classes m') ->
  In s (ps_classes m') -> ~ In s (ps_classes m) -> add (pkg m ms) (APackage (pkg m' ms')) = Err TypeError.
Proof.
  intros D L L' N' I H. rewrite add_different by auto. cbn [pk_material].
  assert (G : forall ss ms, incl ss (ps_classes m') -> In s ss -> length ms = length (ps_classes m) -> foldM (add_step m (pkg m' ms')) ss (pkg m ms) = Err TypeError).
  { induction ss as [|c ss IH]; intros rs Is Hs Lr; [destruct Hs|]. cbn [foldM]. unfold add_step at 1. destruct (member qdec c (ps_classes m)) eqn:Mc; cbn [negb bind]; [|reflexivity].
    apply (member_In qdec) in Mc. rewrite get_class_fin by (auto; apply Is; cbn; auto). cbn [bind]. destruct (add_class_fin m rs c (qcontent (ps_classes m') ms' c) Lr Mc) as (ms1 & -> & L1 & _). cbn [bind].
    apply IH; [intros a h; apply Is; cbn; auto| |congruence]. destruct Hs as [->|]; [tauto|auto]. }
  apply G; auto. apply incl_refl.
Qed.
Lemma add_same m m' ms ms' : ps_id m = ps_id m' -> length ms = length ms' -> add (pkg m ms) (APackage (pkg m' ms')) = Ok (pkg m (plus_lists ms ms')).
Proof. intros E L. unfold add. cbn [pk_material pk_masses]. rewrite E, Z.eqb_refl, array_add_fin by auto. reflexivity. Qed.

Lemma add_each_step o ss : forall r,
  (forall r', foldM (add_step (pk_material r) o) ss r = Ok r' -> add_each r o ss = (r', Ok tt)) /\
  (forall e, foldM (add_step (pk_material r) o) ss r = Err e -> snd (add_each r o ss) = Err e).
Proof.
  induction ss as [|s ss IH]; intros r; cbn [foldM add_each]. - split; [intros r' H; injection H as <-; auto|discriminate].
  - unfold add_step at 1 3. destruct (negb _); cbn [bind]; [split; [discriminate|intros e H; injection H as <-; auto]|].
    destruct (get_size_class_mass o s) as [x|e]; cbn [bind]; [|split; [discriminate|intros e' H; injection H as <-; auto]].
    destruct (add_class r (Fin s) x) as [r1|] eqn:A; cbn [bind]; [|split; [discriminate|intros e' H; injection H as <-; auto]].
    assert (M : pk_material r1 = pk_material r). { unfold add_class in A. destruct (class_index _ _); cbn [bind] in A; [|discriminate]. destruct (get _ _); cbn [bind] in A; [|discriminate]. destruct (set_nth _ _ _); cbn [bind] in A; [|discriminate]. injection A as <-. reflexivity. }
    rewrite <- M. apply IH.
Qed.
Lemma add_to_add p a : (forall r, add p a = Ok r -> add_to p a = (r, Ok tt)) /\ (forall e, add p a = Err e -> snd (add_to p a) = Err e).
Proof.
  unfold add_to. destruct a as [o|l|v].
  - destruct (ps_id (pk_material p) =? ps_id (pk_material o)) eqn:E.
    + unfold add. rewrite E. destruct (array_add _ _); cbn [bind]; split; intros x H; inversion H; auto.
    + rewrite add_different by now apply Z.eqb_neq. apply add_each_step.
  - unfold add. destruct (size_class_mass_tuple _) as [[s x]|]; [|split; [discriminate|intros e H; injection H as <-; auto]]. destruct (add_class p s x); split; intros y H; inversion H; auto.
  - unfold add. destruct (size_class_mass_tuple _) as [[s x]|]; [|split; [discriminate|intros e H; injection H as <-; auto]]. destruct (add_class p s x); split; intros y H; inversion H; auto.
Qed.

(** * Extraction *)
Lemma extract_mass float_of m ms x v : as_float v = Some (Fin x) -> (x <= Qcsum ms)%Qc -> Qcsum ms <> 0%Qc ->
  extract float_of (pkg m ms) (AVal v) = (pkg m (scaled (1 - x / Qcsum ms) ms), Ok (pkg m (scaled (x / Qcsum ms) ms))).
Proof.
  intros V H N. assert (E : extract float_of (pkg m ms) (AVal v) = extract float_of (pkg m ms) (AVal (NvFloat (Fin x)))) by (destruct v; inversion V; reflexivity). rewrite E.
  unfold extract. rewrite get_mass_fin. cbn [flt]. apply qlt_false in H. rewrite H. rewrite fdiv_fin by auto. cbn [fsub fopp fadd pk_material pk_masses]. rewrite !array_mul_fin. reflexivity.
Qed.
Lemma extract_too_much float_of m ms x v : as_float v = Some (Fin x) -> (Qcsum ms < x)%Qc -> extract float_of (pkg m ms) (AVal v) = (pkg m ms, Err PyException).
Proof.
  intros V H. assert (E : extract float_of (pkg m ms) (AVal v) = extract float_of (pkg m ms) (AVal (NvFloat (Fin x)))) by (destruct v; inversion V; reflexivity). rewrite E.
  unfold extract. rewrite get_mass_fin. cbn [flt]. apply qlt_iff in H. rewrite H. reflexivity.
Qed.
Lemma take_class_fin m ms s i x : length ms = length (ps_classes m) -> NoDup (ps_classes m) -> index_of qdec s (ps_classes m) = Ok i ->
  ((x <= qcontent (ps_classes m) ms s)%Qc -> exists ps rs, take_class (pkg m ms) i (Fin x) = (pkg m ps, Ok (pkg m rs)) /\ plus_lists rs ps = ms /\ length rs = length ms /\ length ps = length ms /\
     forall d, qcontent (ps_classes m) rs d = if qdec s d then x else 0%Qc) /\
  ((qcontent (ps_classes m) ms s < x)%Qc -> take_class (pkg m ms) i (Fin x) = (pkg m ms, Err PyException)).
Proof.
  intros L N E. destruct (put_spec qdec _ _ _ _ L E) as (y & Y & Li & Yn & C & S & D). rewrite C by auto. unfold take_class. cbn [pk_masses pk_material]. unfold get. rewrite nth_error_map, Y. cbn [option_map flt]. split.
  - intros H. apply qlt_false in H. rewrite H. cbn [fsub fopp fadd]. rewrite set_nth_put by now rewrite map_length. rewrite <- map_put, array_mul_fin.
    rewrite set_nth_put by (rewrite map_length; unfold scaled; rewrite map_length, put_length; auto). rewrite <- map_put, put_zero by (rewrite put_length; auto). rewrite put_length by auto.
    eexists _, _. split; [reflexivity|]. rewrite plus_only by auto. replace (x + (y + - x))%Qc with y by ring. rewrite put_same by auto. split; auto. rewrite only_length, put_length by auto. split; auto. split; auto.
    intros d. rewrite L. now apply content_only.
  - intros H. apply qlt_iff in H. now rewrite H.
Qed.
Lemma take_all_fin m ms s i : length ms = length (ps_classes m) -> NoDup (ps_classes m) -> index_of qdec s (ps_classes m) = Ok i ->
  exists ps rs, take_all (pkg m ms) i = (pkg m ps, Ok (pkg m rs)) /\ plus_lists rs ps = ms /\ length rs = length ms /\ length ps = length ms /\
     forall d, qcontent (ps_classes m) rs d = if qdec s d then qcontent (ps_classes m) ms s else 0%Qc.
Proof.
  intros L N E. destruct (put_spec qdec _ _ _ _ L E) as (y & Y & Li & Yn & C & S & D). rewrite C by auto. unfold take_all. cbn [pk_masses pk_material]. unfold get. rewrite nth_error_map, Y. cbn [option_map].
  rewrite array_mul_fin. rewrite set_nth_put by (unfold scaled; rewrite !map_length; auto). rewrite set_nth_put by now rewrite map_length. rewrite <- !map_put, put_zero by auto.
  eexists _, _. split; [reflexivity|]. rewrite plus_only by auto. replace (y + 0)%Qc with y by ring. rewrite put_same by auto. split; auto. rewrite only_length, put_length by auto. split; auto. split; auto.
  intros d. rewrite L. now apply content_only.
Qed.

(** * Creation *)
Lemma create_normalised m n a mass : find_assay n (ps_assays m) = Ok (map Fin a) -> Qcsum a <> 0%Qc ->
  create_package m (Some n) (Fin mass) true = Ok (pkg m (scaled (mass / Qcsum a) a)).
Proof.
  intros H N. unfold create_package, get_assay_total. rewrite H. cbn [bind]. rewrite fsum_fin. do 2 f_equal.
  rewrite map_map. cbn [fmul]. rewrite <- (map_map (fun x => (mass * x)%Qc) Fin). rewrite array_div_fin by auto. f_equal. unfold scaled. rewrite map_map. apply map_ext. intros; field; auto.
Qed.
Lemma create_raw m n a mass : find_assay n (ps_assays m) = Ok (map Fin a) -> create_package m (Some n) (Fin mass) false = Ok (pkg m (scaled mass a)).
Proof.
  intros H. unfold create_package. rewrite H. cbn [bind]. do 2 f_equal.
  rewrite map_map. cbn [fmul]. rewrite <- (map_map (fun x => (mass * x)%Qc) Fin). rewrite array_div_fin by discriminate. f_equal. unfold scaled. rewrite map_map. apply map_ext. intros; field; discriminate.
Qed.
Lemma create_zero m n a mass : find_assay n (ps_assays m) = Ok (map Fin a) -> Qcsum a = 0%Qc ->
  exists ms, create_package m (Some n) (Fin mass) true = Ok (mkpsd m ms) /\ length ms = length a /\ forall x, In x ms -> forall q, x <> Fin q.
Proof.
  intros H Z. unfold create_package, get_assay_total. rewrite H. cbn [bind]. rewrite fsum_fin, Z. eexists. split; [reflexivity|]. unfold array_div. split; [now rewrite !map_length|].
  intros x Hx q. apply in_map_iff in Hx. destruct Hx as (y & <- & Hy). apply in_map_iff in Hy. destruct Hy as (z & <- & Hz). apply in_map_iff in Hz. destruct Hz as (w & <- & _). cbn [fmul fdiv].
  change (is_zero 0) with true. cbv iota. destruct (is_zero (mass * w)); discriminate.
Qed.
