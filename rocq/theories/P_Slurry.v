(** Proofs about [M_Slurry]: packages of finite numbers. *)
From Verif Require Import Prelude M_Stoichiometry M_Text M_Lists M_Float M_Slurry Spec_Material P_Convert P_Content P_Float.
From Coq Require Import Field.
Local Open Scope list_scope.
Local Open Scope Z_scope.

Notation pkg m d w ms := (mksl m d (Fin w) (map Fin ms)).
Notation qcontent := (content qdec).

Lemma get_solid_fin m d w ms : get_solid_mass (pkg m d w ms) = Fin (Qcsum ms).
Proof. apply fsum_fin. Qed.
Lemma get_mass_fin m d w ms : get_mass (pkg m d w ms) = Fin (Qcsum ms + w)%Qc.
Proof. unfold get_mass. cbn [sk_masses sk_water]. rewrite fsum_fin. reflexivity. Qed.
Lemma get_volume_fin m d w ms : d <> 0%Qc -> get_volume (pkg m (Fin d) w ms) = Fin (w + Qcsum ms / d)%Qc.
Proof. intros H. unfold get_volume. rewrite get_solid_fin. cbn [sk_water sk_density]. rewrite fdiv_one, fdiv_fin by auto. reflexivity. Qed.
Lemma get_class_fin m d w ms s : length ms = length (sl_classes m) -> NoDup (sl_classes m) -> In s (sl_classes m) ->
  get_size_class_mass (pkg m d w ms) s = Ok (Fin (qcontent (sl_classes m) ms s)).
Proof.
  intros L N H. unfold get_size_class_mass, get_size_class_index. cbn [sk_material sk_masses]. destruct (index_total qdec _ _ H) as [i E]. rewrite E. cbn [bind].
  destruct (put_spec qdec _ _ _ _ L E) as (y & Y & _ & _ & C & _). unfold get. rewrite nth_error_map, Y. cbn [option_map]. now rewrite C.
Qed.
Lemma add_class_fin m d w ms s x : length ms = length (sl_classes m) -> In s (sl_classes m) ->
  exists ms', add_class (pkg m d w ms) (Fin s) (Fin x) = Ok (pkg m d w ms') /\ length ms' = length ms /\ Qcsum ms' = (Qcsum ms + x)%Qc /\
    forall c, qcontent (sl_classes m) ms' c = (qcontent (sl_classes m) ms c + if qdec s c then x else 0)%Qc.
Proof.
  intros L H. unfold add_class, class_index, get_size_class_index. cbn [sk_material sk_masses sk_density sk_water]. destruct (index_total qdec _ _ H) as [i E]. rewrite E. cbn [bind].
  destruct (put_spec qdec _ _ _ _ L E) as (y & Y & Li & _ & _ & S & D). exists (put i (y + x)%Qc ms). unfold get. rewrite nth_error_map, Y. cbn [option_map bind fadd].
  rewrite set_nth_put by (rewrite map_length; auto). cbn [bind]. rewrite map_put. split; auto. split; [now apply put_length|]. split; [rewrite S; ring|].
  intros c. rewrite D. destruct (qdec s c); ring.
Qed.

Definition add_step (m : material) (o r : package) (s : Qc) : res package :=
  if negb (member qdec s (sl_classes m)) then Err TypeError else do x <- get_size_class_mass o s; add_class r (Fin s) x.
Lemma add_different p o : sl_id (sk_material p) <> sl_id (sk_material o) ->
  add p (APackage o) = foldM (add_step (sk_material p) o) (sl_classes (sk_material o))
    (mksl (sk_material p) (mixed_density p o) (fadd (sk_water p) (sk_water o)) (sk_masses p)).
Proof. intros H. unfold add. apply Z.eqb_neq in H. rewrite H. reflexivity. Qed.
Lemma loop_fin m d w m' d' w' ms' ss : length ms' = length (sl_classes m') -> NoDup (sl_classes m') -> incl ss (sl_classes m') -> incl ss (sl_classes m) -> NoDup ss ->
  forall ms, length ms = length (sl_classes m) ->
  exists rs, foldM (add_step m (pkg m' d' w' ms')) ss (pkg m d w ms) = Ok (pkg m d w rs) /\ length rs = length ms /\
    Qcsum rs = (Qcsum ms + Qcsum (map (qcontent (sl_classes m') ms') ss))%Qc /\
    forall c, qcontent (sl_classes m) rs c = (qcontent (sl_classes m) ms c + if in_dec qdec c ss then qcontent (sl_classes m') ms' c else 0)%Qc.
Proof.
  intros L' N'. induction ss as [|s ss IH]; intros I' I N ms L; cbn [foldM].
  - exists ms. split; auto. split; auto. split; [unfold Qcsum; cbn; ring|intros; cbn; ring].
  - unfold add_step at 1. assert (Mc : member qdec s (sl_classes m) = true) by (apply member_In; apply I; cbn; auto). rewrite Mc. cbn [negb].
    rewrite get_class_fin by (auto; apply I'; cbn; auto). cbn [bind].
    destruct (add_class_fin m d w ms s (qcontent (sl_classes m') ms' s) L) as (ms1 & -> & L1 & S1 & C1); [apply I; cbn; auto|]. cbn [bind]. inversion N; subst.
    destruct (IH (fun a h => I' a (or_intror h)) (fun a h => I a (or_intror h)) H2 ms1) as (rs & -> & Lr & Sr & Cr); [congruence|].
    exists rs. split; auto. split; [congruence|]. split.
    + rewrite Sr, S1. cbn [map]. rewrite sum_cons. ring.
    + intros c. rewrite Cr, C1. destruct (qdec s c) as [e|e]; destruct (in_dec qdec c ss) as [D|D], (in_dec qdec c (s :: ss)) as [D'|D']; subst; cbn in *; try tauto; try ring.
Qed.
(** Any addition of two packages: water and solids, whatever the densities. *)
Lemma add_packages m d w ms m' d' w' ms' :
  length ms = length (sl_classes m) -> length ms' = length (sl_classes m') ->
  (sl_id m = sl_id m' -> m = m') -> (sl_id m <> sl_id m' -> NoDup (sl_classes m') /\ incl (sl_classes m') (sl_classes m)) ->
  exists rs, add (pkg m d w ms) (APackage (pkg m' d' w' ms')) = Ok (pkg m (mixed_density (pkg m d w ms) (pkg m' d' w' ms')) (w + w')%Qc rs) /\
    length rs = length ms /\ Qcsum rs = (Qcsum ms + Qcsum ms')%Qc /\
    forall c, qcontent (sl_classes m) rs c = (qcontent (sl_classes m) ms c + qcontent (sl_classes m') ms' c)%Qc.
Proof.
  intros L L' Id Di. destruct (Z.eq_dec (sl_id m) (sl_id m')) as [E|E].
  - specialize (Id E). subst m'. unfold add. cbn [sk_material sk_masses sk_water]. rewrite Z.eqb_refl, array_add_fin by congruence. cbn [bind fadd].
    exists (plus_lists ms ms'). split; auto. rewrite plus_length, sum_plus by congruence. split; auto. split; auto. intros c. apply content_plus; auto.
  - destruct (Di E) as [N I]. rewrite add_different by auto. cbn [sk_material sk_water sk_masses fadd].
    destruct (loop_fin m (mixed_density (pkg m d w ms) (pkg m' d' w' ms')) (w + w')%Qc m' d' w' ms' (sl_classes m')) with (ms := ms) as (rs & Er & Lr & S & C); auto. apply incl_refl.
    exists rs. split; auto. split; auto. split; [rewrite S, sum_has; auto|]. intros c. rewrite C. destruct (in_dec qdec c _) as [H|H]; auto. now rewrite (content_absent qdec _ ms' c H).
Qed.
Lemma mixed_fin m d w ms m' d' w' ms' : d <> 0%Qc -> d' <> 0%Qc -> (Qcsum ms / d + Qcsum ms' / d' <> 0)%Qc ->
  mixed_density (pkg m (Fin d) w ms) (pkg m' (Fin d') w' ms') = Fin ((Qcsum ms + Qcsum ms') / (Qcsum ms / d + Qcsum ms' / d'))%Qc.
Proof. intros D D' V. unfold mixed_density. rewrite !get_solid_fin. cbn [sk_density]. rewrite !fdiv_fin by auto. cbn [fadd]. now rewrite fdiv_fin. Qed.
Lemma mixed_nan m d w ms m' d' w' ms' : d <> 0%Qc -> d' <> 0%Qc -> Qcsum ms = 0%Qc -> Qcsum ms' = 0%Qc ->
  mixed_density (pkg m (Fin d) w ms) (pkg m' (Fin d') w' ms') = NaN.
Proof.
  intros D D' S S'. unfold mixed_density. rewrite !get_solid_fin, S, S'. cbn [sk_density]. rewrite !fdiv_fin by auto. cbn [fadd].
  replace (0 / d + 0 / d')%Qc with 0%Qc by (field; split; auto). replace (0 + 0)%Qc with 0%Qc by ring. reflexivity.
Qed.
Lemma volume_adds s s' d d' (w w' : Qc) : d <> 0%Qc -> d' <> 0%Qc -> (s + s' <> 0)%Qc -> (s / d + s' / d' <> 0)%Qc ->
  ((w + w') + (s + s') / ((s + s') / (s / d + s' / d')) = (w + s / d) + (w' + s' / d'))%Qc.
Proof.
  intros D D' S V. set (v := (s / d + s' / d')%Qc) in *. replace ((s + s') / ((s + s') / v))%Qc with v by (field; split; auto). unfold v. ring.
Qed.

(** * Extraction *)
Lemma extract_mass float_of m d w ms x v : as_float v = Some (Fin x) -> (x <= Qcsum ms + w)%Qc -> (Qcsum ms + w <> 0)%Qc ->
  extract float_of (pkg m d w ms) (AVal v) =
    (pkg m d ((1 - x / (Qcsum ms + w)) * w)%Qc (scaled (1 - x / (Qcsum ms + w)) ms), Ok (pkg m d ((x / (Qcsum ms + w)) * w)%Qc (scaled (x / (Qcsum ms + w)) ms))).
Proof.
  intros V H N. assert (E : extract float_of (pkg m d w ms) (AVal v) = extract float_of (pkg m d w ms) (AVal (NvFloat (Fin x)))) by (destruct v; inversion V; reflexivity). rewrite E.
  unfold extract. rewrite get_mass_fin. cbn [flt]. apply qlt_false in H. rewrite H. rewrite fdiv_fin by auto. cbn [fsub fopp fadd fmul sk_material sk_masses sk_water sk_density]. rewrite !array_mul_fin.
  rewrite !(Qcmult_comm w). reflexivity.
Qed.
Lemma extract_too_much float_of m d w ms x v : as_float v = Some (Fin x) -> (Qcsum ms + w < x)%Qc -> extract float_of (pkg m d w ms) (AVal v) = (pkg m d w ms, Err PyException).
Proof.
  intros V H. assert (E : extract float_of (pkg m d w ms) (AVal v) = extract float_of (pkg m d w ms) (AVal (NvFloat (Fin x)))) by (destruct v; inversion V; reflexivity). rewrite E.
  unfold extract. rewrite get_mass_fin. cbn [flt]. apply qlt_iff in H. rewrite H. reflexivity.
Qed.
Lemma extract_water float_of m d w ms x v k : as_float v = Some (Fin x) ->
  ((x <= w)%Qc -> exists zs, extract float_of (pkg m d w ms) (ATuple [NvStr k; v]) = (pkg m d (w - x)%Qc ms, Ok (pkg m d x zs)) /\ zs = repeat 0%Qc (length ms)) /\
  ((w < x)%Qc -> extract float_of (pkg m d w ms) (ATuple [NvStr k; v]) = (pkg m d w ms, Err PyException)).
Proof.
  intros V. unfold extract. cbn [water_mass_tuple]. rewrite V. cbn [sk_water flt sk_material sk_density sk_masses fsub fopp fadd]. split; intros H.
  - apply qlt_false in H. rewrite H. rewrite array_mul_fin. eexists. split; [reflexivity|]. unfold scaled. rewrite (map_ext _ (fun _ => 0%Qc)) by (intros; ring). apply map_zero.
  - apply qlt_iff in H. now rewrite H.
Qed.
Lemma take_class_fin m dn w ms s i x : length ms = length (sl_classes m) -> NoDup (sl_classes m) -> index_of qdec s (sl_classes m) = Ok i ->
  ((x <= qcontent (sl_classes m) ms s)%Qc -> exists ps rs, take_class (pkg m dn w ms) i (Fin x) = (pkg m dn w ps, Ok (pkg m dn 0 rs)) /\ plus_lists rs ps = ms /\ length rs = length ms /\ length ps = length ms /\
     forall d, qcontent (sl_classes m) rs d = if qdec s d then x else 0%Qc) /\
  ((qcontent (sl_classes m) ms s < x)%Qc -> take_class (pkg m dn w ms) i (Fin x) = (pkg m dn w ms, Err PyException)).
Proof.
  intros L N E. destruct (put_spec qdec _ _ _ _ L E) as (y & Y & Li & Yn & C & S & D). rewrite C by auto. unfold take_class. cbn [sk_masses sk_material sk_density sk_water]. unfold get. rewrite nth_error_map, Y. cbn [option_map flt]. split.
  - intros H. apply qlt_false in H. rewrite H. cbn [fsub fopp fadd]. rewrite set_nth_put by now rewrite map_length. rewrite <- map_put, array_mul_fin.
    rewrite set_nth_put by (rewrite map_length; unfold scaled; rewrite map_length, put_length; auto). rewrite <- map_put, put_zero by (rewrite put_length; auto). rewrite put_length by auto.
    eexists _, _. split; [reflexivity|]. rewrite plus_only by auto. replace (x + (y + - x))%Qc with y by ring. rewrite put_same by auto. split; auto. rewrite only_length, put_length by auto. split; auto. split; auto.
    intros d. rewrite L. now apply content_only.
  - intros H. apply qlt_iff in H. now rewrite H.
Qed.
Lemma take_all_fin m dn w ms s i : length ms = length (sl_classes m) -> NoDup (sl_classes m) -> index_of qdec s (sl_classes m) = Ok i ->
  exists ps rs, take_all (pkg m dn w ms) i = (pkg m dn w ps, Ok (pkg m dn 0 rs)) /\ plus_lists rs ps = ms /\ length rs = length ms /\ length ps = length ms /\
     forall d, qcontent (sl_classes m) rs d = if qdec s d then qcontent (sl_classes m) ms s else 0%Qc.
Proof.
  intros L N E. destruct (put_spec qdec _ _ _ _ L E) as (y & Y & Li & Yn & C & S & D). rewrite C by auto. unfold take_all. cbn [sk_masses sk_material sk_density sk_water fmul]. unfold get. rewrite nth_error_map, Y. cbn [option_map].
  rewrite array_mul_fin. rewrite set_nth_put by (unfold scaled; rewrite !map_length; auto). rewrite set_nth_put by now rewrite map_length. rewrite <- !map_put, put_zero by auto.
  replace (w * 0)%Qc with 0%Qc by ring. eexists _, _. split; [reflexivity|]. rewrite plus_only by auto. replace (y + 0)%Qc with y by ring. rewrite put_same by auto. split; auto. rewrite only_length, put_length by auto. split; auto. split; auto.
  intros d. rewrite L. now apply content_only.
Qed.

(** * Creation *)
Lemma create_spec m n a mass dn w norm : find_assay n (sl_assays m) = Ok (map Fin a) -> ndict_get (sl_water m) n = Ok (Fin w) -> ndict_get (sl_densities m) n = Ok (Fin dn) ->
  create_package m (Some n) (Fin mass) norm =
    Ok (pkg m (Fin dn) (mass * w)%Qc (scaled ((mass - mass * w) / (if norm then if Qc_eq_dec (Qcsum a) 0 then 1 else Qcsum a else 1)) a)).
Proof.
  intros H W D. unfold create_package, get_assay_total. rewrite H, W, D. cbn [bind]. rewrite fsum_fin. cbn [feq].
  set (t := if norm then if Qc_eq_dec (Qcsum a) 0 then 1%Qc else Qcsum a else 1%Qc).
  assert (T : t <> 0%Qc). { unfold t. destruct norm; [destruct (Qc_eq_dec (Qcsum a) 0)|]; auto; discriminate. }
  assert (E : (if norm then Ok (if Qc_eq_bool (Qcsum a) 0 then Fin 1 else Fin (Qcsum a)) else Ok (Fin 1)) = Ok (Fin t)).
  { unfold t. destruct norm; auto. unfold Qc_eq_bool. destruct (Qc_eq_dec (Qcsum a) 0); reflexivity. }
  cbn [bind] in E |- *. rewrite E. cbn [bind fmul fsub fopp fadd]. do 2 f_equal.
  rewrite map_map. cbn [fmul]. rewrite <- (map_map (fun x => ((mass + - (mass * w)) * x)%Qc) Fin). rewrite array_div_fin by auto. f_equal. unfold scaled. rewrite map_map. apply map_ext. intros; field; auto.
Qed.
