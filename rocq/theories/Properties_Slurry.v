(** Theorems C38-C40, C42 and C61 for packages of the slurry module.
    [add p (APackage o)] is [p + o]; [sound p w ms]: the package holds water
    mass [w] and solid masses [ms], one per size class. *)
From Verif Require Import Prelude M_Text M_Lists M_Float M_Slurry Spec_Material Spec_Slurry P_Content P_Float P_Slurry.
From Coq Require Import Field.
Local Open Scope string_scope.
Local Open Scope list_scope.
Local Open Scope Z_scope.

Definition q (a : Z) (b : positive) : Qc := Q2Qc (a # b).
Definition pulp : material := mkslm 1 [q 1 1; q 1 2] [("A", [Fin (q 1 5); Fin (q 3 5)]); ("Z", [Fin 0; Fin 0])]
  [("A", Fin (q 4 1)); ("Z", Fin (q 4 1))] [("A", Fin (q 1 4)); ("Z", Fin (q 1 2))].
Definition tail : material := mkslm 2 [q 1 2] [] [] [].
Ltac qcs := vm_compute; repeat first [reflexivity | apply f_equal2 | apply (f_equal Fin); apply Qc_is_canon; reflexivity | apply Qc_is_canon; reflexivity].

Lemma sound_pkg p w ms : sound p w ms -> p = mksl (sk_material p) (sk_density p) (Fin w) (map Fin ms).
Proof. intros (H & H' & _). destruct p. cbn in *. now subst. Qed.
Lemma pkg_sound m d w ms : length ms = length (sl_classes m) -> sound (mksl m d (Fin w) (map Fin ms)) w ms.
Proof. split; [|split]; auto. Qed.

(** * C38 *)
(** Water gets its mass fraction, the solids the rest, in the proportions of the assay. *)
Theorem C38_slurry_normalised : forall m n a mass w d, find_assay n (sl_assays m) = Ok (map Fin a) -> ndict_get (sl_water m) n = Ok (Fin w) -> ndict_get (sl_densities m) n = Ok (Fin d) ->
  length a = length (sl_classes m) -> Qcsum a <> 0%Qc ->
  exists p ms, create_package m (Some n) (Fin mass) true = Ok p /\ sk_material p = m /\ sk_density p = Fin d /\ sound p (mass * w)%Qc ms /\
    get_mass p = Fin mass /\ get_solid_mass p = Fin (mass - mass * w)%Qc /\ ms = scaled ((mass - mass * w) / Qcsum a) a.
Proof.
  intros m n a mass w d H W D L N. rewrite (create_spec m n a mass d w true H W D). destruct (Qc_eq_dec (Qcsum a) 0) as [Z|_]; [contradiction|]. eexists _, _. split; [reflexivity|].
  split; [reflexivity|]. split; [reflexivity|]. split; [apply pkg_sound; unfold scaled; now rewrite map_length|]. rewrite get_mass_fin, get_solid_fin, sum_scaled.
  split; [f_equal; field; auto|]. split; [f_equal; field; auto|reflexivity].
Qed.
Print Assumptions C38_slurry_normalised.
Theorem C38_slurry_not_normalised : forall m n a mass w d, find_assay n (sl_assays m) = Ok (map Fin a) -> ndict_get (sl_water m) n = Ok (Fin w) -> ndict_get (sl_densities m) n = Ok (Fin d) ->
  length a = length (sl_classes m) ->
  exists p ms, create_package m (Some n) (Fin mass) false = Ok p /\ sk_material p = m /\ sk_density p = Fin d /\ sound p (mass * w)%Qc ms /\ ms = scaled (mass - mass * w) a.
Proof.
  intros m n a mass w d H W D L. rewrite (create_spec m n a mass d w false H W D). eexists _, _. split; [reflexivity|].
  split; [reflexivity|]. split; [reflexivity|]. split; [apply pkg_sound; unfold scaled; now rewrite map_length|]. unfold scaled. apply map_ext. intros x. field. discriminate.
Qed.
Print Assumptions C38_slurry_not_normalised.
Theorem C38_slurry_empty : forall m mass norm, exists p ms, create_package m None mass norm = Ok p /\ sk_material p = m /\ sound p 0 ms /\ sk_density p = Fin 1 /\ get_mass p = Fin 0 /\ get_volume p = Fin 0 /\ forall s, class_mass p ms s = 0%Qc.
Proof.
  intros m mass norm. exists (mksl m (Fin 1) (Fin 0) (create_empty_assay m)), (repeat 0%Qc (length (sl_classes m))). split; [reflexivity|]. split; [reflexivity|].
  assert (R : forall (f : Qc -> fl) x n, map f (repeat x n) = repeat (f x) n) by (intros f x n; induction n; cbn; congruence).
  assert (R' : forall (f : Qc -> Qc) x n, map f (repeat x n) = repeat (f x) n) by (intros f x n; induction n; cbn; congruence).
  assert (E : create_empty_assay m = map Fin (repeat 0%Qc (length (sl_classes m)))) by (unfold create_empty_assay; now rewrite R).
  assert (Z : forall n, repeat 0%Qc n = scaled 0 (repeat 0%Qc n)). { intros n. unfold scaled. rewrite R'. f_equal. }
  assert (S : Qcsum (repeat 0%Qc (length (sl_classes m))) = 0%Qc) by (rewrite Z, sum_scaled; ring).
  rewrite E. split; [apply pkg_sound, repeat_length|]. split; [reflexivity|]. rewrite get_mass_fin, get_volume_fin, S by discriminate. split; [reflexivity|]. split; [f_equal; field; discriminate|].
  intros s. unfold class_mass. cbn [sk_material]. rewrite Z, content_scaled. ring.
Qed.
Print Assumptions C38_slurry_empty.
(** An assay of zeros with water fraction below 1: the solids mass is lost. *)
Theorem C38_slurry_zero_total_refuted : exists p, create_package pulp (Some "Z") (Fin (q 8 1)) true = Ok p /\ get_mass p = Fin (q 4 1).
Proof. eexists. split; [vm_compute; reflexivity|]. qcs. Qed.
Print Assumptions C38_slurry_zero_total_refuted.
(** A rejected [add_assay] has already replaced the density and the water fraction of that name. *)
Theorem C38_slurry_rejected_assay_refuted : forall m n a d w b, find_assay n (sl_assays m) = Ok b ->
  exists m', add_assay m n (NvFloat d) (NvFloat w) a = (m', Err PyException) /\ sl_assays m' = sl_assays m /\ ndict_get (sl_densities m') n = Ok d /\ ndict_get (sl_water m') n = Ok w.
Proof.
  intros m n a d w b H. assert (X : existsb (fun kv => String.eqb (fst kv) n) (sl_assays m) = true). { revert H. induction (sl_assays m) as [|[k v] l IH]; cbn; [discriminate|]. destruct (String.eqb k n); auto. }
  assert (G : forall dc v, ndict_get (ndict_put dc n v) n = Ok v).
  { intros dc v. unfold ndict_put. destruct (existsb (fun e => String.eqb (fst e) n) dc) eqn:E.
    - induction dc as [|[k x] dc IH]; cbn in *; [discriminate|]. destruct (String.eqb k n) eqn:K; cbn; rewrite ?String.eqb_refl, ?K; auto.
    - induction dc as [|[k x] dc IH]; cbn in *; [now rewrite String.eqb_refl|]. destruct (String.eqb k n); cbn in *; [discriminate|auto]. }
  unfold add_assay. rewrite X. destruct (negb _); eexists; (split; [reflexivity|]); cbn; auto.
Qed.
Print Assumptions C38_slurry_rejected_assay_refuted.
Example C38_slurry_example : find_assay "A" (sl_assays pulp) = Ok (map Fin [q 1 5; q 3 5]) /\ ndict_get (sl_water pulp) "A" = Ok (Fin (q 1 4)) /\ Qcsum [q 1 5; q 3 5] <> 0%Qc /\
  exists p, create_package pulp (Some "A") (Fin (q 16 1)) true = Ok p /\ sk_water p = Fin (q 4 1) /\ sk_masses p = map Fin [q 3 1; q 9 1].
Proof. split; [reflexivity|]. split; [reflexivity|]. split; [vm_compute; discriminate|]. eexists. split; [vm_compute; reflexivity|]. cbn [sk_water sk_masses]. split; qcs. Qed.

(** * C39 *)
Theorem C39_slurry_packages : forall p o w w' ms ms', sound p w ms -> sound o w' ms' -> same_objects (sk_material p) (sk_material o) -> addable p o ->
  exists r rs, add p (APackage o) = Ok r /\ sk_material r = sk_material p /\ sound r (w + w')%Qc rs /\ get_mass r = fadd (get_mass p) (get_mass o) /\
    get_solid_mass r = fadd (get_solid_mass p) (get_solid_mass o) /\ forall s, class_mass r rs s = (class_mass p ms s + class_mass o ms' s)%Qc.
Proof.
  intros p o w w' ms ms' Hp Ho Id A. unfold addable, same_objects in *. rewrite (sound_pkg _ _ _ Hp), (sound_pkg _ _ _ Ho). destruct Hp as (_ & _ & L), Ho as (_ & _ & L').
  destruct (add_packages (sk_material p) (sk_density p) w ms (sk_material o) (sk_density o) w' ms' L L' Id A) as (rs & E & Lr & S & C).
  eexists _, rs. split; [exact E|]. split; [reflexivity|]. split; [apply pkg_sound; congruence|]. rewrite !get_mass_fin, !get_solid_fin, S. cbn [fadd]. split; [f_equal; ring|]. split; [reflexivity|exact C].
Qed.
Print Assumptions C39_slurry_packages.
Theorem C39_slurry_size_class : forall p w ms s x v, sound p w ms -> In s (sl_classes (sk_material p)) -> as_float v = Some (Fin x) ->
  exists r rs, add p (ATuple [NvFloat (Fin s); v]) = Ok r /\ sk_material r = sk_material p /\ sound r w rs /\ get_mass r = fadd (get_mass p) (Fin x) /\ sk_density r = sk_density p /\
    forall d, class_mass r rs d = (class_mass p ms d + if qdec s d then x else 0)%Qc.
Proof.
  intros p w ms s x v Hp I V. rewrite (sound_pkg _ _ _ Hp). destruct Hp as (_ & _ & L). unfold add. cbn [water_mass_tuple size_class_mass_tuple]. rewrite V.
  destruct (add_class_fin (sk_material p) (sk_density p) w ms s x L I) as (rs & E & Lr & S & C). eexists _, rs. split; [exact E|]. split; [reflexivity|]. split; [apply pkg_sound; congruence|].
  split; [rewrite !get_mass_fin, S; cbn [fadd]; f_equal; ring|]. split; [reflexivity|exact C].
Qed.
Print Assumptions C39_slurry_size_class.
Theorem C39_slurry_water : forall p w ms x v, sound p w ms -> as_float v = Some (Fin x) ->
  exists r, add p (ATuple [NvStr "H2O"; v]) = Ok r /\ sk_material r = sk_material p /\ sk_density r = sk_density p /\ sound r (w + x)%Qc ms /\ get_mass r = fadd (get_mass p) (Fin x).
Proof.
  intros p w ms x v Hp V. rewrite (sound_pkg _ _ _ Hp). destruct Hp as (_ & _ & L). unfold add. cbn [water_mass_tuple]. rewrite V. cbn [sk_material sk_density sk_water sk_masses fadd]. eexists. split; [reflexivity|]. split; [reflexivity|]. split; [reflexivity|].
  split; [now apply pkg_sound|]. rewrite !get_mass_fin. cbn [fadd]. f_equal. ring.
Qed.
Print Assumptions C39_slurry_water.
(** Any other name is taken for water too. *)
Theorem C39_slurry_any_name_is_water_refuted : forall p w ms x v k, sound p w ms -> as_float v = Some (Fin x) ->
  exists r, add p (ATuple [NvStr k; v]) = Ok r /\ sound r (w + x)%Qc ms.
Proof.
  intros p w ms x v k Hp V. rewrite (sound_pkg _ _ _ Hp). destruct Hp as (_ & _ & L). unfold add. cbn [water_mass_tuple]. rewrite V. cbn [sk_material sk_density sk_water sk_masses fadd]. eexists. split; [reflexivity|]. now apply pkg_sound.
Qed.
Print Assumptions C39_slurry_any_name_is_water_refuted.
Theorem C39_slurry_scale : forall p w ms k v, sound p w ms -> as_float v = Some (Fin k) ->
  ((0 <= k)%Qc -> exists r, mul p v = Ok r /\ sk_material r = sk_material p /\ sk_density r = sk_density p /\ sound r (k * w)%Qc (scaled k ms) /\ get_mass r = fmul (Fin k) (get_mass p)) /\
  ((k < 0)%Qc -> mul p v = Err PyException).
Proof.
  intros p w ms k v Hp V. rewrite (sound_pkg _ _ _ Hp). destruct Hp as (_ & _ & L). unfold mul. rewrite V. cbn [flt sk_material sk_masses sk_density sk_water fmul]. split; intros H.
  - apply qlt_false in H. rewrite H, array_mul_fin. replace (w * k)%Qc with (k * w)%Qc by ring. eexists. split; [reflexivity|]. split; [reflexivity|]. split; [reflexivity|]. split; [apply pkg_sound; unfold scaled; now rewrite map_length|]. rewrite !get_mass_fin, sum_scaled. cbn [fmul]. f_equal. ring.
  - apply qlt_iff in H. now rewrite H.
Qed.
Print Assumptions C39_slurry_scale.
Example C39_slurry_example : exists r, add (mksl pulp (Fin (q 4 1)) (Fin (q 1 1)) (map Fin [q 1 1; q 2 1])) (APackage (mksl tail (Fin (q 2 1)) (Fin (q 5 1)) (map Fin [q 3 1]))) = Ok r /\
  sk_water r = Fin (q 6 1) /\ sk_masses r = map Fin [q 1 1; q 5 1] /\ sk_density r = Fin (q 8 3).
Proof. eexists. split; [vm_compute; reflexivity|]. cbn [sk_water sk_masses sk_density]. split; [|split]; qcs. Qed.

(** * C40 *)
Section Extract.
Variable float_of : string -> res Qc.
Theorem C40_slurry_mass : forall p w ms x v, sound p w ms -> as_float v = Some (Fin x) -> (x <= Qcsum ms + w)%Qc -> (Qcsum ms + w <> 0)%Qc ->
  exists p' r w1 w2 ps rs, extract float_of p (AVal v) = (p', Ok r) /\ sk_material p' = sk_material p /\ sk_material r = sk_material p /\ sk_density p' = sk_density p /\ sk_density r = sk_density p /\
    sound p' w1 ps /\ sound r w2 rs /\ plus_lists rs ps = ms /\ (w2 + w1 = w)%Qc /\ get_mass r = Fin x /\ rs = scaled (x / (Qcsum ms + w)) ms /\ w2 = (x / (Qcsum ms + w) * w)%Qc.
Proof.
  intros p w ms x v Hp V H N. rewrite (sound_pkg _ _ _ Hp). destruct Hp as (_ & _ & L). rewrite (extract_mass float_of (sk_material p) (sk_density p) w ms x v V H N). eexists _, _, _, _, _, _. split; [reflexivity|].
  do 4 (split; [reflexivity|]). do 2 (split; [apply pkg_sound; unfold scaled; now rewrite map_length|]).
  split; [|split; [|split; [|split; reflexivity]]].
  - generalize (x / (Qcsum ms + w))%Qc. clear. intros k. unfold scaled. induction ms as [|y ms IH]; cbn [map plus_lists]; auto. rewrite IH. f_equal. ring.
  - ring.
  - rewrite get_mass_fin, sum_scaled. f_equal. field. auto.
Qed.
Theorem C40_slurry_too_much : forall p w ms x v, sound p w ms -> as_float v = Some (Fin x) -> (Qcsum ms + w < x)%Qc -> extract float_of p (AVal v) = (p, Err PyException).
Proof. intros p w ms x v Hp V H. rewrite (sound_pkg _ _ _ Hp). now apply extract_too_much with (x := x). Qed.
Theorem C40_slurry_water : forall p w ms x v, sound p w ms -> as_float v = Some (Fin x) ->
  ((x <= w)%Qc -> exists p' r, extract float_of p (ATuple [NvStr "H2O"; v]) = (p', Ok r) /\ sk_material p' = sk_material p /\ sk_material r = sk_material p /\
      sk_density p' = sk_density p /\ sk_density r = sk_density p /\ sound p' (w - x)%Qc ms /\ sound r x (map (fun _ => 0%Qc) ms)) /\
  ((w < x)%Qc -> extract float_of p (ATuple [NvStr "H2O"; v]) = (p, Err PyException)).
Proof.
  intros p w ms x v Hp V. pose proof (sound_pkg _ _ _ Hp) as E. destruct Hp as (_ & _ & L). destruct (extract_water float_of (sk_material p) (sk_density p) w ms x v "H2O" V) as [A B]. split; intros H.
  - destruct (A H) as (zs & X & Z). rewrite E. eexists _, _. split; [exact X|]. do 4 (split; [reflexivity|]). split; [now apply pkg_sound|].
    assert (Z' : zs = map (fun _ => 0%Qc) ms) by (rewrite Z; clear; induction ms; cbn; congruence). rewrite <- Z'. apply pkg_sound. rewrite Z, repeat_length. exact L.
  - rewrite E at 1. rewrite (B H), <- E. reflexivity.
Qed.
(** Taking solids takes no water. *)
Theorem C40_slurry_class_mass : forall p w ms s x v, sound p w ms -> NoDup (sl_classes (sk_material p)) -> In s (sl_classes (sk_material p)) -> as_float v = Some (Fin x) ->
  ((x <= class_mass p ms s)%Qc -> exists p' r ps rs, extract float_of p (ATuple [NvFloat (Fin s); v]) = (p', Ok r) /\ sk_material p' = sk_material p /\ sk_material r = sk_material p /\
      sk_density p' = sk_density p /\ sk_density r = sk_density p /\ sound p' w ps /\ sound r 0 rs /\ plus_lists rs ps = ms /\ forall d, class_mass r rs d = if qdec s d then x else 0%Qc) /\
  ((class_mass p ms s < x)%Qc -> extract float_of p (ATuple [NvFloat (Fin s); v]) = (p, Err PyException)).
Proof.
  intros p w ms s x v Hp N I V. pose proof (sound_pkg _ _ _ Hp) as E. destruct (index_total qdec _ _ I) as [i Ei]. destruct Hp as (_ & _ & L).
  destruct (take_class_fin (sk_material p) (sk_density p) w ms s i x L N Ei) as [A B]. unfold class_mass.
  assert (X : extract float_of p (ATuple [NvFloat (Fin s); v]) = take_class p i (Fin x)). { unfold extract. cbn [water_mass_tuple size_class_mass_tuple]. rewrite V. cbn [class_index]. unfold get_size_class_index. now rewrite Ei. }
  rewrite X. split; intros H.
  - destruct (A H) as (ps & rs & T & P & Lr & Lp & C). rewrite E. eexists _, _, ps, rs. split; [exact T|]. do 4 (split; [reflexivity|]). split; [apply pkg_sound; congruence|]. split; [apply pkg_sound; congruence|]. auto.
  - rewrite E at 1. rewrite (B H), <- E. reflexivity.
Qed.
Theorem C40_slurry_class : forall p w ms s t, sound p w ms -> NoDup (sl_classes (sk_material p)) -> In s (sl_classes (sk_material p)) -> float_of t = Ok s ->
  exists p' r ps rs, extract float_of p (AVal (NvStr t)) = (p', Ok r) /\ sk_material p' = sk_material p /\ sk_material r = sk_material p /\
      sk_density p' = sk_density p /\ sk_density r = sk_density p /\ sound p' w ps /\ sound r 0 rs /\ plus_lists rs ps = ms /\ forall d, class_mass r rs d = if qdec s d then class_mass p ms s else 0%Qc.
Proof.
  intros p w ms s t Hp N I F. pose proof (sound_pkg _ _ _ Hp) as E. destruct (index_total qdec _ _ I) as [i Ei]. destruct Hp as (_ & _ & L).
  destruct (take_all_fin (sk_material p) (sk_density p) w ms s i L N Ei) as (ps & rs & T & P & Lr & Lp & C).
  assert (X : extract float_of p (AVal (NvStr t)) = take_all p i). { unfold extract, get_size_class_index. rewrite F. cbn [bind]. now rewrite Ei. }
  rewrite X, E. eexists _, _, ps, rs. split; [exact T|]. do 4 (split; [reflexivity|]). split; [apply pkg_sound; congruence|]. split; [apply pkg_sound; congruence|]. auto.
Qed.
(** The documented request for all the water ("H2O") is read as a number. *)
Theorem C40_slurry_all_water_refuted : forall p, float_of "H2O" = Err ValueError -> extract float_of p (AVal (NvStr "H2O")) = (p, Err ValueError).
Proof. intros p H. unfold extract. now rewrite H. Qed.
(** A request that raises leaves the package as it was. *)
Theorem C40_slurry_atomic : forall p a p' e, extract float_of p a = (p', Err e) -> p' = p.
Proof.
  intros p a p' e H.
  assert (Tc : forall i x, take_class p i x = (p', Err e) -> p' = p).
  { intros i x T. unfold take_class in T. destruct (get (sk_masses p) i) as [y|]; [|congruence]. destruct (flt y x); [congruence|].
    destruct (set_nth (sk_masses p) i (fsub y x)) as [ps|] eqn:E; [|congruence]. destruct (set_nth (array_mul ps (Fin 0)) i x) eqn:E'; [congruence|]. exfalso.
    clear T. revert i ps E E'. unfold array_mul. induction (sk_masses p) as [|z l IH]; intros [|i] ps E E'; cbn [set_nth] in E; try discriminate.
    - injection E as <-. cbn in E'. discriminate.
    - destruct (set_nth l i (fsub y x)) as [l0|] eqn:F; cbn [bind] in E; [|discriminate]. injection E as <-. cbn [map set_nth] in E'. destruct (set_nth (map _ l0) i x) eqn:G; cbn [bind] in E'; [discriminate|].
      apply (IH i l0); [exact F|]. rewrite G. congruence. }
  assert (Ta : forall i, take_all p i = (p', Err e) -> p' = p).
  { intros i T. unfold take_all in T. destruct (get (sk_masses p) i) as [y|]; [|congruence]. destruct (set_nth (array_mul _ _) i y), (set_nth (sk_masses p) i (Fin 0)); congruence. }
  unfold extract in H. destruct a as [o|l|v].
  - cbn in H. congruence.
  - destruct (water_mass_tuple (ATuple l)) as [x|]; [destruct (flt (sk_water p) x); congruence|]. destruct (size_class_mass_tuple (ATuple l)) as [[s x]|]; [|congruence]. destruct (class_index _ s) as [i|]; [eauto|congruence].
  - destruct v as [x|x|t|]; try (destruct (flt (get_mass p) x); congruence); [|cbn in H; congruence]. destruct (do y <- float_of t; _) as [i|]; [eauto|congruence].
Qed.
End Extract.
Print Assumptions C40_slurry_mass.
Print Assumptions C40_slurry_too_much.
Print Assumptions C40_slurry_water.
Print Assumptions C40_slurry_class_mass.
Print Assumptions C40_slurry_class.
Print Assumptions C40_slurry_all_water_refuted.
Print Assumptions C40_slurry_atomic.
Example C40_slurry_example : exists p' r, extract (fun _ => Err ValueError) (mksl pulp (Fin (q 4 1)) (Fin (q 1 1)) (map Fin [q 1 1; q 2 1])) (AVal (NvFloat (Fin (q 2 1)))) = (p', Ok r) /\
  sk_water p' = Fin (q 1 2) /\ sk_masses p' = map Fin [q 1 2; q 1 1] /\ sk_water r = Fin (q 1 2) /\ sk_masses r = map Fin [q 1 2; q 1 1].
Proof. eexists _, _. split; [vm_compute; reflexivity|]. cbn [sk_water sk_masses]. repeat split; qcs. Qed.

Lemma pos_plus (a b : Qc) : (0 < a)%Qc -> (0 <= b)%Qc -> (0 < a + b)%Qc.
Proof.
  intros A B. apply Qclt_le_trans with a; auto. replace a with (a + 0)%Qc at 1 by ring. apply Qcplus_le_compat; [apply Qcle_refl|auto].
Qed.
Lemma plus_pos (a b : Qc) : (0 <= a)%Qc -> (0 < b)%Qc -> (0 < a + b)%Qc.
Proof. intros A B. rewrite Qcplus_comm. now apply pos_plus. Qed.

(** * C42 *)
Theorem C42_volume : forall p w ms d, sound p w ms -> sk_density p = Fin d -> d <> 0%Qc ->
  get_volume p = Fin (w / 1 + Qcsum ms / d)%Qc /\ get_solid_mass p = Fin (Qcsum ms) /\ get_mass p = Fin (Qcsum ms + w)%Qc.
Proof.
  intros p w ms d Hp D N. rewrite (sound_pkg _ _ _ Hp), D, get_volume_fin, get_solid_fin, get_mass_fin by auto. split; auto. f_equal. field. split; auto. discriminate.
Qed.
Print Assumptions C42_volume.
(** Mass, solids, water and volume add; the density stays the mass of the solids
    over their volume. *)
Theorem C42_add_partial : forall p o w w' ms ms' d d', sound p w ms -> sound o w' ms' -> same_objects (sk_material p) (sk_material o) -> addable p o ->
  sk_density p = Fin d -> sk_density o = Fin d' -> (0 < d)%Qc -> (0 < d')%Qc -> (0 <= Qcsum ms)%Qc -> (0 <= Qcsum ms')%Qc -> (Qcsum ms + Qcsum ms' <> 0)%Qc ->
  exists r rs dr, add p (APackage o) = Ok r /\ sound r (w + w')%Qc rs /\ sk_density r = Fin dr /\ (0 < dr)%Qc /\
    get_volume r = fadd (get_volume p) (get_volume o) /\ get_solid_mass r = fadd (get_solid_mass p) (get_solid_mass o) /\ get_mass r = fadd (get_mass p) (get_mass o) /\
    (Qcsum rs = dr * (Qcsum ms / d + Qcsum ms' / d'))%Qc.
Proof.
  intros p o w w' ms ms' d d' Hp Ho Id A Dp Do Pd Pd' Sp So N. destruct (C39_slurry_packages p o w w' ms ms' Hp Ho Id A) as (r & rs & E & M & Hr & G & S & _).
  assert (Nd : d <> 0%Qc) by (intros ->; now apply Qclt_not_eq in Pd). assert (Nd' : d' <> 0%Qc) by (intros ->; now apply Qclt_not_eq in Pd').
  assert (P : forall a b : Qc, (0 < a)%Qc -> (0 <= b)%Qc -> (0 <= b / a)%Qc).
  { intros a b Ha Hb. replace 0%Qc with (0 * / a)%Qc by ring. apply Qcmult_le_compat_r; auto. apply Qclt_le_weak. clear - Ha. destruct a as [a Ca]. unfold Qclt in *. cbn in *. rewrite Qred_correct. now apply Qinv_lt_0_compat. }
  assert (Pi : forall a b : Qc, (0 < a)%Qc -> (0 < b)%Qc -> (0 < b / a)%Qc).
  { intros a b Ha Hb. replace 0%Qc with (0 * / a)%Qc by ring. apply Qcmult_lt_compat_r; auto. clear - Ha. destruct a as [a Ca]. unfold Qclt in *. cbn in *. rewrite Qred_correct. now apply Qinv_lt_0_compat. }
  set (v := (Qcsum ms / d + Qcsum ms' / d')%Qc).
  assert (T : (0 < Qcsum ms)%Qc \/ (0 < Qcsum ms')%Qc).
  { destruct (Qcle_lt_or_eq _ _ Sp) as [|e]; auto. destruct (Qcle_lt_or_eq _ _ So) as [|e']; auto. exfalso. apply N. rewrite <- e, <- e'. ring. }
  assert (Ps : (0 < Qcsum ms + Qcsum ms')%Qc). { destruct T as [T|T]; [apply pos_plus|apply plus_pos]; auto. }
  assert (Pv : (0 < v)%Qc). { unfold v. destruct T as [T|T]; [apply pos_plus|apply plus_pos]; auto. }
  assert (Nv : v <> 0%Qc) by (intros Z; rewrite Z in Pv; now apply Qclt_not_eq in Pv).
  pose proof (sound_pkg _ _ _ Hp) as Ep. pose proof (sound_pkg _ _ _ Ho) as Eo. rewrite Dp in Ep. rewrite Do in Eo.
  assert (Dr : sk_density r = Fin ((Qcsum ms + Qcsum ms') / v)%Qc).
  { destruct (add_packages (sk_material p) (Fin d) w ms (sk_material o) (Fin d') w' ms') as (rs' & E' & _); [apply Hp|apply Ho|exact Id|exact A|]. rewrite <- Ep, <- Eo in E'. rewrite E in E'. injection E' as ->. cbn [sk_density].
    rewrite Ep, Eo. apply mixed_fin; auto. }
  exists r, rs, ((Qcsum ms + Qcsum ms') / v)%Qc. split; auto. split; auto. split; auto. split; [now apply Pi|].
  assert (Sr : Qcsum rs = (Qcsum ms + Qcsum ms')%Qc). { rewrite (sound_pkg _ _ _ Hr), Ep, Eo, !get_solid_fin in S. cbn [fadd] in S. congruence. }
  split; [|split; [exact S|split; [exact G|]]].
  - rewrite (sound_pkg _ _ _ Hr), Dr, Ep, Eo. assert (Nq : ((Qcsum ms + Qcsum ms') / v <> 0)%Qc). { intros Z. apply N. replace (Qcsum ms + Qcsum ms')%Qc with ((Qcsum ms + Qcsum ms') / v * v)%Qc by (field; auto). rewrite Z. ring. }
    rewrite !get_volume_fin by auto. cbn [fadd]. rewrite Sr. f_equal. unfold v in *. now apply volume_adds.
  - rewrite Sr. field. auto.
Qed.
Print Assumptions C42_add_partial.
(** Two packages of water: the density, and so the volume, of the sum is nan. *)
Theorem C42_water_refuted : forall p o w w' ms ms' d d', sound p w ms -> sound o w' ms' -> same_objects (sk_material p) (sk_material o) -> addable p o ->
  sk_density p = Fin d -> sk_density o = Fin d' -> d <> 0%Qc -> d' <> 0%Qc -> Qcsum ms = 0%Qc -> Qcsum ms' = 0%Qc ->
  exists r, add p (APackage o) = Ok r /\ sk_density r = NaN /\ get_volume r = NaN /\ get_volume p = Fin w /\ get_volume o = Fin w'.
Proof.
  intros p o w w' ms ms' d d' Hp Ho Id A Dp Do N N' Z Z'. pose proof (sound_pkg _ _ _ Hp) as Ep. pose proof (sound_pkg _ _ _ Ho) as Eo. rewrite Dp in Ep. rewrite Do in Eo.
  destruct (add_packages (sk_material p) (Fin d) w ms (sk_material o) (Fin d') w' ms') as (rs & E & _ & S & _); [apply Hp|apply Ho|exact Id|exact A|]. rewrite <- Ep, <- Eo in E. exists (mksl (sk_material p) (mixed_density p o) (Fin (w + w')%Qc) (map Fin rs)). split; [exact E|].
  assert (D : mixed_density p o = NaN) by (rewrite Ep, Eo; now apply mixed_nan). rewrite D. cbn [sk_density]. split; auto. split.
  - unfold get_volume. rewrite get_solid_fin. cbn. reflexivity.
  - rewrite Ep, Eo, !get_volume_fin, Z, Z' by auto. split; f_equal; field; auto.
Qed.
Print Assumptions C42_water_refuted.
(** Taking a mass, or solids, or water out splits the volume. *)
Theorem C42_extract : forall p p' r w ms w1 w2 ps rs d, sound p w ms -> sound p' w1 ps -> sound r w2 rs -> sk_density p = Fin d -> sk_density p' = Fin d -> sk_density r = Fin d -> d <> 0%Qc ->
  length rs = length ps -> plus_lists rs ps = ms -> (w2 + w1 = w)%Qc -> fadd (get_volume r) (get_volume p') = get_volume p /\ fadd (get_mass r) (get_mass p') = get_mass p.
Proof.
  intros p p' r w ms w1 w2 ps rs d Hp Hp' Hr D D' D'' N L P W. rewrite (sound_pkg _ _ _ Hp), (sound_pkg _ _ _ Hp'), (sound_pkg _ _ _ Hr), D, D', D'', !get_volume_fin, !get_mass_fin by auto. cbn [fadd]. subst ms w. rewrite sum_plus by auto.
  split; f_equal; [field; auto|ring].
Qed.
Print Assumptions C42_extract.
Theorem C42_fractions : forall p w ms d, sound p w ms -> sk_density p = Fin d -> d <> 0%Qc -> (Qcsum ms + w <> 0)%Qc -> (w + Qcsum ms / d <> 0)%Qc ->
  get_mass_fraction_solids p = Fin (Qcsum ms / (Qcsum ms + w))%Qc /\ get_volume_fraction_solids p = Fin ((Qcsum ms / d) / (w + Qcsum ms / d))%Qc /\
  get_density p = Fin ((Qcsum ms + w) / (w + Qcsum ms / d))%Qc.
Proof.
  intros p w ms d Hp D N M V. rewrite (sound_pkg _ _ _ Hp), D. unfold get_mass_fraction_solids, get_volume_fraction_solids, get_density. rewrite get_volume_fin, get_mass_fin, get_solid_fin by auto. cbn [sk_water]. rewrite fdiv_one, !fdiv_fin by auto.
  split; auto. split; auto. cbn [fsub fopp fadd]. f_equal. set (x := (Qcsum ms / d)%Qc) in *. field. auto.
Qed.
Print Assumptions C42_fractions.
Example C42_example : get_volume (mksl pulp (Fin (q 4 1)) (Fin (q 1 1)) (map Fin [q 1 1; q 3 1])) = Fin (q 2 1).
Proof. qcs. Qed.
Example C42_water_example : sound (mksl pulp (Fin 1) (Fin (q 2 1)) (map Fin [0%Qc; 0%Qc])) (q 2 1) [0%Qc; 0%Qc] /\ exists r,
  add (mksl pulp (Fin 1) (Fin (q 2 1)) (map Fin [0%Qc; 0%Qc])) (APackage (mksl pulp (Fin 1) (Fin (q 2 1)) (map Fin [0%Qc; 0%Qc]))) = Ok r /\ get_volume r = NaN.
Proof. split; [split; [|split]; reflexivity|]. eexists. split; [vm_compute; reflexivity|]. reflexivity. Qed.

(** * C61 *)
Theorem C61_slurry_assay : forall p w ms, sound p w ms -> Qcsum ms <> 0%Qc ->
  exists a, get_assay p = map Fin a /\ Qcsum a = 1%Qc /\ scaled (Qcsum ms) a = ms.
Proof.
  intros p w ms Hp N. rewrite (sound_pkg _ _ _ Hp). unfold get_assay. cbn [sk_masses]. rewrite fsum_fin, array_div_fin by auto. eexists. split; [reflexivity|].
  rewrite sum_scaled. split; [field; auto|]. unfold scaled. rewrite map_map. generalize (Qcsum ms) N. intros k K. rewrite <- (map_id ms) at 2. apply map_ext. intros x. field. auto.
Qed.
Print Assumptions C61_slurry_assay.
Theorem C61_slurry_fraction : forall p w ms s, sound p w ms -> NoDup (sl_classes (sk_material p)) -> In s (sl_classes (sk_material p)) -> Qcsum ms <> 0%Qc ->
  get_size_class_mass_fraction p s = Ok (Fin (class_mass p ms s / Qcsum ms)%Qc).
Proof. intros p w ms s Hp N I Z. rewrite (sound_pkg _ _ _ Hp). destruct Hp as (_ & _ & L). unfold get_size_class_mass_fraction. rewrite get_class_fin by auto. cbn [bind]. rewrite get_solid_fin, fdiv_fin by auto. reflexivity. Qed.
Print Assumptions C61_slurry_fraction.
Theorem C61_slurry_clear : forall p w ms, sound p w ms -> sk_material (clear p) = sk_material p /\ sound (clear p) 0 (map (fun _ => 0%Qc) ms) /\ get_mass (clear p) = Fin 0.
Proof.
  intros p w ms Hp. rewrite (sound_pkg _ _ _ Hp). destruct Hp as (_ & _ & L). unfold clear. cbn [sk_material sk_masses]. rewrite array_mul_fin.
  assert (E : scaled 0 ms = map (fun _ => 0%Qc) ms) by (unfold scaled; apply map_ext; intros; ring).
  split; auto. rewrite <- E. split; [apply pkg_sound; unfold scaled; now rewrite map_length|]. rewrite get_mass_fin, sum_scaled. apply f_equal. ring.
Qed.
Print Assumptions C61_slurry_clear.
