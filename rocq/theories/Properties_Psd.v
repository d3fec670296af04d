(** Theorems C38-C40 and C61 for packages of the psd module (size classes).
    [add p (APackage o)] is [p + o]; [sound p ms]: the masses of [p] are the
    numbers [ms], one per size class. *)
From Verif Require Import Prelude M_Text M_Lists M_Float M_Psd Spec_Material Spec_Psd P_Content P_Float P_Psd.
From Coq Require Import Field.
Local Open Scope string_scope.
Local Open Scope list_scope.
Local Open Scope Z_scope.

Definition q (a : Z) (b : positive) : Qc := Q2Qc (a # b).
Definition sand : material := mkpsm 1 [q 1 1; q 1 2; q 1 4] [("A", [Fin (q 1 5); Fin (q 2 5); Fin (q 1 5)]); ("Z", [Fin 0; Fin 0; Fin 0])].
Definition grit : material := mkpsm 2 [q 1 4; q 1 1] [].
Definition rock : material := mkpsm 3 [q 2 1] [].
Ltac qcs := vm_compute; repeat first [reflexivity | apply f_equal2 | apply (f_equal Fin); apply Qc_is_canon; reflexivity | apply Qc_is_canon; reflexivity].

(** A package of known masses is one of the packages of the lemmas. *)
Lemma sound_pkg p ms : sound p ms -> p = mkpsd (pk_material p) (map Fin ms).
Proof. intros [H _]. destruct p. cbn in *. now subst. Qed.
Lemma pkg_sound m ms : length ms = length (ps_classes m) -> sound (mkpsd m (map Fin ms)) ms.
Proof. split; auto. Qed.

Lemma map_repeat {A B} (f : A -> B) x n : map f (repeat x n) = repeat (f x) n.
Proof. induction n; cbn; congruence. Qed.

(** * C38 *)
Theorem C38_psd_normalised : forall m n a mass, find_assay n (ps_assays m) = Ok (map Fin a) -> length a = length (ps_classes m) -> Qcsum a <> 0%Qc ->
  exists p ms, create_package m (Some n) (Fin mass) true = Ok p /\ pk_material p = m /\ sound p ms /\
    get_mass p = Fin mass /\ ms = scaled (mass / Qcsum a) a.
Proof.
  intros m n a mass H L N. rewrite (create_normalised m n a mass H N). eexists _, _. split; [reflexivity|]. split; [reflexivity|]. split; [apply pkg_sound; unfold scaled; now rewrite map_length|].
  split; [|reflexivity]. rewrite get_mass_fin, sum_scaled. f_equal. field. auto.
Qed.
Print Assumptions C38_psd_normalised.
Theorem C38_psd_not_normalised : forall m n a mass, find_assay n (ps_assays m) = Ok (map Fin a) -> length a = length (ps_classes m) ->
  exists p ms, create_package m (Some n) (Fin mass) false = Ok p /\ pk_material p = m /\ sound p ms /\ ms = scaled mass a.
Proof. intros m n a mass H L. rewrite (create_raw m n a mass H). eexists _, _. split; [reflexivity|]. split; [reflexivity|]. split; [apply pkg_sound; unfold scaled; now rewrite map_length|reflexivity]. Qed.
Print Assumptions C38_psd_not_normalised.
Theorem C38_psd_unknown_assay : forall m n mass norm, (forall a, find_assay n (ps_assays m) <> Ok a) -> create_package m (Some n) mass norm = Err KeyError.
Proof.
  intros m n mass norm H. assert (E : find_assay n (ps_assays m) = Err KeyError).
  { revert H. generalize (ps_assays m). intros l. induction l as [|[k v] l IH]; cbn [find_assay]; auto. destruct (String.eqb k n); auto. intros H. exfalso. now apply (H v). }
  unfold create_package, get_assay_total. rewrite E. destruct norm; reflexivity.
Qed.
Print Assumptions C38_psd_unknown_assay.
Theorem C38_psd_empty : forall m mass norm, exists p ms, create_package m None mass norm = Ok p /\ pk_material p = m /\ sound p ms /\ get_mass p = Fin 0 /\ forall s, class_mass p ms s = 0%Qc.
Proof.
  intros m mass norm. exists (mkpsd m (create_empty_assay m)), (repeat 0%Qc (length (ps_classes m))). split; [reflexivity|]. split; [reflexivity|].
  assert (E : create_empty_assay m = map Fin (repeat 0%Qc (length (ps_classes m)))) by (unfold create_empty_assay; now rewrite map_repeat).
  split; [split; [exact E|apply repeat_length]|]. rewrite E, get_mass_fin.
  assert (Z : forall n, repeat 0%Qc n = scaled 0 (repeat 0%Qc n)). { intros n. unfold scaled. rewrite map_repeat. f_equal. }
  split; [rewrite Z, sum_scaled; f_equal; ring|]. intros s. unfold class_mass. cbn [pk_material]. rewrite Z, content_scaled. ring.
Qed.
Print Assumptions C38_psd_empty.
(** An assay of zeros gives, without an exception, masses that are not numbers. *)
Theorem C38_psd_zero_total : forall m n a mass, find_assay n (ps_assays m) = Ok (map Fin a) -> Qcsum a = 0%Qc ->
  exists ms, create_package m (Some n) (Fin mass) true = Ok (mkpsd m ms) /\ length ms = length a /\ forall x, In x ms -> forall v, x <> Fin v.
Proof. exact create_zero. Qed.
Print Assumptions C38_psd_zero_total.
(** An added assay can be used, and must have one value per size class and a new name. *)
Theorem C38_psd_add_assay : forall m n a, length a = length (ps_classes m) -> find_assay n (ps_assays m) = Err KeyError ->
  exists m', add_assay m n a = Ok m' /\ ps_id m' = ps_id m /\ ps_classes m' = ps_classes m /\ find_assay n (ps_assays m') = Ok a /\
    forall k, k <> n -> find_assay k (ps_assays m') = find_assay k (ps_assays m).
Proof.
  intros m n a L H. unfold add_assay. rewrite L, Nat.eqb_refl. cbn [negb].
  assert (E : existsb (fun kv => String.eqb (fst kv) n) (ps_assays m) = false).
  { revert H. induction (ps_assays m) as [|[k v] l IH]; cbn; auto. destruct (String.eqb k n); [discriminate|auto]. }
  rewrite E. eexists. split; [reflexivity|]. split; auto. split; auto. cbn [ps_assays]. clear E L. split.
  - revert H. induction (ps_assays m) as [|[k v] l IH]; cbn [find_assay app]; [rewrite String.eqb_refl; auto|]. destruct (String.eqb k n); [discriminate|auto].
  - intros k K. clear H. induction (ps_assays m) as [|[k' v] l IH]; cbn [find_assay app]; [|destruct (String.eqb k' k); auto].
    destruct (String.eqb n k) eqn:E; auto. apply String.eqb_eq in E. congruence.
Qed.
Print Assumptions C38_psd_add_assay.
Theorem C38_psd_add_assay_rejects : forall m n a, length a <> length (ps_classes m) \/ (exists b, find_assay n (ps_assays m) = Ok b) -> add_assay m n a = Err PyException.
Proof.
  intros m n a [H|[b H]]; unfold add_assay; destruct (Nat.eqb_spec (length a) (length (ps_classes m))) as [E|E]; cbn [negb]; auto; [congruence|].
  assert (X : existsb (fun kv => String.eqb (fst kv) n) (ps_assays m) = true); [|now rewrite X].
  revert H. induction (ps_assays m) as [|[k v] l IH]; cbn; [discriminate|]. destruct (String.eqb k n); auto.
Qed.
Print Assumptions C38_psd_add_assay_rejects.
Example C38_psd_example : find_assay "A" (ps_assays sand) = Ok (map Fin [q 1 5; q 2 5; q 1 5]) /\ Qcsum [q 1 5; q 2 5; q 1 5] <> 0%Qc /\
  create_package sand (Some "A") (Fin (q 8 1)) true = Ok (mkpsd sand (map Fin [q 2 1; q 4 1; q 2 1])).
Proof. split; [reflexivity|]. split; [vm_compute; discriminate|]. assert (E : forall a b, a = b -> Ok (mkpsd sand a) = Ok (mkpsd sand b)) by congruence. apply E. qcs. Qed.

(** * C39 *)
Theorem C39_psd_different_materials : forall p o ms ms', ps_id (pk_material p) <> ps_id (pk_material o) -> sound p ms -> sound o ms' ->
  NoDup (ps_classes (pk_material o)) -> incl (ps_classes (pk_material o)) (ps_classes (pk_material p)) ->
  exists r rs, add p (APackage o) = Ok r /\ pk_material r = pk_material p /\ sound r rs /\ get_mass r = fadd (get_mass p) (get_mass o) /\
    forall s, class_mass r rs s = (class_mass p ms s + class_mass o ms' s)%Qc.
Proof.
  intros p o ms ms' D Hp Ho N I. rewrite (sound_pkg _ _ Hp), (sound_pkg _ _ Ho). destruct Hp as [_ L], Ho as [_ L'].
  destruct (add_other (pk_material p) (pk_material o) ms ms' D L L' N I) as (rs & E & Lr & S & C). eexists _, rs. split; [exact E|]. split; [reflexivity|]. split; [apply pkg_sound; congruence|].
  split; [rewrite !get_mass_fin, S; reflexivity|exact C].
Qed.
Print Assumptions C39_psd_different_materials.
Theorem C39_psd_same_material : forall p o ms ms', pk_material p = pk_material o -> sound p ms -> sound o ms' ->
  exists r rs, add p (APackage o) = Ok r /\ pk_material r = pk_material p /\ sound r rs /\ get_mass r = fadd (get_mass p) (get_mass o) /\
    forall s, class_mass r rs s = (class_mass p ms s + class_mass o ms' s)%Qc.
Proof.
  intros p o ms ms' M Hp Ho. rewrite (sound_pkg _ _ Hp), (sound_pkg _ _ Ho). destruct Hp as [_ L], Ho as [_ L'].
  assert (LL : length ms = length ms') by congruence. eexists _, _. split; [apply add_same; [congruence|exact LL]|]. split; [reflexivity|]. split; [apply pkg_sound; rewrite plus_length; auto|].
  split; [rewrite !get_mass_fin, sum_plus by auto; reflexivity|]. intros s. unfold class_mass. cbn [pk_material]. rewrite <- M. apply content_plus; congruence.
Qed.
Print Assumptions C39_psd_same_material.
Theorem C39_psd_size_class : forall p ms s x v, sound p ms -> In s (ps_classes (pk_material p)) -> as_float v = Some (Fin x) ->
  exists r rs, add p (ATuple [NvFloat (Fin s); v]) = Ok r /\ pk_material r = pk_material p /\ sound r rs /\ get_mass r = fadd (get_mass p) (Fin x) /\
    forall d, class_mass r rs d = (class_mass p ms d + if qdec s d then x else 0)%Qc.
Proof.
  intros p ms s x v Hp I V. rewrite (sound_pkg _ _ Hp). destruct Hp as [_ L]. unfold add. cbn [size_class_mass_tuple]. rewrite V.
  destruct (add_class_fin (pk_material p) ms s x L I) as (rs & E & Lr & S & C). eexists _, rs. split; [exact E|]. split; [reflexivity|]. split; [apply pkg_sound; congruence|].
  split; [rewrite !get_mass_fin, S; reflexivity|exact C].
Qed.
Print Assumptions C39_psd_size_class.
(** A size class the first material lacks raises, and nothing is changed by [+]. *)
Theorem C39_psd_missing_class : forall p o ms ms' s, ps_id (pk_material p) <> ps_id (pk_material o) -> sound p ms -> sound o ms' -> NoDup (ps_classes (pk_material o)) ->
  In s (ps_classes (pk_material o)) -> ~ In s (ps_classes (pk_material p)) -> add p (APackage o) = Err TypeError.
Proof. intros p o ms ms' s D Hp Ho N I H. rewrite (sound_pkg _ _ Hp), (sound_pkg _ _ Ho). destruct Hp, Ho. now apply (add_other_missing _ _ _ _ s). Qed.
Print Assumptions C39_psd_missing_class.
Theorem C39_psd_unknown_class : forall p s v x, ~ In s (ps_classes (pk_material p)) -> as_float v = Some x -> add p (ATuple [NvFloat (Fin s); v]) = Err ValueError.
Proof. intros [m ms] s v x H V. unfold add. cbn [size_class_mass_tuple]. rewrite V. now apply add_class_absent. Qed.
Print Assumptions C39_psd_unknown_class.
Theorem C39_psd_add_to : forall p a, (forall r, add p a = Ok r -> add_to p a = (r, Ok tt)) /\ (forall e, add p a = Err e -> snd (add_to p a) = Err e).
Proof. exact add_to_add. Qed.
Print Assumptions C39_psd_add_to.
(** A failing [add_to] has already changed the package. *)
Theorem C39_psd_add_to_partial_change_refuted : exists p o ms ms' p', sound p ms /\ sound o ms' /\ add_to p (APackage o) = (p', Err TypeError) /\ get_mass p' <> get_mass p.
Proof.
  exists (mkpsd rock (map Fin [q 1 1])), (mkpsd (mkpsm 4 [q 2 1; q 3 1] []) (map Fin [q 5 1; q 7 1])), [q 1 1], [q 5 1; q 7 1]. eexists. split; [split; reflexivity|]. split; [split; reflexivity|].
  split; [vm_compute; reflexivity|]. vm_compute. discriminate.
Qed.
Print Assumptions C39_psd_add_to_partial_change_refuted.
Theorem C39_psd_scale : forall p ms k v, sound p ms -> as_float v = Some (Fin k) ->
  ((0 <= k)%Qc -> exists r, mul p v = Ok r /\ pk_material r = pk_material p /\ sound r (scaled k ms) /\ get_mass r = fmul (Fin k) (get_mass p)) /\
  ((k < 0)%Qc -> mul p v = Err PyException).
Proof.
  intros p ms k v Hp V. rewrite (sound_pkg _ _ Hp). destruct Hp as [_ L]. unfold mul. rewrite V. cbn [flt pk_material pk_masses]. split; intros H.
  - apply qlt_false in H. rewrite H, array_mul_fin. eexists. split; [reflexivity|]. split; [reflexivity|]. split; [apply pkg_sound; unfold scaled; now rewrite map_length|]. rewrite !get_mass_fin, sum_scaled. reflexivity.
  - apply qlt_iff in H. now rewrite H.
Qed.
Print Assumptions C39_psd_scale.
Example C39_psd_example : add (mkpsd sand (map Fin [q 1 1; q 2 1; q 3 1])) (APackage (mkpsd grit (map Fin [q 10 1; q 20 1]))) = Ok (mkpsd sand (map Fin [q 21 1; q 2 1; q 13 1])) /\
  NoDup (ps_classes grit) /\ incl (ps_classes grit) (ps_classes sand).
Proof.
  assert (D : forall x y : Qc, this x <> this y -> x <> y) by (intros x y H E; apply H; now rewrite E).
  split; [vm_compute; do 2 f_equal; repeat (f_equal; try (apply Qc_is_canon; reflexivity))|].
  split; [repeat constructor; cbn; intuition; match goal with H : _ = _ |- _ => revert H; apply D; vm_compute; discriminate end|].
  intros x [<-|[<-|[]]]; cbn; auto.
Qed.

(** * C40 *)
Section Extract.
Variable float_of : string -> res Qc.
Theorem C40_psd_mass : forall p ms x v, sound p ms -> as_float v = Some (Fin x) -> (x <= Qcsum ms)%Qc -> Qcsum ms <> 0%Qc ->
  exists p' r ps rs, extract float_of p (AVal v) = (p', Ok r) /\ pk_material p' = pk_material p /\ pk_material r = pk_material p /\ sound p' ps /\ sound r rs /\
    plus_lists rs ps = ms /\ get_mass r = Fin x /\ rs = scaled (x / Qcsum ms) ms.
Proof.
  intros p ms x v Hp V H N. rewrite (sound_pkg _ _ Hp). destruct Hp as [_ L]. rewrite (extract_mass float_of (pk_material p) ms x v V H N). eexists _, _, _, _. split; [reflexivity|].
  split; [reflexivity|]. split; [reflexivity|]. split; [apply pkg_sound; unfold scaled; now rewrite map_length|]. split; [apply pkg_sound; unfold scaled; now rewrite map_length|].
  split; [|split; [|reflexivity]].
  - clear. generalize (x / Qcsum ms)%Qc. intros k. unfold scaled. induction ms as [|y ms IH]; cbn [map plus_lists]; auto. rewrite IH. f_equal. ring.
  - rewrite get_mass_fin, sum_scaled. f_equal. field. auto.
Qed.
Theorem C40_psd_too_much : forall p ms x v, sound p ms -> as_float v = Some (Fin x) -> (Qcsum ms < x)%Qc -> extract float_of p (AVal v) = (p, Err PyException).
Proof. intros p ms x v Hp V H. rewrite (sound_pkg _ _ Hp). now apply extract_too_much with (x := x). Qed.
Theorem C40_psd_class_mass : forall p ms s x v, sound p ms -> NoDup (ps_classes (pk_material p)) -> In s (ps_classes (pk_material p)) -> as_float v = Some (Fin x) ->
  ((x <= class_mass p ms s)%Qc -> exists p' r ps rs, extract float_of p (ATuple [NvFloat (Fin s); v]) = (p', Ok r) /\ pk_material p' = pk_material p /\ pk_material r = pk_material p /\
      sound p' ps /\ sound r rs /\ plus_lists rs ps = ms /\ forall d, class_mass r rs d = if qdec s d then x else 0%Qc) /\
  ((class_mass p ms s < x)%Qc -> extract float_of p (ATuple [NvFloat (Fin s); v]) = (p, Err PyException)).
Proof.
  intros p ms s x v Hp N I V. pose proof (sound_pkg _ _ Hp) as E. destruct (index_total qdec _ _ I) as [i Ei]. destruct Hp as [_ L].
  destruct (take_class_fin (pk_material p) ms s i x L N Ei) as [A B]. unfold class_mass.
  assert (X : extract float_of p (ATuple [NvFloat (Fin s); v]) = take_class p i (Fin x)). { unfold extract. cbn [size_class_mass_tuple]. rewrite V. cbn [class_index]. unfold get_size_class_index. now rewrite Ei. }
  rewrite X. split; intros H.
  - destruct (A H) as (ps & rs & T & P & Lr & Lp & C). rewrite E. eexists _, _, ps, rs. split; [exact T|]. split; [reflexivity|]. split; [reflexivity|]. split; [apply pkg_sound; congruence|]. split; [apply pkg_sound; congruence|]. auto.
  - rewrite E at 1. rewrite (B H), <- E. reflexivity.
Qed.
Theorem C40_psd_class : forall p ms s t, sound p ms -> NoDup (ps_classes (pk_material p)) -> In s (ps_classes (pk_material p)) -> float_of t = Ok s ->
  exists p' r ps rs, extract float_of p (AVal (NvStr t)) = (p', Ok r) /\ pk_material p' = pk_material p /\ pk_material r = pk_material p /\
      sound p' ps /\ sound r rs /\ plus_lists rs ps = ms /\ forall d, class_mass r rs d = if qdec s d then class_mass p ms s else 0%Qc.
Proof.
  intros p ms s t Hp N I F. pose proof (sound_pkg _ _ Hp) as E. destruct (index_total qdec _ _ I) as [i Ei]. destruct Hp as [_ L].
  destruct (take_all_fin (pk_material p) ms s i L N Ei) as (ps & rs & T & P & Lr & Lp & C).
  assert (X : extract float_of p (AVal (NvStr t)) = take_all p i). { unfold extract, get_size_class_index. rewrite F. cbn [bind]. now rewrite Ei. }
  rewrite X, E. eexists _, _, ps, rs. split; [exact T|]. split; [reflexivity|]. split; [reflexivity|]. split; [apply pkg_sound; congruence|]. split; [apply pkg_sound; congruence|]. auto.
Qed.
Theorem C40_psd_unknown_class : forall p s v x t, ~ In s (ps_classes (pk_material p)) -> as_float v = Some x -> float_of t = Ok s ->
  extract float_of p (ATuple [NvFloat (Fin s); v]) = (p, Err ValueError) /\ extract float_of p (AVal (NvStr t)) = (p, Err ValueError).
Proof. intros p s v x t H V F. unfold extract, class_index, get_size_class_index. cbn [size_class_mass_tuple]. rewrite V, F. cbn [bind]. rewrite (index_absent qdec) by auto. auto. Qed.
(** A request that raises leaves the package as it was. *)
Theorem C40_psd_atomic : forall p a p' e, extract float_of p a = (p', Err e) -> p' = p.
Proof.
  intros p a p' e H.
  assert (Tc : forall i x, take_class p i x = (p', Err e) -> p' = p).
  { intros i x T. unfold take_class in T. destruct (get (pk_masses p) i) as [y|]; [|congruence]. destruct (flt y x); [congruence|].
    destruct (set_nth (pk_masses p) i (fsub y x)) as [ps|] eqn:E; [|congruence]. destruct (set_nth (array_mul ps (Fin 0)) i x) eqn:E'; [congruence|]. exfalso.
    clear T. revert i ps E E'. unfold array_mul. induction (pk_masses p) as [|z l IH]; intros [|i] ps E E'; cbn [set_nth] in E; try discriminate.
    - injection E as <-. cbn in E'. discriminate.
    - destruct (set_nth l i (fsub y x)) as [l0|] eqn:F; cbn [bind] in E; [|discriminate]. injection E as <-. cbn [map set_nth] in E'. destruct (set_nth (map _ l0) i x) eqn:G; cbn [bind] in E'; [discriminate|].
      apply (IH i l0); [exact F|]. rewrite G. congruence. }
  assert (Ta : forall i, take_all p i = (p', Err e) -> p' = p).
  { intros i T. unfold take_all in T. destruct (get (pk_masses p) i) as [y|]; [|congruence]. destruct (set_nth (array_mul _ _) i y), (set_nth (pk_masses p) i (Fin 0)); congruence. }
  unfold extract in H. destruct a as [o|l|v].
  - cbn in H. congruence.
  - destruct (size_class_mass_tuple (ATuple l)) as [[s x]|]; [|congruence]. destruct (class_index _ s) as [i|]; [eauto|congruence].
  - destruct v as [x|x|t|]; try (destruct (flt (get_mass p) x); congruence); [|cbn in H; congruence]. destruct (do y <- float_of t; _) as [i|]; [eauto|congruence].
Qed.
End Extract.
Print Assumptions C40_psd_mass.
Print Assumptions C40_psd_too_much.
Print Assumptions C40_psd_class_mass.
Print Assumptions C40_psd_class.
Print Assumptions C40_psd_unknown_class.
Print Assumptions C40_psd_atomic.
(** What is left and what was taken add up, class by class and in total. *)
Theorem C40_psd_classes : forall p p' r ms ps rs s, sound p ms -> sound p' ps -> sound r rs -> pk_material p' = pk_material p -> pk_material r = pk_material p -> plus_lists rs ps = ms ->
  (class_mass r rs s + class_mass p' ps s = class_mass p ms s)%Qc /\ fadd (get_mass r) (get_mass p') = get_mass p.
Proof.
  intros p p' r ms ps rs s Hp Hp' Hr M M' P. unfold class_mass. rewrite (sound_pkg _ _ Hp), (sound_pkg _ _ Hp'), (sound_pkg _ _ Hr), M, M'. destruct Hp as [_ L], Hp' as [_ L'], Hr as [_ L'']. cbn [pk_material].
  rewrite M in L'. rewrite M' in L''. split. - rewrite <- P. symmetry. apply content_plus; congruence. - rewrite !get_mass_fin, <- P, sum_plus by congruence. reflexivity.
Qed.
Print Assumptions C40_psd_classes.
(** Extracting nothing from an empty package makes every mass nan. *)
Theorem C40_psd_empty_refuted : forall float_of p ms, sound p ms -> Qcsum ms = 0%Qc -> exists p' r,
  extract float_of p (AVal (NvFloat (Fin 0))) = (p', Ok r) /\ pk_masses p' = map (fun _ => NaN) ms /\ pk_masses r = map (fun _ => NaN) ms.
Proof.
  intros f p ms Hp Z. rewrite (sound_pkg _ _ Hp). unfold extract. rewrite get_mass_fin, Z. cbn. eexists _, _. split; [reflexivity|]. cbn [pk_masses]. unfold array_mul. rewrite !map_map. split; reflexivity.
Qed.
Print Assumptions C40_psd_empty_refuted.
Example C40_psd_example : exists p' r, extract (fun _ => Ok (q 1 2)) (mkpsd sand (map Fin [q 1 1; q 2 1; q 3 1])) (ATuple [NvFloat (Fin (q 1 2)); NvNumpy (Fin (q 3 2))]) = (p', Ok r) /\
  pk_masses p' = map Fin [q 1 1; q 1 2; q 3 1] /\ pk_masses r = map Fin [0%Qc; q 3 2; 0%Qc].
Proof. eexists _, _. split; [vm_compute; reflexivity|]. split; cbn [pk_masses]; qcs. Qed.

(** * C61 *)
Theorem C61_psd_assay : forall p ms, sound p ms -> Qcsum ms <> 0%Qc ->
  exists a, get_assay p = map Fin a /\ Qcsum a = 1%Qc /\ scaled (Qcsum ms) a = ms.
Proof.
  intros p ms Hp N. rewrite (sound_pkg _ _ Hp). unfold get_assay. cbn [pk_masses]. rewrite fsum_fin, array_div_fin by auto. eexists. split; [reflexivity|].
  rewrite sum_scaled. split; [field; auto|].
  unfold scaled. rewrite map_map. generalize (Qcsum ms) N. intros k K. rewrite <- (map_id ms) at 2. apply map_ext. intros x. field. auto.
Qed.
Print Assumptions C61_psd_assay.
Theorem C61_psd_fraction : forall p ms s, sound p ms -> NoDup (ps_classes (pk_material p)) -> In s (ps_classes (pk_material p)) -> Qcsum ms <> 0%Qc ->
  get_size_class_mass_fraction p s = Ok (Fin (class_mass p ms s / Qcsum ms)%Qc).
Proof. intros p ms s Hp N I Z. rewrite (sound_pkg _ _ Hp). destruct Hp as [_ L]. unfold get_size_class_mass_fraction. rewrite get_class_fin by auto. cbn [bind]. rewrite get_mass_fin, fdiv_fin by auto. reflexivity. Qed.
Print Assumptions C61_psd_fraction.
Theorem C61_psd_clear : forall p ms, sound p ms -> pk_material (clear p) = pk_material p /\ sound (clear p) (map (fun _ => 0%Qc) ms) /\ get_mass (clear p) = Fin 0.
Proof.
  intros p ms Hp. rewrite (sound_pkg _ _ Hp). destruct Hp as [_ L]. unfold clear. cbn [pk_material pk_masses]. rewrite array_mul_fin.
  assert (E : scaled 0 ms = map (fun _ => 0%Qc) ms) by (unfold scaled; apply map_ext; intros; ring).
  split; auto. rewrite <- E. split; [apply pkg_sound; unfold scaled; now rewrite map_length|]. rewrite get_mass_fin, sum_scaled. f_equal. ring.
Qed.
Print Assumptions C61_psd_clear.
(** An empty package has no mass fractions: they are nan. *)
Theorem C61_psd_empty : forall p ms, sound p ms -> Forall (fun x => x = 0%Qc) ms -> get_assay p = map (fun _ => NaN) ms.
Proof.
  intros p ms Hp Z. rewrite (sound_pkg _ _ Hp). unfold get_assay. cbn [pk_masses]. rewrite fsum_fin.
  assert (S : Qcsum ms = 0%Qc) by (clear Hp; induction Z as [|x l E Z IH]; [reflexivity|rewrite sum_cons, E, IH; ring]). rewrite S. clear S Hp. unfold array_div. induction Z as [|x l E Z IH]; cbn [map]; auto. rewrite E, IH. reflexivity.
Qed.
Print Assumptions C61_psd_empty.
