(** C41, C62: molar amounts of the single compounds of a package or stream. *)
From Verif Require Import Prelude M_Elements M_Stoichiometry M_Lists M_Thermochem M_ThermoMat M_Streams Spec_Stoich Spec_ThermoMat P_Content.
From Verif Require P_ThermoElem Properties_ThermoMat.
From Coq Require Import Reals.
Local Open Scope list_scope.
Local Open Scope R_scope.

Lemma set_nth_mid {A} (pre : list A) x y post : set_nth (pre ++ x :: post) (length pre) y = Ok (pre ++ y :: post).
Proof. induction pre as [|z pre IH]; [reflexivity|]. cbn [app length set_nth]. now rewrite IH. Qed.
Lemma get_mid {A} (pre : list A) x post : get (pre ++ x :: post) (length pre) = Ok x.
Proof. unfold get. rewrite nth_error_app2 by lia. now rewrite Nat.sub_diag. Qed.

Lemma amounts_fold all (F : string -> formula) : NoDup all -> (forall c, In c all -> proper c (F c) /\ has_atoms (F c)) ->
  forall cs seen done ms, all = seen ++ cs -> length done = length seen -> length ms = length cs ->
  foldM (fun r c => do i <- index_of string_dec c all; do x <- get r i; do n <- ramount c x; set_nth r i n) cs (done ++ ms) =
  Ok (done ++ map (fun cx : string * R => snd cx * moles_per_kg (F (fst cx))) (combine cs ms)).
Proof.
  intros N H cs. induction cs as [|c cs IH]; intros seen done ms E L1 L2; destruct ms as [|x ms]; try discriminate; [reflexivity|].
  cbn [foldM combine map fst snd]. rewrite (index_nth string_dec all (length done) c N) by (rewrite E, L1, nth_error_app2, Nat.sub_diag by lia; reflexivity). cbn [bind].
  rewrite get_mid. cbn [bind]. destruct (H c) as [P A]; [rewrite E; apply in_or_app; right; now left|]. rewrite (P_ThermoElem.ramount_ok c (F c)) by auto. cbn [bind]. rewrite set_nth_mid. cbn [bind].
  specialize (IH (seen ++ [c]) (done ++ [x * moles_per_kg (F c)]) ms). rewrite <- !app_assoc in IH. cbn [app] in IH. apply IH; auto. rewrite !app_length. cbn [length]. lia.
Qed.
Lemma nth_error_combine {A B} (l : list A) : forall (m : list B) i a b, nth_error l i = Some a -> nth_error m i = Some b -> nth_error (combine l m) i = Some (a, b).
Proof. induction l as [|x l IH]; intros [|y m] [|i] a b; cbn; try discriminate; [congruence|]. apply IH. Qed.
Lemma sum_combine (w : string -> R) cs : forall ms, rsum (map (fun cx : string * R => snd cx * w (fst cx)) (combine cs ms)) = weigh_list w cs ms.
Proof.
  unfold weigh_list. induction cs as [|c cs IH]; intros [|m ms]; cbn [combine map fold_right]; try reflexivity. rewrite <- IH. unfold rsum. cbn [fold_right fst snd]. ring.
Qed.

(** Every compound's amount is its own mass divided by its own molar mass, and the
    package's amount is their sum. *)
Theorem C41_thermo_amounts : forall p (F : string -> formula), wf p -> (forall c, In c (tm_compounds (tp_material p)) -> proper c (F c) /\ has_atoms (F c)) ->
  exists ns, get_compound_amounts p = Ok ns /\ length ns = length (tm_compounds (tp_material p)) /\
    (forall i c x, nth_error (tm_compounds (tp_material p)) i = Some c -> nth_error (tp_masses p) i = Some x -> nth_error ns i = Some (x * moles_per_kg (F c))) /\
    get_amount p = Ok (rsum ns).
Proof.
  intros p F [N L] H. set (cs := tm_compounds (tp_material p)) in *. exists (map (fun cx : string * R => snd cx * moles_per_kg (F (fst cx))) (combine cs (tp_masses p))).
  assert (M : rscale (tp_masses p) 1 = tp_masses p). { unfold rscale. rewrite <- (map_id (tp_masses p)) at 2. apply map_ext. intros x. ring. }
  split; [|split; [|split]].
  - unfold get_compound_amounts, get_compound_index. rewrite M. apply (amounts_fold cs F N H cs [] [] (tp_masses p)); auto.
  - rewrite map_length, combine_length. lia.
  - intros i c x A B. rewrite nth_error_map. rewrite (nth_error_combine cs (tp_masses p) i c x A B). reflexivity.
  - rewrite (P_ThermoElem.get_amount_ok p F (conj N L) H). rewrite (sum_combine (fun c => moles_per_kg (F c))). reflexivity.
Qed.
Print Assumptions C41_thermo_amounts.
(** The same for the flow rates of a stream. *)
Theorem C62_amounts : forall s (F : string -> formula), wf (s_body s) -> (forall c, In c (tm_compounds (tp_material (s_body s))) -> proper c (F c) /\ has_atoms (F c)) ->
  exists ns, get_compound_afrs s = Ok ns /\ length ns = length (tm_compounds (tp_material (s_body s))) /\
    (forall i c x, nth_error (tm_compounds (tp_material (s_body s))) i = Some c -> nth_error (tp_masses (s_body s)) i = Some x ->
       nth_error ns i = Some (x * moles_per_kg (F c)) /\ get_compound_afr s c = Ok (x * moles_per_kg (F c))) /\
    get_afr s = Ok (rsum ns).
Proof.
  intros s F W H. destruct (C41_thermo_amounts (s_body s) F W H) as (ns & E & L & V & S). exists ns. split; [exact E|]. split; [exact L|]. split; [|exact S].
  intros i c x A B. split; [eauto|]. unfold get_compound_afr, get_compound_amount, get_compound_index. rewrite (index_nth string_dec _ i c (proj1 W) A). cbn [bind]. unfold get. rewrite B. cbn [bind].
  destruct (H c) as [P Q]; [now apply nth_error_In in A|]. now apply P_ThermoElem.ramount_ok.
Qed.
Print Assumptions C62_amounts.
