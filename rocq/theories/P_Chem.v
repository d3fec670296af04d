(** Proofs about [M_Chem]. *)
From Verif Require Import Prelude M_Elements M_Stoichiometry M_Text M_Lists M_Float M_Chem Spec_Stoich Spec_Material Spec_Chem P_Loan P_Count P_Convert P_Content P_Float.
From Coq Require Import Field Permutation.
Local Open Scope string_scope.
Local Open Scope list_scope.
Local Open Scope Z_scope.

(** * Numbers *)
Lemma inj_plus x y : Q2Qc (inject_Z (x + y)) = (Q2Qc (inject_Z x) + Q2Qc (inject_Z y))%Qc.
Proof. apply Qc_is_canon. unfold Qcminus, Qcplus, Qcopp, Qcmult, Q2Qc. cbn [this]. rewrite !Qred_correct. rewrite inject_Z_plus. reflexivity. Qed.
Lemma inj_minus x y : Q2Qc (inject_Z (x - y)) = (Q2Qc (inject_Z x) - Q2Qc (inject_Z y))%Qc.
Proof. apply Qc_is_canon. unfold Qcminus, Qcplus, Qcopp, Qcmult, Q2Qc. cbn [this]. rewrite !Qred_correct. unfold Z.sub. rewrite inject_Z_plus, inject_Z_opp. reflexivity. Qed.
Lemma inj_mult x y : Q2Qc (inject_Z (x * y)) = (Q2Qc (inject_Z x) * Q2Qc (inject_Z y))%Qc.
Proof. apply Qc_is_canon. unfold Qcminus, Qcplus, Qcopp, Qcmult, Q2Qc. cbn [this]. rewrite !Qred_correct. rewrite inject_Z_mult. reflexivity. Qed.
Lemma val_nadd a b : val (nadd a b) = (val a + val b)%Qc.
Proof. destruct a, b; cbn [nadd val]; auto. apply inj_plus. Qed.
Lemma val_nsub a b : val (nsub a b) = (val a - val b)%Qc.
Proof. destruct a, b; cbn [nsub val]; auto. apply inj_minus. Qed.
Lemma val_nmul a b : val (nmul a b) = (val a * val b)%Qc.
Proof. destruct a, b; cbn [nmul val]; auto. apply inj_mult. Qed.
Lemma val_zero : val (NInt 0) = 0%Qc.
Proof. apply Qc_is_canon. reflexivity. Qed.
Lemma val_nsum l : val (nsum l) = Qcsum (map val l).
Proof.
  assert (H : forall a, val (fold_left nadd l a) = (val a + Qcsum (map val l))%Qc).
  { induction l as [|x l IH]; intros a; cbn [fold_left map]. - unfold Qcsum; cbn. ring.
    - rewrite IH, val_nadd. unfold Qcsum; cbn [fold_right]. ring. }
  unfold nsum. rewrite H, val_zero. ring.
Qed.
Notation scontent := (content string_dec).
(** * Well formed packages *)

Lemma get_mass_val p : val (get_mass p) = Qcsum (vals p).
Proof. apply val_nsum. Qed.
Lemma get_compound_mass_ok p c : wf p -> In c (m_compounds (p_material p)) -> exists x, get_compound_mass p c = Ok x /\ In x (p_masses p).
Proof.
  intros W H. unfold get_compound_mass, get_compound_index. destruct (index_total string_dec _ _ H) as [i E]. rewrite E. cbn [bind]. apply index_ok in E. destruct E as [E _].
  destruct (nth_split_both _ _ _ _ (eq_sym W) E) as (u & v & b & u' & v' & _ & E2 & _ & L & _).
  exists b. unfold get. rewrite E2, <- L, nth_at. split; auto. apply in_or_app. cbn. auto.
Qed.
Lemma get_compound_mass_has p c x : NoDup (m_compounds (p_material p)) -> get_compound_mass p c = Ok x -> has p c = val x.
Proof.
  intros N H. unfold get_compound_mass, get_compound_index in H. destruct (index_of string_dec c _) as [i|] eqn:E; cbn [bind] in H; [|discriminate].
  apply get_ok in H. apply index_ok in E. destruct E as [E _]. unfold has, vals. eapply content_nth; eauto. now rewrite nth_error_map, H.
Qed.

Lemma add_compound_spec p c q p' : add_compound p c q = Ok p' ->
  p_material p' = p_material p /\ (wf p -> wf p') /\ Qcsum (vals p') = (Qcsum (vals p) + q)%Qc /\
  In c (m_compounds (p_material p)) /\
  (wf p -> forall d, has p' d = (has p d + if string_dec c d then q else 0)%Qc).
Proof.
  unfold add_compound, get_compound_index. destruct (index_of string_dec c _) as [i|] eqn:E; cbn [bind]; [|discriminate].
  destruct (get (p_masses p) i) as [x|] eqn:G; cbn [bind]; [|discriminate]. apply get_ok in G.
  destruct (set_nth _ _ _) as [ms|] eqn:S; cbn [bind]; [|discriminate]. intros H. injection H as <-. cbn [p_material p_masses].
  destruct (set_nth_split _ _ _ _ _ S G) as (u & v & E1 & -> & L). apply index_ok in E. destruct E as [E _]. split; auto. split; [|split; [|split]].
  - unfold wf. cbn. rewrite E1, !app_length. auto.
  - unfold vals. cbn [p_masses]. rewrite E1, !map_app, !sum_app. cbn [map]. rewrite !sum_cons, val_nadd. cbn [val]. ring.
  - eapply nth_error_In; eauto.
  - intros W d. unfold has, vals. cbn [p_material p_masses]. destruct (nth_split_both _ _ _ _ (eq_sym W) E) as (a & b & y & u' & v' & A & B & La & Lb & Lv).
    rewrite E1 in B. assert (UU : u' = u /\ y = x /\ v' = v).
    { assert (K : nth_error (u ++ x :: v) i = Some y) by (rewrite B, <- Lb; apply nth_at). rewrite <- L, nth_at in K. injection K as ->.
      assert (U : u' = u). { apply (f_equal (firstn i)) in B. rewrite <- L in B at 1. rewrite <- Lb in B. rewrite !firstn_app, !Nat.sub_diag, !firstn_all in B. cbn in B. now rewrite !app_nil_r in B. }
      subst u'. apply app_inv_head in B. injection B as ->. auto. }
    destruct UU as (-> & -> & ->). rewrite A, E1, !map_app. cbn [map]. rewrite !content_app, !content_cons by (rewrite map_length; lia). rewrite val_nadd. cbn [val].
    destruct (string_dec c d); ring.
Qed.
Lemma add_compound_total p c q : wf p -> In c (m_compounds (p_material p)) -> exists p', add_compound p c q = Ok p'.
Proof.
  intros W H. destruct (get_compound_mass_ok p c W H) as (x & E & _). unfold get_compound_mass in E. unfold add_compound.
  destruct (get_compound_index _ c) as [i|]; cbn [bind] in *; [|discriminate]. rewrite E. cbn [bind]. apply get_ok in E.
  destruct (set_nth_ok (p_masses p) i (nadd x (NFloat q))) as [r ->]; [|cbn [bind]; eauto]. apply nth_error_Some. congruence.
Qed.
(** The loop of [add] and [add_to] over the other material's compounds. *)
Definition add_step (p o r : package) (c : string) : res package :=
  if negb (member string_dec c (m_compounds (p_material p))) then Err PyException else
  do x <- get_compound_mass o c; match x with NFloat q => add_compound r c q | NInt _ => Err TypeError end.
Lemma add_different p o : m_id (p_material p) <> m_id (p_material o) ->
  add p (APackage o) = foldM (add_step p o) (m_compounds (p_material o)) p.
Proof. intros H. unfold add. apply Z.eqb_neq in H. rewrite H. reflexivity. Qed.

Lemma loop_effect p o cs r r' : foldM (add_step p o) cs r = Ok r' -> p_material r = p_material p -> wf r -> NoDup (m_compounds (p_material o)) -> NoDup cs ->
  p_material r' = p_material p /\ wf r' /\ (forall c, In c cs -> In c (m_compounds (p_material p))) /\
  (forall d, has r' d = (has r d + if in_dec string_dec d cs then has o d else 0)%Qc) /\
  Qcsum (vals r') = (Qcsum (vals r) + Qcsum (map (has o) cs))%Qc.
Proof.
  revert r. induction cs as [|c cs IH]; intros r H M W No N; cbn [foldM] in H.
  - injection H as <-. split; auto. split; auto. split; [intros c []|]. split; [intros; cbn; ring|unfold Qcsum; cbn; ring].
  - unfold add_step in H at 1. destruct (member string_dec c _) eqn:Mc; cbn [negb bind] in H; [|discriminate].
    destruct (get_compound_mass o c) as [[z|q]|] eqn:G; cbn [bind] in H; try discriminate.
    destruct (add_compound r c q) as [r1|] eqn:A; cbn [bind] in H; [|discriminate].
    destruct (add_compound_spec _ _ _ _ A) as (M1 & W1 & S1 & _ & H1). inversion N; subst.
    destruct (IH r1 H) as (M2 & W2 & K2 & H2' & S2); auto; [congruence|]. split; auto. split; auto.
    assert (Q : has o c = q). { rewrite (get_compound_mass_has _ _ _ No G). reflexivity. }
    split; [|split].
    + intros d [<-|D]; auto. now apply (member_In string_dec).
    + intros d. rewrite H2', H1 by auto. destruct (in_dec string_dec d cs) as [D|D], (in_dec string_dec d (c :: cs)) as [D'|D'], (string_dec c d) as [e|e]; subst; cbn in *; try tauto; try ring.
    + rewrite S2, S1. cbn [map]. rewrite sum_cons, Q. ring.
Qed.
Lemma add_different_spec p o r : m_id (p_material p) <> m_id (p_material o) -> wf p -> wf o -> NoDup (m_compounds (p_material o)) -> add p (APackage o) = Ok r ->
  p_material r = p_material p /\ wf r /\ val (get_mass r) = (val (get_mass p) + val (get_mass o))%Qc /\ forall d, has r d = (has p d + has o d)%Qc.
Proof.
  intros D Wp Wo No H. rewrite add_different in H by auto. destruct (loop_effect p o _ p r H) as (A & B & C & E & F); auto. split; auto. split; auto.
  rewrite !get_mass_val. split. - rewrite F. f_equal. unfold has, vals. apply sum_has; auto. now rewrite map_length.
  - intros d. rewrite E. destruct (in_dec string_dec d _) as [I|I]; auto. unfold has at 3. rewrite content_absent by auto. reflexivity.
Qed.
Lemma loop_total p o cs r : wf r -> p_material r = p_material p -> wf o -> floats o ->
  (forall c, In c cs -> In c (m_compounds (p_material o)) /\ In c (m_compounds (p_material p))) -> exists r', foldM (add_step p o) cs r = Ok r'.
Proof.
  revert r. induction cs as [|c cs IH]; intros r W M Wo F H; cbn [foldM]; [eauto|]. destruct (H c) as [H1 H2]; [cbn; auto|].
  unfold add_step at 1. assert (Mc : member string_dec c (m_compounds (p_material p)) = true) by now apply (member_In string_dec). rewrite Mc. cbn [negb].
  destruct (get_compound_mass_ok o c Wo H1) as (x & -> & I). destruct (F x I) as [q ->]. cbn [bind].
  destruct (add_compound_total r c q W) as [r1 A]; [now rewrite M|]. rewrite A. cbn [bind]. destruct (add_compound_spec _ _ _ _ A) as (M1 & W1 & _). apply IH; auto. congruence.
  intros d D. apply H. cbn; auto.
Qed.
Lemma add_different_total p o : m_id (p_material p) <> m_id (p_material o) -> wf p -> wf o -> floats o -> incl (m_compounds (p_material o)) (m_compounds (p_material p)) ->
  exists r, add p (APackage o) = Ok r.
Proof. intros D Wp Wo F I. rewrite add_different by auto. apply loop_total; auto. Qed.
Lemma add_different_missing p o c : m_id (p_material p) <> m_id (p_material o) -> wf p -> wf o -> floats o -> In c (m_compounds (p_material o)) -> ~ In c (m_compounds (p_material p)) ->
  add p (APackage o) = Err PyException.
Proof.
  intros D Wp Wo F I N. rewrite add_different by auto.
  assert (G : forall cs r, incl cs (m_compounds (p_material o)) -> In c cs -> wf r -> p_material r = p_material p -> foldM (add_step p o) cs r = Err PyException).
  { induction cs as [|d cs IH]; intros r Ic Hc W M; [destruct Hc|]. cbn [foldM]. unfold add_step at 1. destruct (member string_dec d _) eqn:Md; cbn [negb bind]; [|reflexivity].
    apply (member_In string_dec) in Md. destruct (get_compound_mass_ok o d Wo) as (x & -> & I'); [apply Ic; cbn; auto|]. destruct (F x I') as [q ->]. cbn [bind].
    destruct (add_compound_total r d q W) as [r1 A]; [now rewrite M|]. rewrite A. cbn [bind]. destruct (add_compound_spec _ _ _ _ A) as (M1 & W1 & _). apply IH; auto.
    - intros e He. apply Ic. cbn; auto. - destruct Hc as [->|]; [tauto|auto]. - congruence. }
  apply G; auto. apply incl_refl.
Qed.
(** An argument with int masses (an empty package). *)
Lemma add_different_int p o c cs z : m_id (p_material p) <> m_id (p_material o) -> m_compounds (p_material o) = c :: cs -> In c (m_compounds (p_material p)) ->
  nth_error (p_masses o) 0 = Some (NInt z) -> add p (APackage o) = Err TypeError.
Proof.
  intros D E I N. rewrite add_different, E by auto. cbn [foldM]. unfold add_step at 1. assert (Mc : member string_dec c (m_compounds (p_material p)) = true) by now apply (member_In string_dec). rewrite Mc. cbn [negb].
  unfold get_compound_mass, get_compound_index. rewrite E. cbn [index_of]. destruct (string_dec c c); [|congruence]. cbn [bind]. unfold get. rewrite N. reflexivity.
Qed.
Lemma add_each_add p o cs : forall r, p_material r = p_material p ->
  (forall r', foldM (add_step p o) cs r = Ok r' -> add_each r o cs = (r', Ok tt)) /\
  (forall e, foldM (add_step p o) cs r = Err e -> snd (add_each r o cs) = Err e).
Proof.
  induction cs as [|c cs IH]; intros r M; cbn [foldM add_each]. - split; [intros r' H; injection H as <-; auto|discriminate].
  - unfold add_step at 1 3. rewrite M. destruct (negb _); cbn [bind]; [split; [discriminate|intros e H; injection H as <-; auto]|].
    destruct (get_compound_mass o c) as [[z|q]|e]; cbn [bind]; try (split; [discriminate|intros e' H; injection H as <-; auto]).
    destruct (add_compound r c q) as [r1|] eqn:A; cbn [bind]; [|split; [discriminate|intros e' H; injection H as <-; auto]].
    apply IH. destruct (add_compound_spec _ _ _ _ A) as (M1 & _). congruence.
Qed.
Lemma add_to_add p a : (forall r, add p a = Ok r -> add_to p a = (r, Ok tt)) /\ (forall e, add p a = Err e -> snd (add_to p a) = Err e).
Proof.
  unfold add_to. destruct a as [o|l|v].
  - destruct (m_id (p_material p) =? m_id (p_material o)) eqn:E.
    + unfold add. rewrite E. split; [intros r H; injection H as <-; auto|discriminate].
    + rewrite add_different by now apply Z.eqb_neq. now apply add_each_add.
  - unfold add. destruct (compound_mass_tuple _) as [[c q]|]; [|split; [discriminate|intros e H; injection H as <-; auto]]. destruct (add_compound p c q); split; intros x H; inversion H; auto.
  - unfold add. destruct (compound_mass_tuple _) as [[c q]|]; [|split; [discriminate|intros e H; injection H as <-; auto]]. destruct (add_compound p c q); split; intros x H; inversion H; auto.
Qed.

(** Same material. *)
Lemma add_same p o : m_id (p_material p) = m_id (p_material o) -> wf p ->
  exists r, add p (APackage o) = Ok r /\ val (get_mass r) = (val (get_mass p) + val (get_mass o))%Qc /\
    length (p_masses r) = (length (p_masses p) + length (p_masses o))%nat /\
    forall c, In c (m_compounds (p_material p)) -> get_compound_mass r c = get_compound_mass p c.
Proof.
  intros E W. unfold add. rewrite E, Z.eqb_refl. eexists. split; [reflexivity|]. rewrite !get_mass_val. unfold vals. cbn [p_masses]. rewrite map_app, sum_app, app_length. split; auto. split; auto.
  intros c H. unfold get_compound_mass. cbn [p_material p_masses]. unfold get_compound_index. destruct (index_total string_dec _ _ H) as [i I]. rewrite I. cbn [bind]. unfold get.
  apply index_ok in I. destruct I as [I _]. rewrite nth_error_app1; auto. rewrite W. apply nth_error_Some. congruence.
Qed.

(** * Scaling and extraction *)
Lemma vals_scaled p k : map val (map (fun x => nmul x (NFloat k)) (p_masses p)) = scaled k (vals p).
Proof. unfold vals, scaled. rewrite !map_map. apply map_ext. intros x. rewrite val_nmul. cbn [val]. ring. Qed.
Lemma has_scaled p k c : scontent (m_compounds (p_material p)) (scaled k (vals p)) c = (k * has p c)%Qc.
Proof. apply content_scaled. Qed.
Lemma mul_ok p k : (0 <= k)%Qc -> exists r, mul p (VNum (NFloat k)) = Ok r /\ p_material r = p_material p /\ vals r = scaled k (vals p).
Proof. intros H. unfold mul. apply qlt_false in H. rewrite H. eexists. split; [reflexivity|]. split; auto. apply vals_scaled. Qed.

Lemma extract_mass p x : (x <= val (get_mass p))%Qc -> val (get_mass p) <> 0%Qc ->
  exists p' r, extract p (AVal (VNum (NFloat x))) = (p', Ok r) /\ p_material p' = p_material p /\ p_material r = p_material p /\
    vals r = scaled (x / val (get_mass p)) (vals p) /\ vals p' = scaled (1 - x / val (get_mass p)) (vals p).
Proof.
  intros H N. unfold extract. apply qlt_false in H. rewrite H. rewrite pydiv_ne by auto. eexists _, _. split; [reflexivity|]. cbn [p_material]. repeat split; auto.
  - unfold vals at 1. cbn [p_masses]. apply vals_scaled. - unfold vals at 1. cbn [p_masses]. apply vals_scaled.
Qed.
Lemma plus_split p k : plus_lists (scaled k (vals p)) (scaled (1 - k) (vals p)) = vals p.
Proof. induction (vals p) as [|x l IH]; auto. cbn [scaled map plus_lists]. change (map _ l) with (scaled k l) at 1. f_equal; [ring|exact IH]. Qed.
Lemma map_val_zeros n : map val (repeat (NFloat 0) n) = repeat 0%Qc n.
Proof. induction n; cbn; congruence. Qed.
Lemma extract_component p c x : wf p -> In c (m_compounds (p_material p)) -> NoDup (m_compounds (p_material p)) -> (x <= has p c)%Qc ->
  exists p' r, extract p (ATuple [VStr c; VNum (NFloat x)]) = (p', Ok r) /\ p_material p' = p_material p /\ p_material r = p_material p /\
    plus_lists (vals r) (vals p') = vals p /\ length (vals r) = length (vals p) /\ length (vals p') = length (vals p) /\ forall d, has r d = if string_dec c d then x else 0%Qc.
Proof.
  intros W H N X. unfold extract. cbn [compound_mass_tuple]. destruct (get_compound_mass_ok p c W H) as (y & G & _). pose proof (get_compound_mass_has p c y N G) as Hy.
  unfold get_compound_mass in G. destruct (get_compound_index _ c) as [i|] eqn:I; cbn [bind] in G; [|discriminate]. rewrite G. rewrite Hy in X. apply qlt_false in X. rewrite X.
  apply get_ok in G. unfold get_compound_index in I. apply index_ok in I. destruct I as [I _]. destruct (nth_error_split _ _ G) as (u & v & E & L).
  assert (Hi : (i < length (p_masses p))%nat) by (apply nth_error_Some; congruence).
  rewrite (repeat_split _ i) by auto.
  assert (S1 : set_nth (p_masses p) i (nsub y (NFloat x)) = Ok (u ++ nsub y (NFloat x) :: v)) by (rewrite E, <- L; apply set_nth_at). rewrite S1.
  assert (S2 : set_nth (repeat (NFloat 0) i ++ NFloat 0 :: repeat (NFloat 0) (length (p_masses p) - i - 1)) i (NFloat x) = Ok (repeat (NFloat 0) i ++ NFloat x :: repeat (NFloat 0) (length (p_masses p) - i - 1))).
  { pose proof (set_nth_at (repeat (NFloat 0) i) (NFloat x) (NFloat 0) (repeat (NFloat 0) (length (p_masses p) - i - 1))) as K. rewrite repeat_length in K. exact K. }
  rewrite S2. eexists _, _. split; [reflexivity|]. cbn [p_material]. split; auto. split; auto.
  assert (V : map val (repeat (NFloat 0) i ++ NFloat x :: repeat (NFloat 0) (length (p_masses p) - i - 1)) = only (length (p_masses p)) i x).
  { unfold only. rewrite map_app. cbn [map val]. now rewrite !map_val_zeros. }
  unfold vals at 1. cbn [p_masses]. rewrite V. split; [|split; [|split]].
  - unfold vals. cbn [p_masses]. rewrite E, !map_app. cbn [map]. unfold only. rewrite plus_app by (rewrite repeat_length, map_length; auto). cbn [plus_lists]. rewrite val_nsub. cbn [val].
    replace (length (u ++ y :: v) - i - 1)%nat with (length (map val v)) by (rewrite app_length, map_length; cbn; lia). rewrite plus_zero_l. rewrite <- L, <- (map_length val u), plus_zero_l. f_equal. f_equal. ring.
  - unfold vals. cbn [p_masses]. rewrite V. unfold only. rewrite app_length. cbn [length]. rewrite !repeat_length, map_length. lia.
  - unfold vals. cbn [p_masses]. rewrite !map_length, E, !app_length. reflexivity.
  - intros d. unfold has, vals. cbn [p_material p_masses]. rewrite V, W. now apply content_only.
Qed.
Lemma extract_all p c : wf p -> In c (m_compounds (p_material p)) -> NoDup (m_compounds (p_material p)) ->
  exists p' r, extract p (AVal (VStr c)) = (p', Ok r) /\ p_material p' = p_material p /\ p_material r = p_material p /\
    plus_lists (vals r) (vals p') = vals p /\ length (vals r) = length (vals p) /\ length (vals p') = length (vals p) /\ forall d, has r d = if string_dec c d then has p c else 0%Qc.
Proof.
  intros W H N. unfold extract. destruct (get_compound_mass_ok p c W H) as (y & G & _). pose proof (get_compound_mass_has p c y N G) as Hy.
  unfold get_compound_mass in G. destruct (get_compound_index _ c) as [i|] eqn:I; cbn [bind] in G; [|discriminate]. rewrite G.
  unfold mul. change (qlt 0 0) with false. cbn [p_masses].
  apply get_ok in G. unfold get_compound_index in I. apply index_ok in I. destruct I as [I _]. destruct (nth_error_split _ _ G) as (u & v & E & L).
  assert (S1 : set_nth (p_masses p) i (NFloat 0) = Ok (u ++ NFloat 0 :: v)) by (rewrite E, <- L; apply set_nth_at). rewrite S1.
  assert (S2 : set_nth (map (fun x => nmul x (NFloat 0)) (p_masses p)) i y = Ok (map (fun x => nmul x (NFloat 0)) u ++ y :: map (fun x => nmul x (NFloat 0)) v)).
  { rewrite E, map_app. cbn [map]. assert (L' : length (map (fun x => nmul x (NFloat 0)) u) = i) by now rewrite map_length. rewrite <- L'. apply set_nth_at. }
  rewrite S2. eexists _, _. split; [reflexivity|]. cbn [p_material]. split; auto. split; auto.
  assert (Z : forall l, map val (map (fun x => nmul x (NFloat 0)) l) = repeat 0%Qc (length l)).
  { intros l. rewrite map_map. rewrite <- map_zero. apply map_ext. intros a. rewrite val_nmul. cbn [val]. ring. }
  assert (V : map val (map (fun x => nmul x (NFloat 0)) u ++ y :: map (fun x => nmul x (NFloat 0)) v) = only (length (p_masses p)) i (val y)).
  { unfold only. rewrite map_app. cbn [map]. rewrite !Z, E, app_length, L. cbn [length]. replace (i + S (length v) - i - 1)%nat with (length v) by lia. reflexivity. }
  unfold vals at 1. cbn [p_masses]. rewrite V. split; [|split; [|split]].
  - unfold vals. cbn [p_masses]. rewrite E, !map_app. cbn [map val]. unfold only. rewrite plus_app by (rewrite repeat_length, map_length; auto). cbn [plus_lists].
    replace (length (u ++ y :: v) - i - 1)%nat with (length (map val v)) by (rewrite app_length, map_length; cbn; lia). rewrite plus_zero_l. rewrite <- L, <- (map_length val u), plus_zero_l. f_equal. f_equal. ring.
  - unfold vals. cbn [p_masses]. rewrite V. unfold only. rewrite app_length. cbn [length]. rewrite !repeat_length, map_length, E, app_length. cbn [length]. lia.
  - unfold vals. cbn [p_masses]. rewrite !map_length, E, !app_length. reflexivity.
  - intros d. unfold has at 1. unfold vals. cbn [p_material p_masses]. rewrite V, W, Hy. now apply content_only.
Qed.
Lemma extract_fails p a p' e : extract p a = (p', Err e) -> p' = p.
Proof.
  unfold extract. repeat (match goal with |- context [match ?x with _ => _ end] => destruct x end); intros H; inversion H; auto.
Qed.

(** * Creating packages *)
Lemma ndiv_ok a b : val b <> 0%Qc -> ndiv a b = Ok (NFloat (val a / val b)).
Proof. intros H. unfold ndiv. now rewrite pydiv_ne. Qed.
Lemma create_normalised m n a mass : find_assay n (m_assays m) = Ok a -> Qcsum (map val a) <> 0%Qc ->
  exists p, create_package m (Some n) mass true = Ok p /\ p_material p = m /\ vals p = scaled (val mass / Qcsum (map val a)) (map val a).
Proof.
  intros H N. unfold create_package, get_assay_total. rewrite H. cbn [bind].
  rewrite (mapM_ext _ (fun x => Ok (NFloat (val mass * val x / Qcsum (map val a))))).
  2:{ intros x _. rewrite ndiv_ok by now rewrite val_nsum. rewrite val_nmul, val_nsum. reflexivity. }
  rewrite mapM_Ok. cbn [bind]. eexists. split; [reflexivity|]. split; auto. unfold vals, scaled. cbn [p_masses]. rewrite !map_map. apply map_ext. intros x. cbn [val]. field. auto.
Qed.
Lemma create_raw m n a mass : find_assay n (m_assays m) = Ok a ->
  exists p, create_package m (Some n) mass false = Ok p /\ p_material p = m /\ vals p = scaled (val mass) (map val a).
Proof.
  intros H. unfold create_package. rewrite H. cbn [bind].
  rewrite (mapM_ext _ (fun x => Ok (NFloat (val mass * val x / 1)))).
  2:{ intros x _. rewrite ndiv_ok by discriminate. rewrite val_nmul. reflexivity. }
  rewrite mapM_Ok. cbn [bind]. eexists. split; [reflexivity|]. split; auto. unfold vals, scaled. cbn [p_masses]. rewrite !map_map. apply map_ext. intros x. cbn [val]. field. discriminate.
Qed.
Lemma create_zero m n a mass : find_assay n (m_assays m) = Ok a -> a <> [] -> Qcsum (map val a) = 0%Qc -> create_package m (Some n) mass true = Err ZeroDivisionError.
Proof.
  intros H N Z. unfold create_package, get_assay_total. rewrite H. cbn [bind]. destruct a as [|x a]; [congruence|]. cbn [mapM].
  unfold ndiv at 1. unfold pydiv at 1. rewrite val_nsum, Z. reflexivity.
Qed.

(** * Element masses *)
Definition efrac (c el : string) : Qc := match element_mass_fraction c el with Ok x => x | Err _ => 0%Qc end.
Lemma efrac_ok c f el : proper c f -> has_atoms f -> element_mass_fraction c el = Ok (efrac c el).
Proof. intros H A. unfold efrac. now rewrite (emf_proper c f el H A). Qed.
Lemma add_lists_ok a b : length a = length b -> exists r, add_lists a b = Ok r /\ map val r = plus_lists (map val a) (map val b).
Proof.
  revert b. induction a as [|x a IH]; intros [|y b] H; try discriminate; cbn [add_lists].
  - exists []. auto. - destruct (IH b) as (r & -> & E); [cbn in H; lia|]. cbn [bind]. eexists. split; [reflexivity|]. cbn [map plus_lists]. rewrite val_nadd, E. reflexivity.
Qed.
Definition emass (p : package) (el : string) : Qc := Qcsum (map (fun c => (has p c * efrac c el)%Qc) (m_compounds (p_material p))).
Lemma element_masses_ok p els : wf p -> NoDup (m_compounds (p_material p)) -> formulas (p_material p) ->
  exists r, element_masses p els = Ok r /\ map val r = map (emass p) els.
Proof.
  intros W N F. unfold element_masses, emass.
  assert (G : forall cs acc g, incl cs (m_compounds (p_material p)) -> map val acc = map g els ->
    exists r, foldM (fun r c => do x <- get_compound_mass p c; do fs <- element_mass_fractions c els; add_lists r (map (fun f => nmul x (NFloat f)) fs)) cs acc = Ok r /\
      map val r = map (fun el => (g el + Qcsum (map (fun c => (has p c * efrac c el)%Qc) cs))%Qc) els).
  { induction cs as [|c cs IH]; intros acc g I A; cbn [foldM].
    - exists acc. split; auto. rewrite A. apply map_ext. intros; unfold Qcsum; cbn; ring.
    - destruct (get_compound_mass_ok p c W) as (x & Gx & _); [apply I; cbn; auto|]. rewrite Gx. cbn [bind]. apply get_compound_mass_has in Gx; auto.
      destruct (F c) as (f & P & H); [apply I; cbn; auto|]. unfold element_mass_fractions at 1.
      rewrite (mapM_ext _ (fun el => Ok (efrac c el))) by (intros; eapply efrac_ok; eauto). rewrite mapM_Ok. cbn [bind].
      match goal with |- context [add_lists acc ?b] => destruct (add_lists_ok acc b) as (r1 & -> & E1) end.
      { rewrite !map_length. apply (f_equal (@length Qc)) in A. now rewrite !map_length in A. }
      cbn [bind]. destruct (IH r1 (fun el => (g el + has p c * efrac c el)%Qc)) as (r & -> & E).
      + intros d D. apply I. cbn; auto.
      + rewrite E1, A, !map_map, plus_map. apply map_ext. intros el. rewrite val_nmul, Gx. reflexivity.
      + exists r. split; auto. rewrite E. apply map_ext. intros el. cbn [map]. rewrite sum_cons. ring. }
  destruct (G (m_compounds (p_material p)) (repeat (NInt 0) (length els)) (fun _ => 0%Qc)) as (r & E & V).
  - apply incl_refl. - rewrite map_zero. clear. induction (length els) as [|n IH]; auto. cbn [repeat map]. rewrite IH, val_zero. reflexivity.
  - exists r. split; auto. rewrite V. apply map_ext. intros; ring.
Qed.
Lemma elements_sorted_in x l : In x (sorted l) <-> In x l.
Proof.
  assert (I : forall y l, In x (insert_sorted y l) <-> x = y \/ In x l).
  { intros y k. induction k as [|z k IH]; cbn [insert_sorted]; [cbn; intuition|]. destruct (String.leb y z); cbn in *; intuition. }
  induction l as [|y l IH]; [reflexivity|]. cbn [sorted fold_right]. change (fold_right _ _ l) with (sorted l). rewrite I, IH. cbn. intuition.
Qed.
Lemma sorted_nodup l : NoDup l -> NoDup (sorted l).
Proof.
  assert (P : forall l, Permutation l (sorted l)).
  { assert (I : forall y k, Permutation (y :: k) (insert_sorted y k)).
    { intros y k. induction k as [|z k IH]; cbn [insert_sorted]; auto. destruct (String.leb y z); auto. eapply perm_trans; [apply perm_swap|]. auto. }
    induction l0 as [|y k IH]; auto. cbn [sorted fold_right]. eapply perm_trans; [|apply I]. auto. }
  intros N. eapply Permutation_NoDup; eauto.
Qed.
Lemma exact_proper c f : gen_compound (text_of c) f -> all_known f -> proper c f.
Proof. intros G K. split; auto. exists [], (text_of c), []. rewrite app_nil_r. repeat split; auto. Qed.
Lemma exact_formulas_formulas m : exact_formulas m -> formulas m.
Proof. intros F c H. destruct (F c H) as (f & G & K & A). exists f. split; auto. now apply exact_proper. Qed.
Lemma emass_total p : wf p -> NoDup (m_compounds (p_material p)) -> exact_formulas (p_material p) -> listed (p_material p) ->
  Qcsum (map (emass p) (m_elements (p_material p))) = Qcsum (vals p).
Proof.
  intros W N F L. unfold emass. rewrite (sum_swap (fun el c => (has p c * efrac c el)%Qc)).
  unfold listed, create_element_list in L. destruct (elements (m_compounds (p_material p))) as [els|] eqn:E; cbn [bind] in L; [|discriminate]. injection L as L.
  apply elements_spec in E. destruct E as [Ne E]. rewrite <- L.
  rewrite (map_ext_in _ (has p)).
  - unfold has. apply sum_has; auto. unfold vals. now rewrite map_length.
  - intros c H. rewrite <- (map_map (efrac c) (fun x => (has p c * x)%Qc)), sum_scale. destruct (F c H) as (f & G & K & A). destruct (emfs_sum c f (sorted els)) as (xs & X & S).
    + now apply exact_proper. + auto. + now apply sorted_nodup.
    + intros s Hs. apply elements_sorted_in, E in Hs. destruct Hs as (c' & f' & I' & G' & S'). destruct (F c' I') as (f2 & G2 & K2 & _). apply K2.
      assert (f2 = f') by (apply P_Stoich.grammar_parse_iff in G2, G'; congruence). now subst.
    + intros s Hs. apply elements_sorted_in, E. eauto.
    + unfold element_mass_fractions in X. rewrite (mapM_ext _ (fun el => Ok (efrac c el))) in X by (intros; eapply efrac_ok; eauto; now apply exact_proper).
      rewrite mapM_Ok in X. injection X as <-. rewrite S. ring.
Qed.

(** * Element masses of one element *)
Lemma get_element_mass_ok p el : wf p -> NoDup (m_compounds (p_material p)) -> formulas (p_material p) ->
  exists x, get_element_mass p el = Ok x /\ val x = emass p el.
Proof.
  intros W N F. unfold get_element_mass. destruct (element_masses_ok p [el] W N F) as (r & E & V). rewrite E. cbn [bind].
  destruct r as [|x [|y r]]; try discriminate. cbn [map] in V. injection V as V. exists x. auto.
Qed.
Lemma emass_scale p p' k : p_material p' = p_material p -> vals p' = scaled k (vals p) -> forall el, emass p' el = (k * emass p el)%Qc.
Proof.
  intros M V el. unfold emass, has. rewrite M, V. rewrite <- (sum_scale _ k), map_map. f_equal. apply map_ext. intros c. rewrite content_scaled. ring.
Qed.
Lemma emass_add_gen m (a b c : string -> Qc) el : (forall d, c d = a d + b d)%Qc ->
  (Qcsum (map (fun x => c x * efrac x el) m) = Qcsum (map (fun x => a x * efrac x el) m) + Qcsum (map (fun x => b x * efrac x el) m))%Qc.
Proof. intros H. induction m as [|x m IH]; cbn [map]; [unfold Qcsum; cbn; ring|]. rewrite !sum_cons, IH, H. ring. Qed.
(** Summing over a larger list of distinct compounds does not change the sum. *)
Lemma sum_incl (g : string -> Qc) small big : NoDup small -> NoDup big -> incl small big -> (forall c, In c big -> ~ In c small -> g c = 0%Qc) ->
  Qcsum (map g big) = Qcsum (map g small).
Proof.
  revert small. induction big as [|c big IH]; intros small Ns Nb I Z.
  - destruct small as [|s small]; auto. exfalso. apply (I s). cbn; auto.
  - inversion Nb; subst. cbn [map]. rewrite sum_cons. destruct (in_dec string_dec c small) as [H|H].
    + destruct (in_split _ _ H) as (u & v & ->). rewrite (IH (u ++ v)); auto.
      * rewrite !map_app, !sum_app. cbn [map]. rewrite sum_cons. ring.
      * eapply NoDup_remove_1; eauto.
      * intros d D. assert (Id : In d (c :: big)) by (apply I; rewrite in_app_iff in *; cbn; tauto). destruct Id as [<-|Id]; auto. apply NoDup_remove_2 in Ns. tauto.
      * intros d D E. apply Z; cbn; auto. rewrite in_app_iff in *. cbn. intros [|[<-|]]; tauto.
    + rewrite (IH small); auto.
      * rewrite (Z c); cbn; auto. ring.
      * intros d D. destruct (I d D) as [<-|]; tauto.
      * intros d D E. apply Z; cbn; auto.
Qed.
Lemma emass_add p o r : NoDup (m_compounds (p_material p)) -> NoDup (m_compounds (p_material o)) -> incl (m_compounds (p_material o)) (m_compounds (p_material p)) ->
  p_material r = p_material p -> (forall d, has r d = has p d + has o d)%Qc -> forall el, emass r el = (emass p el + emass o el)%Qc.
Proof.
  intros Np No I M H el. unfold emass. rewrite M. rewrite (emass_add_gen _ (has p) (has o)) by auto. f_equal.
  apply sum_incl; auto. intros c _ N. unfold has. rewrite content_absent by auto. ring.
Qed.
Lemma emass_value p el (F : string -> formula) : (forall c, In c (m_compounds (p_material p)) -> proper c (F c) /\ has_atoms (F c)) ->
  emass p el = Qcsum (map (fun c => element_mass el (F c) (has p c)) (m_compounds (p_material p))).
Proof.
  intros H. unfold emass. f_equal. apply map_ext_in. intros c Hc. destruct (H c Hc) as [P A]. unfold efrac. rewrite (emf_proper c (F c) el P A).
  unfold element_mass. pose proof (molar_neq _ _ P A) as M. destruct (Z.eq_dec (atoms el (F c)) 0) as [Z|Z].
  - rewrite Z. change (q_of_Z 0) with 0%Qc. field. auto.
  - rewrite mass_of_weight. + field. auto. + destruct P as [_ K]. apply K. now apply atoms_symbols.
Qed.
(** * Assays and fractions of packages *)
Lemma get_assay_ok p : Qcsum (vals p) <> 0%Qc -> exists r, get_assay p = Ok r /\ map val r = scaled (/ Qcsum (vals p)) (vals p).
Proof.
  intros N. unfold get_assay. rewrite (mapM_ext _ (fun x => Ok (NFloat (val x / Qcsum (vals p))))).
  2:{ intros x _. assert (V : val (nsum (p_masses p)) = Qcsum (vals p)) by apply val_nsum. rewrite (ndiv_ok x (nsum (p_masses p))) by congruence. rewrite V. reflexivity. }
  rewrite mapM_Ok. eexists. split; [reflexivity|]. unfold vals at 3, scaled. rewrite !map_map. apply map_ext. intros x. cbn [val]. field. auto.
Qed.
