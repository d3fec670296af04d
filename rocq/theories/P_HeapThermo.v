From Verif Require Import Prelude M_Stoichiometry M_Lists M_Thermochem M_Chem M_ThermoMat M_Heap Spec_Heap P_Heap M_HeapThermo.
From Coq Require Import Reals.
Local Open Scope list_scope.
Local Open Scope R_scope.
Section Db.
Context (db : database).
Implicit Types (w : world scalars R) (p q : package).

Lemma items_set_H p x : tp_masses (fst (set_H db p x)) = tp_masses p.
Proof. unfold set_H. destruct (calculate_T db _ x); reflexivity. Qed.
Lemma items_set_T p x : tp_masses (fst (set_T db p x)) = tp_masses p.
Proof. unfold set_T. destruct (calculate_H db _ x); reflexivity. Qed.
Lemma T_set_T p x : tp_T (fst (set_T db p x)) = x.
Proof. unfold set_T. destruct (calculate_H db _ x); reflexivity. Qed.
Lemma set_H_updates w k p x : wf w -> view w k = Some p -> updates w k (h_set_H db k x w) (fst (set_H db p x)) (snd (set_H db p x)).
Proof. intros W V. apply (updates_setter w k p (fun p => set_H db p x) W V). apply items_set_H. Qed.
Lemma set_T_updates w k p x : wf w -> view w k = Some p -> updates w k (h_set_T db k x w) (fst (set_T db p x)) (snd (set_T db p x)).
Proof. intros W V. apply (updates_setter w k p (fun p => set_T db p x) W V). apply items_set_T. Qed.
Lemma set_P_updates w k p x : wf w -> view w k = Some p -> updates w k (h_set_P k x w) (set_P p x) (Ok tt).
Proof. intros W V. apply (updates_setter w k p (fun p => (set_P p x, Ok tt)) W V). reflexivity. Qed.
Lemma keep_T_updates w k p : wf w -> view w k = Some p -> updates w k (h_keep_T db k w) (fst (set_T db p (tp_T p))) (snd (set_T db p (tp_T p))).
Proof. intros W V. unfold h_keep_T. apply (updates_read _ _ _ p); auto. now apply set_T_updates. Qed.
Lemma store_updates w k p i x : wf w -> view w k = Some p -> updates w k (store k i x w) (match set_nth (tp_masses p) i x with Ok l => set_masses p l | Err _ => p end) (do _ <- set_nth (tp_masses p) i x; Ok tt).
Proof. exact (updates_store w k p i x). Qed.
Lemma new_makes w r : wf w -> makes w (h_new r w) r.
Proof. apply makes_lift. Qed.

Lemma add_pair_makes w0 w k p c x : wf w -> keeps w0 w -> view w k = Some p -> makes w0 (h_add_pair db k c x w) (add_pair db p c x).
Proof.
  intros W K V. unfold h_add_pair, add_pair. apply (makes_read _ _ _ p); auto. apply makes_lift_bind; auto. intros i _. apply makes_lift_bind; auto. intros h _.
  match goal with |- makes _ (bindM (clone k) ?f w) _ => pose proof (makes_step w0 w (clone k) f (Ok p) (fun p => do m <- get (tp_masses p) i; do ms <- set_nth (tp_masses p) i (m + x); Ok (set_TH (set_masses p ms) (tp_T p) (tp_H p + h))) K (makes_clone w k p W V)) as H end.
  cbn [bind] in H. apply H. clear H. intros w1 n q Hq W1 K1 K01 N N0 V1. injection Hq as ->. apply (makes_read _ _ _ q); auto. apply makes_lift_bind; auto. intros y _.
  eapply makes_update; eauto; [apply store_updates; eauto| |].
  - intros a Ha w2 W2 K2 _ V2. destruct (set_nth (tp_masses q) i (y + x)) as [l|e]; [|discriminate]. cbn [bind].
    eapply makes_update; eauto; [apply (updates_setter w2 n _ _ W2 V2); reflexivity| |discriminate]. intros _ _ w3 W3 K3 _ V3. cbn [fst] in V3.
    eapply makes_update; eauto; [apply (set_P_updates w3 n _ _ W3 V3)| |discriminate]. intros _ _ w4 W4 K4 _ V4. apply makes_ret; auto.
  - intros e He. destruct (set_nth (tp_masses q) i (y + x)) as [l|e']; [discriminate|]. cbn in *. congruence.
Qed.

Lemma add_loop w0 j p o l : forall w n r, wf w -> keeps w0 w -> view w0 n = None -> view w0 j = Some o -> view w n = Some r ->
  makes w0 (forM (fun n c => if negb (member string_dec c (tm_compounds (tp_material p))) then lift (Err PyException) else
      do! o <- read j; do! x <- lift (get_compound_mass o c); h_add_pair db n c x) l n w)
    (foldM (fun r c => if negb (member string_dec c (tm_compounds (tp_material p))) then Err PyException else do x <- get_compound_mass o c; add_pair db r c x) l r).
Proof.
  induction l as [|s l IH]; intros w n r W K N J V; cbn [forM foldM].
  - apply makes_ret; auto.
  - apply makes_step; auto.
    destruct (negb _); [apply makes_raise; auto; apply keeps_refl|]. apply (makes_read _ _ _ o); [now apply K|]. apply makes_lift_bind; auto; [apply keeps_refl|]. intros x _. apply add_pair_makes; auto. apply keeps_refl.
Qed.
(** A setter on the new object, then its return. *)
Lemma finish_makes w0 w n q H P : wf w -> keeps w0 w -> view w0 n = None -> view w n = Some q ->
  makes w0 ((do! _ <- h_set_H db n H; do! _ <- h_set_P n P; ret n) w) (do r <- finish (set_H db q H); Ok (set_P r P)).
Proof.
  intros W K N V. eapply makes_update; eauto; [apply set_H_updates; eauto| |].
  - intros a Ha w1 W1 K1 _ V1. unfold finish. rewrite Ha. cbn [bind]. eapply makes_update; eauto; [apply (set_P_updates w1 n _ _ W1 V1)| |discriminate]. intros _ _ w2 W2 K2 _ V2. apply makes_ret; auto.
  - intros e He. unfold finish. now rewrite He.
Qed.
Lemma finish_makes' w0 w n q H : wf w -> keeps w0 w -> view w0 n = None -> view w n = Some q ->
  makes w0 ((do! _ <- h_set_H db n H; ret n) w) (finish (set_H db q H)).
Proof.
  intros W K N V. eapply makes_update; eauto; [apply set_H_updates; eauto| |].
  - intros a Ha w1 W1 K1 _ V1. unfold finish. rewrite Ha. cbn [bind]. apply makes_ret; auto.
  - intros e He. unfold finish. now rewrite He.
Qed.
Lemma mul_makes w0 w k p x : wf w -> keeps w0 w -> view w k = Some p -> makes w0 (h_mul db k x w) (mul db p x).
Proof.
  intros W K V. unfold h_mul, mul. apply (makes_read _ _ _ p); auto. destruct (Rlt_dec x 0) as [L1|L1]; [apply makes_raise; auto|]. eapply makes_later; eauto. now apply new_makes.
Qed.

Lemma add_makes w k p y v : wf w -> view w k = Some p -> sees w y v -> makes w (h_add db k y w) (add db p (v_arg v)).
Proof.
  intros W V Y. destruct y as [j|a], v as [o|b]; try contradiction; cbn [sees] in Y.
  - cbn [h_add v_arg add]. apply (makes_read _ _ _ p); auto. apply (makes_read _ _ _ o); auto. destruct (_ =? _)%Z.
    + destruct (radd (tp_masses p) (tp_masses o)) as [ms|e]; cbn [bind]; [|apply makes_err; auto].
      apply makes_step; [apply keeps_refl|now apply new_makes|]. intros w1 n q _ W1 K1 _ N1 _ V1. apply finish_makes; auto.
    + match goal with |- makes _ (bindM (clone k) ?f w) (bind (foldM ?g ?l p) ?h) => pose proof (makes_step w w (clone k) f (Ok p) (fun p' => bind (foldM g l p') h) (keeps_refl w) (makes_clone w k p W V)) as H end. apply H. clear H.
      intros w1 n q _ W1 K1 _ N1 _ V1.
      pose proof (add_loop w j p o (tm_compounds (tp_material o)) w1 n q W1 K1 N1 Y V1) as (w2 & s & E & W2 & K2 & H). unfold bindM at 1. rewrite E. destruct (foldM _ _ q) as [r|e], s as [n2|e']; try contradiction; cbn [bind].
      * destruct H as [N2 V2]. apply finish_makes'; auto.
      * subst e'. exists w2, (Err e). parts.
  - subst b. cbn [h_add v_arg]. destruct a as [c x|c x T|x|c|m|]; cbn [other_arg add]; try (apply makes_raise; auto; apply keeps_refl).
    + apply add_pair_makes; auto. apply keeps_refl.
    + apply (makes_read _ _ _ p); auto. apply makes_lift_bind; auto; [apply keeps_refl|]. intros i _. apply makes_lift_bind; auto; [apply keeps_refl|]. intros h _.
      apply makes_step; [apply keeps_refl|apply mul_makes; auto; apply keeps_refl|]. intros w1 n q _ W1 K1 _ N1 _ V1. apply (makes_read _ _ _ q); auto. apply makes_lift_bind; auto. intros y _.
      eapply makes_update; eauto; [apply store_updates; eauto| |].
      * intros a Ha w2 W2 K2 _ V2. destruct (set_nth (tp_masses q) i (y + x)) as [l|e]; [|discriminate]. cbn [bind]. apply finish_makes; auto.
      * intros e He. destruct (set_nth (tp_masses q) i (y + x)) as [l|e']; [discriminate|]. cbn in *. congruence.
Qed.
Lemma clear_updates w k p : wf w -> view w k = Some p -> updates w k (h_clear k w) (clear p) (Ok tt).
Proof.
  intros W V. unfold h_clear. apply (updates_read _ _ _ p); auto. eapply updates_bind; [apply updates_rebind; eauto| |discriminate]. intros _ _ w1 W1 O1 V1.
  apply (updates_setter w1 k _ (fun p => (set_TH (set_P p 1) 25 0, Ok tt)) W1 V1). reflexivity.
Qed.

(** self.T = self.T, then the return of [n]. *)
Lemma keep_effects w0 w k n p q : wf w -> only w0 w k -> view w0 n = None -> n <> k -> view w k = Some p -> view w n = Some q ->
  effects w0 k ((do! _ <- h_keep_T db k; ret (Some n)) w) (fst (keep_T db p (Ok q))) (do q <- snd (keep_T db p (Ok q)); Ok (Some q)).
Proof.
  intros W On N D V Vn. unfold keep_T. eapply effects_self; eauto; [apply keep_T_updates; eauto| |].
  - intros a Ha w1 W1 O1 O2 V1. cbn [fst snd]. rewrite Ha. cbn [bind]. apply effects_return; auto.
  - intros e He. cbn [fst snd]. rewrite He. auto.
Qed.
Lemma extract_mass_effects w k p x : wf w -> view w k = Some p -> effects w k (h_extract_mass db k x w) (fst (extract_mass db p x)) (do q <- snd (extract_mass db p x); Ok (Some q)).
Proof.
  intros W V. unfold h_extract_mass, extract_mass. apply (effects_read _ _ _ _ p); auto. destruct (Rlt_dec (get_mass p) x) as [L1|L1]; [apply effects_raise; parts|].
  destruct (ndiv x (get_mass p)) as [f|e]; [|apply effects_raise; parts]. unfold bindM at 1. cbn [lift].
  eapply effects_step; eauto using only_refl; [apply new_makes; auto| |].
  - intros w1 n q Hq W1 O1 K1 N1 N0 D V1 Vn. rewrite Hq. apply (effects_read _ _ _ _ p); auto. eapply effects_self; eauto; [apply (updates_rebind w1 k p _ W1 V1)| |discriminate].
    intros _ _ w2 W2 O2 O12 V2. apply keep_effects; auto.
  - intros e ->. auto.
Qed.
Lemma extract_compound_effects w k p c : wf w -> view w k = Some p -> effects w k (h_extract_compound db k c w) (fst (extract_compound db p c)) (do q <- snd (extract_compound db p c); Ok (Some q)).
Proof.
  intros W V. unfold h_extract_compound, extract_compound. apply (effects_read _ _ _ _ p); auto.
  eapply effects_step; eauto using only_refl; [apply new_makes; auto| |].
  2:{ intros e ->. auto. }
  intros w1 n q Hq W1 O1 K1 N1 N0 D V1 Vn. rewrite Hq. destruct (negb _); [apply effects_return; auto|].
  destruct (get_compound_index (tp_material p) c) as [i|e]; cbn [bind]; [|apply effects_raise; auto]. unfold bindM at 1. cbn [lift].
  destruct (get (tp_masses p) i) as [x|e] eqn:G; cbn [bind]; [|apply effects_raise; auto]. unfold bindM at 1. cbn [lift].
  pose proof (store_updates w1 n q i x W1 Vn) as U. destruct (set_nth (tp_masses q) i x) as [rs|e]; cbn [bind] in *.
  2:{ eapply effects_fresh; eauto; [discriminate|]. intros e' He. injection He as <-. auto. }
  eapply effects_fresh; eauto; [|discriminate]. intros _ _ w2 W2 O2 _ V2 Vn2. unfold finish.
  eapply effects_fresh; [exact O2|exact N0|exact D|exact V2|apply set_T_updates; eauto| |].
  2:{ intros e He. rewrite He. auto. }
  intros a Ha w3 W3 O3 _ V3 Vn3. rewrite Ha. cbn [bind].
  eapply effects_fresh; [exact O3|exact N0|exact D|exact V3|apply (set_P_updates w3 n _ _ W3 Vn3)| |discriminate].
  intros _ _ w4 W4 O4 _ V4 Vn4. pose proof (store_updates w4 k p i 0 W4 V4) as U4. destruct (set_nth (tp_masses p) i 0) as [ps|e]; cbn [bind] in *.
  2:{ eapply effects_self; eauto; [discriminate|]. intros e' He. injection He as <-. auto. }
  eapply effects_self; eauto; [|discriminate]. intros _ _ w5 W5 O5 O45 V5. apply keep_effects; auto.
Qed.
Lemma extract_compound_mass_effects w k p c x : wf w -> view w k = Some p ->
  effects w k (h_extract_compound_mass db k c x w) (fst (extract_compound_mass db p c x)) (do q <- snd (extract_compound_mass db p c x); Ok (Some q)).
Proof.
  intros W V. unfold h_extract_compound_mass, extract_compound_mass. apply (effects_read _ _ _ _ p); auto. destruct (negb _).
  { cbn [fst snd]. apply effects_makes; auto. now apply new_makes. }
  destruct (get_compound_index (tp_material p) c) as [i|e]; cbn [bind]; [|apply effects_raise; parts]. unfold bindM at 1. cbn [lift].
  destruct (get (tp_masses p) i) as [y|e] eqn:G; cbn [bind]; [|apply effects_raise; parts]. unfold bindM at 1. cbn [lift].
  destruct (Rlt_dec y x) as [L1|L1]; [apply effects_raise; parts|].
  pose proof (store_updates w k p i (y - x) W V) as U. destruct (set_nth (tp_masses p) i (y - x)) as [ps|e]; cbn [bind] in *.
  2:{ eapply effects_self; eauto using only_refl; [discriminate|]. intros e' He. injection He as <-. auto. }
  eapply effects_self; eauto using only_refl; [|discriminate]. intros _ _ w1 W1 O1 _ V1. unfold keep_T. cbn [fst snd].
  eapply effects_self; [exact O1|apply keep_T_updates; eauto| |].
  2:{ intros e He. rewrite He. auto. }
  intros a Ha w2 W2 O2 _ V2. rewrite Ha. cbn [bind]. eapply effects_read; [exact V2|].
  assert (Em : tp_material (fst (set_T db (set_masses p ps) (tp_T (set_masses p ps)))) = tp_material p) by (unfold set_T; destruct (calculate_H db _ _); reflexivity).
  assert (Ep : tp_P (fst (set_T db (set_masses p ps) (tp_T (set_masses p ps)))) = tp_P p) by (unfold set_T; destruct (calculate_H db _ _); reflexivity).
  assert (Et : tp_T (fst (set_T db (set_masses p ps) (tp_T (set_masses p ps)))) = tp_T p) by apply T_set_T.
  rewrite Em, Ep, Et. eapply effects_step; [exact O2|exact V2|apply new_makes; auto| |].
  2:{ intros e He. rewrite He. auto. }
  intros w3 n q Hq W3 O3 K3 N3 N0 D V3 Vn. rewrite Hq. cbn [bind].
  destruct (add_pair_makes w3 w3 n q c x W3 (keeps_refl w3) Vn) as (w4 & s & E & W4 & K4 & H). unfold bindM at 1. rewrite E. destruct (add_pair db q c x) as [r|e], s as [n2|e']; try contradiction; cbn [bind].
  - destruct H as [N4 V4]. assert (O4 : only w w4 k) by (intros j z J G'; apply K4; now apply O3). apply effects_return; auto.
    + destruct (view w n2) eqn:G'; auto. assert (n2 <> k). { intros ->. congruence. } apply O3 in G'; auto. congruence.
    + intros ->. congruence.
  - subst e'. exists w4, (Err e). parts. intros j z J G'. apply K4. now apply O3.
Qed.
Lemma extract_each_effects w0 k cs : forall w n p q, wf w -> only w0 w k -> view w0 n = None -> n <> k -> view w k = Some p -> view w n = Some q -> (exists p0, view w0 k = Some p0) ->
  effects w0 k (h_extract_each db k n cs w) (fst (extract_each db p q cs)) (do q <- snd (extract_each db p q cs); Ok (Some q)).
Proof.
  induction cs as [|c cs IH]; intros w n p q W On N D V Vn E0; cbn [h_extract_each extract_each].
  - apply (effects_read _ _ _ _ p); auto. unfold finish. eapply effects_fresh; [exact On|exact N|exact D|exact V|apply set_T_updates; eauto| |].
    + intros a Ha w1 W1 O1 _ V1 Vn1. cbn [fst snd]. rewrite Ha. cbn [bind]. apply effects_return; auto.
    + intros e He. cbn [fst snd]. rewrite He. auto.
  - apply (effects_read _ _ _ _ p); auto. destruct (get_compound_mass p c) as [x|e]; cbn [bind]; [|apply effects_raise; auto]. unfold bindM at 1. cbn [lift].
    destruct (add_pair_makes w w n q c x W (keeps_refl w) Vn) as (w1 & s & E & W1 & K1 & H). unfold bindM at 1. rewrite E.
    assert (O1 : only w0 w1 k) by (intros j z J G'; apply K1; now apply On). destruct (add_pair db q c x) as [r|e], s as [n2|e']; try contradiction.
    2:{ subst e'. exists w1, (Err e). cbn [fst snd bind]. parts. }
    destruct H as [N1 V1]. assert (D2 : n2 <> k) by congruence. assert (Vk : view w1 k = Some p) by now apply K1.
    assert (N2 : view w0 n2 = None). { destruct (view w0 n2) eqn:G'; auto. apply On in G'; auto. congruence. }
    pose proof (extract_compound_effects w1 k p c W1 Vk) as X. destruct (extract_compound db p c) as [p1 [r1|e1]]; cbn [fst snd bind] in X.
    + eapply effects_call; [exact O1|exact X| |discriminate]. intros y Hy w2 s2 W2 O2 O12 V2. apply IH; auto.
    + eapply effects_call; [exact O1|exact X|discriminate|]. intros e' He. injection He as <-. auto.
Qed.
Lemma extract_effects w k p a : wf w -> view w k = Some p -> effects w k (h_extract db k a w) (fst (extract db p (other_arg a))) (do q <- snd (extract db p (other_arg a)); Ok (Some q)).
Proof.
  intros W V. destruct a as [c x|c x T|x|c|m|]; cbn [h_extract other_arg extract].
  - now apply extract_compound_mass_effects.
  - apply effects_raise; parts.
  - now apply extract_mass_effects.
  - now apply extract_compound_effects.
  - unfold h_extract_material, extract_material. eapply effects_step; eauto using only_refl; [apply new_makes; auto| |].
    + intros w1 n q Hq W1 O1 K1 N1 N0 D V1 Vn. rewrite Hq. apply extract_each_effects; eauto.
    + intros e ->. auto.
  - apply effects_raise; parts.
Qed.

Lemma creates w c : wf w -> makes w (h_create db c w) (v_create db c).
Proof. intros W. destruct c as [[[[[m a] x] P] T] b]. cbn [h_create v_create]. now apply new_makes. Qed.
Lemma acts w o k p y v : wf w -> view w k = Some p -> sees w y v -> effects w k (h_method db o k y w) (fst (v_method db o p v)) (snd (v_method db o p v)).
Proof.
  intros W V Y. assert (E : number_of y = number_of v) by (destruct y, v; cbn in Y; try contradiction; subst; reflexivity). destruct o; cbn [h_method v_method fst snd].
  - apply effects_makes; auto. now apply add_makes.
  - rewrite E. destruct (number_of v) as [x|]; [|apply effects_raise; parts]. apply effects_makes; auto. apply mul_makes; auto. apply keeps_refl.
  - apply (effects_makes w k p (clone k) (Ok p) V). now apply makes_clone.
  - destruct y as [j|a], v as [q|b]; try contradiction.
    + apply effects_raise; parts.
    + cbn in Y. subst b. now apply extract_effects.
  - apply (effects_updates w k (h_clear k) (clear p) (Ok tt)). now apply clear_updates.
  - rewrite E. destruct (number_of v) as [x|]; [|apply effects_raise; parts]. apply effects_updates. now apply set_T_updates.
  - rewrite E. destruct (number_of v) as [x|]; [|apply effects_raise; parts]. apply effects_updates. now apply set_H_updates.
  - rewrite E. destruct (number_of v) as [x|]; [|apply effects_raise; parts]. apply (effects_updates w k (h_set_P k x) (set_P p x) (Ok tt)). now apply set_P_updates.
Qed.
End Db.
