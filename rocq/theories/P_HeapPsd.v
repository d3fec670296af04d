From Verif Require Import Prelude M_Stoichiometry M_Lists M_Float M_Heap Spec_Heap P_Heap M_Psd M_HeapPsd.
Local Open Scope list_scope.
Implicit Types (w : world material fl) (p q : package).

Lemma add_class_makes w0 w k p s x : wf w -> keeps w0 w -> view w k = Some p -> makes w0 (h_add_class k s x w) (add_class p s x).
Proof.
  intros W K V. unfold h_add_class, add_class. apply (makes_read _ _ _ p); auto. apply makes_lift_bind; auto. intros i _.
  pose proof (makes_step w0 w (clone k) (fun n => do! r <- read n; do! y <- lift (get (pk_masses r) i); do! _ <- store n i (fadd y x); ret n) (Ok p)
    (fun r => do y <- get (pk_masses r) i; do ms <- set_nth (pk_masses r) i (fadd y x); Ok (mkpsd (pk_material r) ms)) K (makes_clone w k p W V)) as H.
  cbn [bind] in H. apply H. clear H. intros w1 n q Hq W1 K1 K01 N N0 V1. injection Hq as ->. apply (makes_read _ _ _ q); auto. apply makes_lift_bind; auto. intros y _.
  eapply makes_update with (q := match set_nth (items q) i (fadd y x) with Ok l => make (attrs q) l | Err _ => q end); eauto.
  - apply updates_store; eauto.
  - cbn [items attrs make layout]. intros a Ha w2 W2 K2 _ V2. destruct (set_nth (pk_masses q) i (fadd y x)) as [l|e]; [|discriminate]. cbn [bind]. apply makes_ret; auto.
  - cbn [items layout]. intros e He. destruct (set_nth (pk_masses q) i (fadd y x)) as [l|e']; [discriminate|]. cbn in *. congruence.
Qed.

Lemma add_loop w0 j p o l : forall w n r, wf w -> keeps w0 w -> view w0 n = None -> view w0 j = Some o -> view w n = Some r ->
  makes w0 (forM (fun n s => if negb (member qdec s (ps_classes (pk_material p))) then lift (Err TypeError) else
      do! o <- read j; do! x <- lift (get_size_class_mass o s); h_add_class n (Fin s) x) l n w)
    (foldM (fun r s => if negb (member qdec s (ps_classes (pk_material p))) then Err TypeError else do x <- get_size_class_mass o s; add_class r (Fin s) x) l r).
Proof.
  induction l as [|s l IH]; intros w n r W K N J V; cbn [forM foldM].
  - apply makes_ret; auto.
  - apply makes_step; auto.
    + destruct (negb _); [apply makes_raise; auto; apply keeps_refl|]. apply (makes_read _ _ _ o); [now apply K|]. apply makes_lift_bind; auto; [apply keeps_refl|]. intros x _. apply add_class_makes; auto. apply keeps_refl.
Qed.

Lemma add_makes w k p y v : wf w -> view w k = Some p -> sees w y v -> makes w (h_add k y w) (add p (v_arg v)).
Proof.
  intros W V Y. destruct y as [j|a], v as [o|b]; try contradiction; cbn [sees] in Y.
  - cbn [h_add v_arg add]. apply (makes_read _ _ _ p); auto. apply (makes_read _ _ _ o); auto. destruct (_ =? _)%Z.
    + apply makes_lift_bind; auto; [apply keeps_refl|]. intros ms _. now apply makes_new.
    + match goal with |- makes _ _ (foldM ?f ?l p) => change (foldM f l p) with (bind (Ok p) (foldM f l)) end.
      apply makes_step; [apply keeps_refl|now apply makes_clone|]. intros w1 n q _ W1 K1 _ N1 _ V1. eapply add_loop; eauto.
  - subst b. cbn [h_add v_arg]. destruct a as [l|u]; cbn [other_arg add].
    + destruct (size_class_mass_tuple (ATuple l)) as [[s x]|]; [apply add_class_makes; auto; apply keeps_refl|apply makes_raise; auto; apply keeps_refl].
    + destruct (size_class_mass_tuple (AVal u)) as [[s x]|]; [apply add_class_makes; auto; apply keeps_refl|apply makes_raise; auto; apply keeps_refl].
Qed.
Lemma mul_makes w k p a : wf w -> view w k = Some p -> makes w (h_mul k a w) (mul p a).
Proof.
  intros W V. unfold h_mul, mul. destruct (as_float a) as [x|]; [|apply makes_raise; auto; apply keeps_refl]. destruct (flt x (Fin 0)); [apply makes_raise; auto; apply keeps_refl|].
  apply (makes_read _ _ _ p); auto. now apply makes_new.
Qed.
Lemma clear_updates w k p : wf w -> view w k = Some p -> updates w k (h_clear k w) (clear p) (Ok tt).
Proof. intros W V. unfold h_clear. apply (updates_read _ _ _ p); auto. apply (updates_rebind w k p (array_mul (pk_masses p) (Fin 0)) W V). Qed.

Lemma add_to_class_updates w k p s x : wf w -> view w k = Some p ->
  updates w k (h_add_to_class k s x w) (match add_class p s x with Ok p' => p' | Err _ => p end) (do _ <- add_class p s x; Ok tt).
Proof.
  intros W V. unfold h_add_to_class, add_class. apply (updates_read _ _ _ p); auto.
  destruct (class_index (pk_material p) s) as [i|e]; cbn [bind]; [|exists w; parts]. unfold bindM at 1. cbn [lift].
  destruct (get (pk_masses p) i) as [y|e]; cbn [bind]; [|exists w; parts]. unfold bindM at 1. cbn [lift].
  pose proof (updates_store w k p i (fadd y x) W V) as U. cbn [items make attrs layout] in U. destruct (set_nth (pk_masses p) i (fadd y x)); exact U.
Qed.
Lemma add_class_material p s x q : add_class p s x = Ok q -> pk_material q = pk_material p.
Proof.
  unfold add_class. destruct (class_index (pk_material p) s) as [i|]; [|discriminate]. cbn [bind]. destruct (get (pk_masses p) i); [|discriminate]. cbn [bind]. destruct (set_nth (pk_masses p) i _); [|discriminate]. cbn [bind]. intros H. injection H as <-. reflexivity.
Qed.
Lemma add_each_updates k j o l : forall w p, wf w -> view w k = Some p -> j <> k -> view w j = Some o ->
  updates w k (forM (fun _ s => do! p <- read k; if negb (member qdec s (ps_classes (pk_material p))) then lift (Err TypeError) else
      do! o <- read j; do! x <- lift (get_size_class_mass o s); h_add_to_class k (Fin s) x) l tt w) (fst (add_each p o l)) (snd (add_each p o l)).
Proof.
  induction l as [|s l IH]; intros w p W V D J; cbn [forM add_each].
  - apply updates_ret; auto.
  - eapply updates_bind with (p1 := match (if negb (member qdec s (ps_classes (pk_material p))) then Err TypeError else do x <- get_size_class_mass o s; add_class p (Fin s) x) with Ok p' => p' | Err _ => p end)
      (r := do _ <- (if negb (member qdec s (ps_classes (pk_material p))) then Err TypeError else do x <- get_size_class_mass o s; add_class p (Fin s) x); Ok tt).
    + apply (updates_read _ _ _ p); auto. destruct (negb _); [apply updates_lift; auto|]. apply (updates_read _ _ _ o); auto. destruct (get_size_class_mass o s) as [x|e]; cbn [bind]; [|exists w; parts]. apply add_to_class_updates; auto.
    + intros a Ha w1 W1 On V1. destruct (negb _); [discriminate|]. destruct (do x <- get_size_class_mass o s; add_class p (Fin s) x) as [p'|e]; [|discriminate]. destruct a. apply IH; auto.
    + intros e He. destruct (negb _); [cbn in *; split; congruence|]. destruct (do x <- get_size_class_mass o s; add_class p (Fin s) x) as [p'|e']; [discriminate|]. cbn in *. split; congruence.
Qed.
Lemma add_to_updates w k p y v : wf w -> view w k = Some p -> sees w y v -> updates w k (h_add_to k y w) (fst (add_to p (v_arg v))) (snd (add_to p (v_arg v))).
Proof.
  intros W V Y. destruct y as [j|a], v as [o|b]; try contradiction; cbn [sees] in Y.
  - cbn [h_add_to v_arg add_to]. apply (updates_read _ _ _ p); auto. apply (updates_read _ _ _ o); auto. destruct (_ =? _)%Z eqn:I.
    + destruct (array_add (pk_masses p) (pk_masses o)) as [ms|e]; [|exists w; parts]. apply (updates_rebind w k p ms W V).
    + apply add_each_updates; auto. intros ->. rewrite V in Y. injection Y as <-. rewrite Z.eqb_refl in I. discriminate.
  - subst b. cbn [h_add_to v_arg]. destruct a as [l|u]; cbn [other_arg add_to].
    + destruct (size_class_mass_tuple (ATuple l)) as [[s x]|]; [|apply updates_lift; auto]. pose proof (add_to_class_updates w k p s x W V) as U. destruct (add_class p s x); exact U.
    + destruct (size_class_mass_tuple (AVal u)) as [[s x]|]; [|apply updates_lift; auto]. pose proof (add_to_class_updates w k p s x W V) as U. destruct (add_class p s x); exact U.
Qed.

Lemma extract_effects float_of w k p a : wf w -> view w k = Some p ->
  let x := extract float_of p (other_arg a) in effects w k (h_extract float_of k a w) (fst x) (do q <- snd x; Ok (Some q)).
Proof.
  intros W V. cbn zeta. unfold h_extract. apply (effects_read _ _ _ _ p); auto.
  assert (Mass : forall x, effects w k ((if flt (get_mass p) x then lift (Err PyException) else
      do! n <- new (mkpsd (pk_material p) (array_mul (pk_masses p) (fdiv x (get_mass p)))); do! p0 <- read k; do! _ <- rebind k (array_mul (pk_masses p0) (fsub (Fin 1) (fdiv x (get_mass p)))); ret (Some n)) w)
      (fst (extract float_of p (AVal (NvFloat x)))) (do q <- snd (extract float_of p (AVal (NvFloat x))); Ok (Some q))).
  { intros x. cbn [extract]. destruct (flt (get_mass p) x); [apply effects_raise; parts|]. eapply effects_step; eauto using only_refl; [apply makes_new; auto| |discriminate].
    intros w1 n q Hq W1 O1 K1 N1 N0 D V1 Vn. injection Hq as <-. apply (effects_read _ _ _ _ p); auto. eapply effects_self; eauto; [apply (updates_rebind w1 k p _ W1 V1)| |discriminate].
    intros _ _ w2 W2 O2 O12 V2. cbn [fst snd bind]. apply effects_return; auto. }
  assert (Tup : forall o, effects w k (match size_class_mass_tuple o with None => lift (Err TypeError) | Some (s, x) =>
      do! i <- lift (class_index (pk_material p) s); do! y <- lift (get (pk_masses p) i); if flt y x then lift (Err PyException) else
      do! _ <- store k i (fsub y x); do! p <- read k; do! l <- lift (set_nth (array_mul (pk_masses p) (Fin 0)) i x); do! n <- new (mkpsd (pk_material p) l); ret (Some n) end w)
      (fst (match size_class_mass_tuple o with None => (p, Err TypeError) | Some (s, x) => match class_index (pk_material p) s with Err e => (p, Err e) | Ok i => take_class p i x end end))
      (do q <- snd (match size_class_mass_tuple o with None => (p, Err TypeError) | Some (s, x) => match class_index (pk_material p) s with Err e => (p, Err e) | Ok i => take_class p i x end end); Ok (Some q))).
  { intros o. destruct (size_class_mass_tuple o) as [[s x]|]; [|apply effects_raise; parts]. destruct (class_index (pk_material p) s) as [i|e]; [|apply effects_raise; parts]. unfold take_class.
    destruct (get (pk_masses p) i) as [y|e] eqn:G; [|unfold bindM, lift; rewrite G; apply effects_raise; parts]. unfold bindM at 1. cbn [lift]. rewrite G. unfold bindM at 1. cbn [lift].
    destruct (flt y x); [apply effects_raise; parts|]. pose proof (updates_store w k p i (fsub y x) W V) as U. cbn [items make attrs layout] in U. destruct (set_nth (pk_masses p) i (fsub y x)) as [ps|e].
    - eapply effects_self; eauto using only_refl; [|discriminate]. intros _ _ w1 W1 O1 _ V1. apply (effects_read _ _ _ _ (mkpsd (pk_material p) ps)); auto. cbn [pk_masses pk_material].
      destruct (set_nth (array_mul ps (Fin 0)) i x) as [l|e]; [|apply effects_raise; parts]. unfold bindM at 1. cbn [lift]. cbn [fst snd bind].
      eapply effects_step; eauto; [apply makes_new; auto| |discriminate]. intros w2 n q Hq W2 O2 K2 N2 N0 D V2 Vn. injection Hq as <-. apply effects_return; auto.
    - eapply effects_self; eauto using only_refl; [discriminate|]. intros e' He. injection He as <-. auto. }
  destruct a as [l|[x|x|s|]]; cbn [other_arg].
  - exact (Tup _).
  - exact (Mass x).
  - exact (Mass x).
  - cbn [extract]. destruct (do z <- float_of s; get_size_class_index (pk_material p) z) as [i|e]; [|apply effects_raise; parts]. unfold bindM at 1. cbn [lift]. unfold take_all.
    eapply effects_step; eauto using only_refl; [apply (mul_makes w k p (NvFloat (Fin 0)) W V)| |discriminate]. intros w1 n q Hq W1 O1 K1 N1 N0 D V1 Vn. injection Hq as <-.
    apply (effects_read _ _ _ _ p); auto. destruct (get (pk_masses p) i) as [y|e] eqn:G; [|apply effects_raise; parts]. unfold bindM at 1. cbn [lift].
    pose proof (updates_store w1 n _ i y W1 Vn) as U. cbn [items make attrs layout pk_masses pk_material] in U. destruct (set_nth (array_mul (pk_masses p) (Fin 0)) i y) as [rs|e].
    + eapply effects_fresh; eauto; [|discriminate]. intros _ _ w2 W2 O2 O12 V2 Vn2. pose proof (updates_store w2 k p i (Fin 0) W2 V2) as U2. cbn [items make attrs layout] in U2. destruct (set_nth (pk_masses p) i (Fin 0)) as [ps|e].
      * eapply effects_self; eauto; [|discriminate]. intros _ _ w3 W3 O3 O23 V3. cbn [fst snd bind]. apply effects_return; auto.
      * eapply effects_self; eauto; [discriminate|]. intros e' He. injection He as <-. auto.
    + eapply effects_fresh; eauto; [discriminate|]. intros e' He. injection He as <-. auto.
  - exact (Tup (AVal NvOther)).
Qed.

Lemma creates w c : wf w -> makes w (h_create c w) (v_create c).
Proof. intros W. destruct c as [[[m a] x] b]. cbn [h_create v_create]. now apply makes_lift. Qed.
Lemma acts float_of w o k p y v : wf w -> view w k = Some p -> sees w y v -> effects w k (h_method float_of o k y w) (fst (v_method float_of o p v)) (snd (v_method float_of o p v)).
Proof.
  intros W V Y. destruct o; cbn [h_method v_method fst snd].
  - apply effects_makes; auto. now apply add_makes.
  - assert (E : scalar_of y = scalar_of v) by (destruct y, v; cbn in Y; try contradiction; subst; reflexivity). rewrite E. apply effects_makes; auto. now apply mul_makes.
  - apply (effects_makes w k p (clone k) (Ok p) V). now apply makes_clone.
  - destruct y as [j|a], v as [q|b]; try contradiction.
    + apply effects_raise; parts.
    + cbn in Y. subst b. now apply extract_effects.
  - apply effects_updates. now apply add_to_updates.
  - apply (effects_updates w k (h_clear k) (clear p) (Ok tt)). now apply clear_updates.
Qed.
