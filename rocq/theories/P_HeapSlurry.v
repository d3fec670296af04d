From Verif Require Import Prelude M_Stoichiometry M_Lists M_Float M_Heap Spec_Heap P_Heap M_Slurry M_HeapSlurry.
Local Open Scope list_scope.
Implicit Types (w : world scalars fl) (p q : package).

Lemma add_class_makes w0 w k p s x : wf w -> keeps w0 w -> view w k = Some p -> makes w0 (h_add_class k s x w) (add_class p s x).
Proof.
  intros W K V. unfold h_add_class, add_class. apply (makes_read _ _ _ p); auto. apply makes_lift_bind; auto. intros i _.
  pose proof (makes_step w0 w (clone k) (fun n => do! r <- read n; do! y <- lift (get (sk_masses r) i); do! _ <- store n i (fadd y x); ret n) (Ok p)
    (fun r => do y <- get (sk_masses r) i; do ms <- set_nth (sk_masses r) i (fadd y x); Ok (mksl (sk_material r) (sk_density r) (sk_water r) ms)) K (makes_clone w k p W V)) as H.
  cbn [bind] in H. apply H. clear H. intros w1 n q Hq W1 K1 K01 N N0 V1. injection Hq as ->. apply (makes_read _ _ _ q); auto. apply makes_lift_bind; auto. intros y _.
  eapply makes_update with (q := match set_nth (items q) i (fadd y x) with Ok l => make (attrs q) l | Err _ => q end); eauto.
  - apply updates_store; eauto.
  - cbn [items attrs make layout fst snd]. intros a Ha w2 W2 K2 _ V2. destruct (set_nth (sk_masses q) i (fadd y x)) as [l|e]; [|discriminate]. cbn [bind]. apply makes_ret; auto.
  - cbn [items layout]. intros e He. destruct (set_nth (sk_masses q) i (fadd y x)) as [l|e']; [discriminate|]. cbn in *. congruence.
Qed.

Lemma add_loop w0 j p o l : forall w n r, wf w -> keeps w0 w -> view w0 n = None -> view w0 j = Some o -> view w n = Some r ->
  makes w0 (forM (fun n s => if negb (member qdec s (sl_classes (sk_material p))) then lift (Err TypeError) else
      do! o <- read j; do! x <- lift (get_size_class_mass o s); h_add_class n (Fin s) x) l n w)
    (foldM (fun r s => if negb (member qdec s (sl_classes (sk_material p))) then Err TypeError else do x <- get_size_class_mass o s; add_class r (Fin s) x) l r).
Proof.
  induction l as [|s l IH]; intros w n r W K N J V; cbn [forM foldM].
  - apply makes_ret; auto.
  - apply makes_step; auto.
    + destruct (negb _); [apply makes_raise; auto; apply keeps_refl|]. apply (makes_read _ _ _ o); [now apply K|]. apply makes_lift_bind; auto; [apply keeps_refl|]. intros x _. apply add_class_makes; auto. apply keeps_refl.
Qed.

Lemma add_makes w k p y v : wf w -> view w k = Some p -> sees w y v -> makes w (h_add k y w) (add p (v_arg v)).
Proof.
  intros W V Y. destruct y as [j|a], v as [o|b]; try contradiction; cbn [sees] in Y.
  - cbn [h_add v_arg add]. apply (makes_read _ _ _ p); auto. apply (makes_read _ _ _ o); auto. destruct (_ =? _)%Z.
    + apply makes_lift_bind; auto; [apply keeps_refl|]. intros ms _. now apply makes_new.
    + match goal with |- makes _ _ (foldM ?f ?l (mksl ?m ?d ?x ?ms)) => change (foldM f l (mksl m d x ms)) with (bind (Ok p) (fun r => foldM f l (mksl (sk_material r) d x (sk_masses r)))) end.
      apply makes_step; [apply keeps_refl|now apply makes_clone|]. intros w1 n q _ W1 K1 _ N1 _ V1. apply (makes_read _ _ _ q); auto.
      eapply makes_update; eauto; [apply updates_attrs; eauto| |discriminate]. intros _ _ w2 W2 K2 O2 V2. eapply add_loop; eauto.
  - subst b. cbn [h_add v_arg].
    assert (T : forall t, makes w (match water_mass_tuple t with
      | Some x => do! n <- clone k; do! r <- read n; do! _ <- set_attrs n (sk_material r, sk_density r, fadd (sk_water r) x); ret n
      | None => match size_class_mass_tuple t with Some (s, x) => h_add_class k s x | None => lift (Err TypeError) end end w)
      (match water_mass_tuple t with
      | Some x => Ok (mksl (sk_material p) (sk_density p) (fadd (sk_water p) x) (sk_masses p))
      | None => match size_class_mass_tuple t with Some (s, x) => add_class p s x | None => Err TypeError end end)).
    { intros t. destruct (water_mass_tuple t) as [x|].
      - pose proof (makes_step w w (clone k) (fun n => do! r <- read n; do! _ <- set_attrs n (sk_material r, sk_density r, fadd (sk_water r) x); ret n) (Ok p)
          (fun r => Ok (mksl (sk_material r) (sk_density r) (fadd (sk_water r) x) (sk_masses r))) (keeps_refl w) (makes_clone w k p W V)) as H. apply H; clear H.
        intros w1 n q _ W1 K1 _ N1 _ V1. apply (makes_read _ _ _ q); auto. eapply makes_update; eauto; [apply updates_attrs; eauto| |discriminate]. intros _ _ w2 W2 K2 O2 V2. apply makes_ret; auto.
      - destruct (size_class_mass_tuple t) as [[s x]|]; [apply add_class_makes; auto; apply keeps_refl|apply makes_raise; auto; apply keeps_refl]. }
    destruct a as [l|u]; [exact (T (ATuple l))|exact (T (AVal u))].
Qed.
Lemma mul_makes w k p a : wf w -> view w k = Some p -> makes w (h_mul k a w) (mul p a).
Proof.
  intros W V. unfold h_mul, mul. destruct (as_float a) as [x|]; [|apply makes_raise; auto; apply keeps_refl]. destruct (flt x (Fin 0)); [apply makes_raise; auto; apply keeps_refl|].
  apply (makes_read _ _ _ p); auto. now apply makes_new.
Qed.
Lemma clear_updates w k p : wf w -> view w k = Some p -> updates w k (h_clear k w) (clear p) (Ok tt).
Proof.
  intros W V. unfold h_clear. apply (updates_read _ _ _ p); auto. eapply updates_bind; [apply updates_attrs; eauto| |discriminate].
  intros _ _ w1 W1 O1 V1. eapply updates_read; eauto. apply (updates_rebind w1 k _ _ W1 V1).
Qed.

Lemma extract_effects float_of w k p a : wf w -> view w k = Some p ->
  let x := extract float_of p (other_arg a) in effects w k (h_extract float_of k a w) (fst x) (do q <- snd x; Ok (Some q)).
Proof.
  intros W V. cbn zeta. unfold h_extract. apply (effects_read _ _ _ _ p); auto.
  assert (Mass : forall x, effects w k ((if flt (get_mass p) x then lift (Err PyException) else
      do! n <- new (mksl (sk_material p) (sk_density p) (fmul (sk_water p) (fdiv x (get_mass p))) (array_mul (sk_masses p) (fdiv x (get_mass p))));
      do! q <- read k; do! _ <- set_attrs k (sk_material q, sk_density q, fmul (sk_water q) (fsub (Fin 1) (fdiv x (get_mass p))));
      do! q <- read k; do! _ <- rebind k (array_mul (sk_masses q) (fsub (Fin 1) (fdiv x (get_mass p)))); ret (Some n)) w)
      (fst (extract float_of p (AVal (NvFloat x)))) (do q <- snd (extract float_of p (AVal (NvFloat x))); Ok (Some q))).
  { intros x. cbn [extract]. destruct (flt (get_mass p) x); [apply effects_raise; parts|]. eapply effects_step; eauto using only_refl; [apply makes_new; auto| |discriminate].
    intros w1 n q Hq W1 O1 K1 N1 N0 D V1 Vn. injection Hq as <-. apply (effects_read _ _ _ _ p); auto. eapply effects_self; eauto; [apply (updates_attrs w1 k p _ W1 V1)| |discriminate].
    intros _ _ w2 W2 O2 O12 V2. eapply effects_read; [exact V2|]. eapply effects_self; eauto; [apply (updates_rebind w2 k _ _ W2 V2)| |discriminate].
    intros _ _ w3 W3 O3 O23 V3. cbn [fst snd bind]. apply effects_return; auto. }
  assert (Tup : forall o, effects w k (match size_class_mass_tuple o with None => lift (Err TypeError) | Some (s, x) =>
      do! i <- lift (class_index (sk_material p) s); do! y <- lift (get (sk_masses p) i); if flt y x then lift (Err PyException) else
      do! _ <- store k i (fsub y x); do! q <- read k; do! l <- lift (set_nth (array_mul (sk_masses q) (Fin 0)) i x); do! n <- new (mksl (sk_material q) (sk_density q) (Fin 0) l); ret (Some n) end w)
      (fst (match size_class_mass_tuple o with None => (p, Err TypeError) | Some (s, x) => match class_index (sk_material p) s with Err e => (p, Err e) | Ok i => take_class p i x end end))
      (do q <- snd (match size_class_mass_tuple o with None => (p, Err TypeError) | Some (s, x) => match class_index (sk_material p) s with Err e => (p, Err e) | Ok i => take_class p i x end end); Ok (Some q))).
  { intros o. destruct (size_class_mass_tuple o) as [[s x]|]; [|apply effects_raise; parts]. destruct (class_index (sk_material p) s) as [i|e]; [|apply effects_raise; parts]. unfold take_class.
    destruct (get (sk_masses p) i) as [y|e] eqn:G; [|unfold bindM, lift; rewrite G; apply effects_raise; parts]. unfold bindM at 1. cbn [lift]. rewrite G. unfold bindM at 1. cbn [lift].
    destruct (flt y x); [apply effects_raise; parts|]. pose proof (updates_store w k p i (fsub y x) W V) as U. cbn [items make attrs layout fst snd] in U. destruct (set_nth (sk_masses p) i (fsub y x)) as [ps|e].
    - eapply effects_self; eauto using only_refl; [|discriminate]. intros _ _ w1 W1 O1 _ V1. apply (effects_read _ _ _ _ (mksl (sk_material p) (sk_density p) (sk_water p) ps)); auto. cbn [sk_masses sk_material].
      destruct (set_nth (array_mul ps (Fin 0)) i x) as [l|e]; [|apply effects_raise; parts]. unfold bindM at 1. cbn [lift]. cbn [fst snd bind].
      eapply effects_step; eauto; [apply makes_new; auto| |discriminate]. intros w2 n q Hq W2 O2 K2 N2 N0 D V2 Vn. injection Hq as <-. apply effects_return; auto.
    - eapply effects_self; eauto using only_refl; [discriminate|]. intros e' He. injection He as <-. auto. }
  destruct a as [l|[x|x|s|]]; cbn [other_arg].
  - cbn [extract]. destruct (water_mass_tuple (ATuple l)) as [x|]; [|exact (Tup (ATuple l))]. destruct (flt (sk_water p) x); [apply effects_raise; parts|].
    eapply effects_self; eauto using only_refl; [apply (updates_attrs w k p _ W V)| |discriminate]. intros _ _ w1 W1 O1 _ V1. eapply effects_read; [exact V1|].
    eapply effects_step; eauto; [apply makes_new; auto| |discriminate]. intros w2 n q Hq W2 O2 K2 N2 N0 D V2 Vn. injection Hq as <-. apply effects_return; auto.
  - exact (Mass x).
  - exact (Mass x).
  - cbn [extract]. destruct (do z <- float_of s; get_size_class_index (sk_material p) z) as [i|e]; [|apply effects_raise; parts]. unfold bindM at 1. cbn [lift]. unfold take_all.
    eapply effects_step; eauto using only_refl; [apply (mul_makes w k p (NvFloat (Fin 0)) W V)| |discriminate]. intros w1 n q Hq W1 O1 K1 N1 N0 D V1 Vn. injection Hq as <-.
    apply (effects_read _ _ _ _ p); auto. destruct (get (sk_masses p) i) as [y|e] eqn:G; [|apply effects_raise; parts]. unfold bindM at 1. cbn [lift].
    pose proof (updates_store w1 n _ i y W1 Vn) as U. cbn [items make attrs layout fst snd sk_masses sk_material sk_density sk_water] in U. destruct (set_nth (array_mul (sk_masses p) (Fin 0)) i y) as [rs|e].
    + eapply effects_fresh; eauto; [|discriminate]. intros _ _ w2 W2 O2 O12 V2 Vn2. pose proof (updates_store w2 k p i (Fin 0) W2 V2) as U2. cbn [items make attrs layout fst snd] in U2. destruct (set_nth (sk_masses p) i (Fin 0)) as [ps|e].
      * eapply effects_self; eauto; [|discriminate]. intros _ _ w3 W3 O3 O23 V3. cbn [fst snd bind]. apply effects_return; auto.
      * eapply effects_self; eauto; [discriminate|]. intros e' He. injection He as <-. auto.
    + eapply effects_fresh; eauto; [discriminate|]. intros e' He. injection He as <-. auto.
  - exact (Tup (AVal NvOther)).
Qed.

Lemma creates w c : wf w -> makes w (h_create c w) (v_create c).
Proof. intros W. destruct c as [[[m a] x] b]. cbn [h_create v_create]. now apply makes_lift. Qed.
Lemma acts float_of w o k p y v : wf w -> view w k = Some p -> sees w y v -> effects w k (h_method float_of o k y w) (fst (v_method float_of o p v)) (snd (v_method float_of o p v)).
Proof.
  intros W V Y. destruct o; cbn [h_method v_method fst snd].
  - apply effects_makes; auto. now apply add_makes.
  - assert (E : scalar_of y = scalar_of v) by (destruct y, v; cbn in Y; try contradiction; subst; reflexivity). rewrite E. apply effects_makes; auto. now apply mul_makes.
  - apply (effects_makes w k p (clone k) (Ok p) V). now apply makes_clone.
  - destruct y as [j|a], v as [q|b]; try contradiction.
    + apply effects_raise; parts.
    + cbn in Y. subst b. now apply extract_effects.
  - apply effects_raise; parts.
  - apply (effects_updates w k (h_clear k) (clear p) (Ok tt)). now apply clear_updates.
Qed.
