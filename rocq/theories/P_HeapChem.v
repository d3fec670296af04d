From Verif Require Import Prelude M_Elements M_Stoichiometry M_Lists M_Float M_Heap Spec_Heap P_Heap M_Chem M_HeapChem.
Local Open Scope list_scope.
Implicit Types (w : world material num) (p q : package).

Lemma add_compound_makes w0 w k p c x : wf w -> keeps w0 w -> view w k = Some p -> makes w0 (h_add_compound k c x w) (add_compound p c x).
Proof.
  intros W K V. unfold h_add_compound, add_compound. apply (makes_read _ _ _ p); auto. apply makes_lift_bind; auto. intros i _.
  pose proof (makes_step w0 w (clone k) (fun n => do! r <- read n; do! y <- lift (get (p_masses r) i); do! _ <- store n i (nadd y (NFloat x)); ret n) (Ok p)
    (fun r => do y <- get (p_masses r) i; do ms <- set_nth (p_masses r) i (nadd y (NFloat x)); Ok (mkpkg (p_material r) ms)) K (makes_clone w k p W V)) as H.
  cbn [bind] in H. apply H. clear H. intros w1 n q Hq W1 K1 K01 N N0 V1. injection Hq as ->. apply (makes_read _ _ _ q); auto. apply makes_lift_bind; auto. intros y _.
  eapply makes_update with (q := match set_nth (items q) i (nadd y (NFloat x)) with Ok l => make (attrs q) l | Err _ => q end); eauto.
  - apply updates_store; eauto.
  - cbn [items attrs make layout]. intros a Ha w2 W2 K2 _ V2. destruct (set_nth (p_masses q) i (nadd y (NFloat x))) as [l|e]; [|discriminate]. cbn [bind]. apply makes_ret; auto.
  - cbn [items layout]. intros e He. destruct (set_nth (p_masses q) i (nadd y (NFloat x))) as [l|e']; [discriminate|]. cbn in *. congruence.
Qed.

Lemma add_loop w0 j p o l : forall w n r, wf w -> keeps w0 w -> view w0 n = None -> view w0 j = Some o -> view w n = Some r ->
  makes w0 (forM (fun n c => if negb (member string_dec c (m_compounds (p_material p))) then lift (Err PyException) else
      do! o <- read j; do! x <- lift (get_compound_mass o c); match x with NFloat q => h_add_compound n c q | NInt _ => lift (Err TypeError) end) l n w)
    (foldM (fun r c => if negb (member string_dec c (m_compounds (p_material p))) then Err PyException else do x <- get_compound_mass o c; match x with NFloat q => add_compound r c q | NInt _ => Err TypeError end) l r).
Proof.
  induction l as [|s l IH]; intros w n r W K N J V; cbn [forM foldM].
  - apply makes_ret; auto.
  - apply makes_step; auto.
    destruct (negb _); [apply makes_raise; auto; apply keeps_refl|]. apply (makes_read _ _ _ o); [now apply K|]. apply makes_lift_bind; auto; [apply keeps_refl|]. intros [z|x] _; [apply makes_raise; auto; apply keeps_refl|]. apply add_compound_makes; auto. apply keeps_refl.
Qed.

Lemma add_makes w k p y v : wf w -> view w k = Some p -> sees w y v -> makes w (h_add k y w) (add p (v_arg v)).
Proof.
  intros W V Y. destruct y as [j|a], v as [o|b]; try contradiction; cbn [sees] in Y.
  - cbn [h_add v_arg add]. apply (makes_read _ _ _ p); auto. apply (makes_read _ _ _ o); auto. destruct (_ =? _)%Z.
    + now apply makes_new.
    + match goal with |- makes _ _ (foldM ?f ?l p) => change (foldM f l p) with (bind (Ok p) (foldM f l)) end.
      apply makes_step; [apply keeps_refl|now apply makes_clone|]. intros w1 n q _ W1 K1 _ N1 _ V1. eapply add_loop; eauto.
  - subst b. cbn [h_add v_arg]. destruct a as [l|u]; cbn [other_arg add].
    + destruct (compound_mass_tuple (ATuple l)) as [[s x]|]; [apply add_compound_makes; auto; apply keeps_refl|apply makes_raise; auto; apply keeps_refl].
    + destruct (compound_mass_tuple (AVal u)) as [[s x]|]; [apply add_compound_makes; auto; apply keeps_refl|apply makes_raise; auto; apply keeps_refl].
Qed.
Lemma mul_makes w k p a : wf w -> view w k = Some p -> makes w (h_mul k a w) (mul p a).
Proof.
  intros W V. unfold h_mul, mul. destruct a as [s|[z|x]|]; try (apply makes_raise; auto; apply keeps_refl). destruct (qlt x 0); [apply makes_raise; auto; apply keeps_refl|].
  apply (makes_read _ _ _ p); auto. now apply makes_new.
Qed.

Lemma add_to_compound_updates w k p c x : wf w -> view w k = Some p ->
  updates w k (h_add_to_compound k c x w) (match add_compound p c x with Ok p' => p' | Err _ => p end) (do _ <- add_compound p c x; Ok tt).
Proof.
  intros W V. unfold h_add_to_compound, add_compound. apply (updates_read _ _ _ p); auto.
  destruct (get_compound_index (p_material p) c) as [i|e]; cbn [bind]; [|exists w; parts]. unfold bindM at 1. cbn [lift].
  destruct (get (p_masses p) i) as [y|e]; cbn [bind]; [|exists w; parts]. unfold bindM at 1. cbn [lift].
  pose proof (updates_store w k p i (nadd y (NFloat x)) W V) as U. cbn [items make attrs layout] in U. destruct (set_nth (p_masses p) i (nadd y (NFloat x))); exact U.
Qed.
Lemma add_each_updates k j o l : forall w p, wf w -> view w k = Some p -> j <> k -> view w j = Some o ->
  updates w k (forM (fun _ c => do! p <- read k; if negb (member string_dec c (m_compounds (p_material p))) then lift (Err PyException) else
      do! o <- read j; do! x <- lift (get_compound_mass o c); match x with NFloat q => h_add_to_compound k c q | NInt _ => lift (Err TypeError) end) l tt w) (fst (add_each p o l)) (snd (add_each p o l)).
Proof.
  induction l as [|s l IH]; intros w p W V D J; cbn [forM add_each].
  - apply updates_ret; auto.
  - set (r1 := if negb (member string_dec s (m_compounds (p_material p))) then Err PyException else do x <- get_compound_mass o s; match x with NFloat q => add_compound p s q | NInt _ => Err TypeError end).
    assert (E : (if negb (member string_dec s (m_compounds (p_material p))) then (p, Err PyException) else
      match get_compound_mass o s with Err e => (p, Err e) | Ok (NInt _) => (p, Err TypeError) | Ok (NFloat q) => match add_compound p s q with Err e => (p, Err e) | Ok p' => add_each p' o l end end)
      = match r1 with Ok p' => add_each p' o l | Err e => (p, Err e) end).
    { unfold r1. destruct (negb _); auto. destruct (get_compound_mass o s) as [[z|x]|e]; cbn [bind]; auto. }
    rewrite E. eapply updates_bind with (p1 := match r1 with Ok p' => p' | Err _ => p end) (r := do _ <- r1; Ok tt).
    + apply (updates_read _ _ _ p); auto. unfold r1. destruct (negb _); [apply updates_lift; auto|]. apply (updates_read _ _ _ o); auto. destruct (get_compound_mass o s) as [[z|x]|e]; cbn [bind]; [exists w; parts| |exists w; parts]. apply add_to_compound_updates; auto.
    + intros a Ha w1 W1 On V1. destruct r1 as [p'|e]; [|discriminate]. destruct a. apply IH; auto.
    + intros e He. destruct r1 as [p'|e']; [discriminate|]. cbn in *. split; congruence.
Qed.
Lemma add_to_updates w k p y v : wf w -> view w k = Some p -> sees w y v -> updates w k (h_add_to k y w) (fst (add_to p (v_arg v))) (snd (add_to p (v_arg v))).
Proof.
  intros W V Y. destruct y as [j|a], v as [o|b]; try contradiction; cbn [sees] in Y.
  - cbn [h_add_to v_arg add_to]. apply (updates_read _ _ _ p); auto. apply (updates_read _ _ _ o); auto. destruct (_ =? _)%Z eqn:I.
    + apply (updates_extend w k p (p_masses o) W V).
    + apply add_each_updates; auto. intros ->. rewrite V in Y. injection Y as <-. rewrite Z.eqb_refl in I. discriminate.
  - subst b. cbn [h_add_to v_arg]. destruct a as [l|u]; cbn [other_arg add_to].
    + destruct (compound_mass_tuple (ATuple l)) as [[s x]|]; [|apply updates_lift; auto]. pose proof (add_to_compound_updates w k p s x W V) as U. destruct (add_compound p s x); exact U.
    + destruct (compound_mass_tuple (AVal u)) as [[s x]|]; [|apply updates_lift; auto]. pose proof (add_to_compound_updates w k p s x W V) as U. destruct (add_compound p s x); exact U.
Qed.

Definition take_tuple p (c : string) (x : Qc) : package * res package :=
  match get_compound_index (p_material p) c with
  | Err e => (p, Err e)
  | Ok i => match get (p_masses p) i with
    | Err e => (p, Err e)
    | Ok y => if qlt (val y) x then (p, Err PyException) else
      match set_nth (p_masses p) i (nsub y (NFloat x)), set_nth (repeat (NFloat 0) (length (p_masses p))) i (NFloat x) with
      | Ok ps, Ok rs => (mkpkg (p_material p) ps, Ok (mkpkg (p_material p) rs)) | Err e, _ => (p, Err e) | _, Err e => (p, Err e) end end end.
Lemma set_nth_len {A} (l : list A) i a l' : set_nth l i a = Ok l' -> length l' = length l /\ (i < length l)%nat.
Proof.
  revert i l'. induction l as [|x l IH]; intros [|i] l' H; cbn in *; try discriminate.
  - injection H as <-. cbn. lia.
  - destruct (set_nth l i a) as [r|] eqn:E; [|discriminate]. cbn in H. injection H as <-. apply IH in E. cbn. lia.
Qed.
Lemma set_nth_total {A} (l : list A) i a : (i < length l)%nat -> exists l', set_nth l i a = Ok l'.
Proof. revert i. induction l as [|x l IH]; intros [|i] H; cbn in *; try lia; eauto. destruct (IH i) as [l' ->]; [lia|]. cbn. eauto. Qed.

Lemma extract_effects w k p a : wf w -> view w k = Some p ->
  let x := extract p (other_arg a) in effects w k (h_extract k a w) (fst x) (do q <- snd x; Ok (Some q)).
Proof.
  intros W V. cbn zeta. unfold h_extract. apply (effects_read _ _ _ _ p); auto.
  assert (Tup : forall o, effects w k (match compound_mass_tuple o with None => lift (Err TypeError) | Some (c, x) =>
      do! i <- lift (get_compound_index (p_material p) c); do! y <- lift (get (p_masses p) i); if qlt (val y) x then lift (Err PyException) else
      do! _ <- store k i (nsub y (NFloat x)); do! p <- read k; do! l <- lift (set_nth (repeat (NFloat 0) (length (p_masses p))) i (NFloat x)); do! n <- new (mkpkg (p_material p) l); ret (Some n) end w)
      (fst (match compound_mass_tuple o with None => (p, Err TypeError) | Some (c, x) => take_tuple p c x end))
      (do q <- snd (match compound_mass_tuple o with None => (p, Err TypeError) | Some (c, x) => take_tuple p c x end); Ok (Some q))).
  { intros o. destruct (compound_mass_tuple o) as [[s x]|]; [|apply effects_raise; parts]. unfold take_tuple. destruct (get_compound_index (p_material p) s) as [i|e]; [|apply effects_raise; parts].
    destruct (get (p_masses p) i) as [y|e] eqn:G; [|unfold bindM, lift; rewrite G; apply effects_raise; parts]. unfold bindM at 1. cbn [lift]. rewrite G. unfold bindM at 1. cbn [lift].
    destruct (qlt (val y) x); [apply effects_raise; parts|]. pose proof (updates_store w k p i (nsub y (NFloat x)) W V) as U. cbn [items make attrs layout] in U. destruct (set_nth (p_masses p) i (nsub y (NFloat x))) as [ps|e] eqn:S.
    - apply set_nth_len in S. destruct S as [S1 S2]. destruct (set_nth_total (repeat (NFloat 0) (length (p_masses p))) i (NFloat x)) as [rs R]; [now rewrite repeat_length|]. rewrite R.
      eapply effects_self; eauto using only_refl; [|discriminate]. intros _ _ w1 W1 O1 _ V1. apply (effects_read _ _ _ _ (mkpkg (p_material p) ps)); auto. cbn [p_masses p_material]. rewrite S1, R.
      unfold bindM at 1. cbn [lift]. cbn [fst snd bind].
      eapply effects_step; eauto; [apply makes_new; auto| |discriminate]. intros w2 n q Hq W2 O2 K2 N2 N0 D V2 Vn. injection Hq as <-. apply effects_return; auto.
    - eapply effects_self; eauto using only_refl; [discriminate|]. intros e' He. injection He as <-. auto. }
  destruct a as [l|[c|[z|x]|]]; cbn [other_arg].
  - exact (Tup (ATuple l)).
  - cbn [extract]. destruct (get_compound_index (p_material p) c) as [i|e]; [|apply effects_raise; parts]. unfold bindM at 1. cbn [lift].
    pose proof (mul_makes w k p (VNum (NFloat 0)) W V) as MM. set (r0 := mul p (VNum (NFloat 0))) in *. assert (R0 : r0 = Ok (mkpkg (p_material p) (map (fun m => nmul m (NFloat 0)) (p_masses p)))) by reflexivity. rewrite R0 in *.
    eapply effects_step; eauto using only_refl; [|discriminate]. intros w1 n q Hq W1 O1 K1 N1 N0 D V1 Vn. injection Hq as <-. cbn [p_masses].
    apply (effects_read _ _ _ _ p); auto. destruct (get (p_masses p) i) as [y|e] eqn:G; [|apply effects_raise; parts]. unfold bindM at 1. cbn [lift].
    pose proof (updates_store w1 n _ i y W1 Vn) as U. cbn [items make attrs layout p_masses p_material] in U. destruct (set_nth (map (fun m => nmul m (NFloat 0)) (p_masses p)) i y) as [rs|e].
    + eapply effects_fresh; eauto; [|discriminate]. intros _ _ w2 W2 O2 O12 V2 Vn2. pose proof (updates_store w2 k p i (NFloat 0) W2 V2) as U2. cbn [items make attrs layout] in U2. destruct (set_nth (p_masses p) i (NFloat 0)) as [ps|e].
      * eapply effects_self; eauto; [|discriminate]. intros _ _ w3 W3 O3 O23 V3. cbn [fst snd bind]. apply effects_return; auto.
      * eapply effects_self; eauto; [discriminate|]. intros e' He. injection He as <-. auto.
    + eapply effects_fresh; eauto; [discriminate|]. intros e' He. injection He as <-. auto.
  - exact (Tup (AVal (VNum (NInt z)))).
  - cbn [extract]. destruct (qlt (val (get_mass p)) x); [apply effects_raise; parts|]. destruct (pydiv x (val (get_mass p))) as [f|e]; [|apply effects_raise; parts]. unfold bindM at 1. cbn [lift].
    eapply effects_step; eauto using only_refl; [apply makes_new; auto| |discriminate].
    intros w1 n q Hq W1 O1 K1 N1 N0 D V1 Vn. injection Hq as <-. apply (effects_read _ _ _ _ p); auto. eapply effects_self; eauto; [apply (updates_rebind w1 k p _ W1 V1)| |discriminate].
    intros _ _ w2 W2 O2 O12 V2. cbn [fst snd bind]. apply effects_return; auto.
  - exact (Tup (AVal VOther)).
Qed.

Lemma creates w c : wf w -> makes w (h_create c w) (v_create c).
Proof. intros W. destruct c as [[[m a] x] b]. cbn [h_create v_create]. now apply makes_lift. Qed.
Lemma acts w o k p y v : wf w -> view w k = Some p -> sees w y v -> effects w k (h_method o k y w) (fst (v_method o p v)) (snd (v_method o p v)).
Proof.
  intros W V Y. destruct o; cbn [h_method v_method fst snd].
  - apply effects_makes; auto. now apply add_makes.
  - assert (E : scalar_of y = scalar_of v) by (destruct y, v; cbn in Y; try contradiction; subst; reflexivity). rewrite E. apply effects_makes; auto. now apply mul_makes.
  - apply (effects_makes w k p (clone k) (Ok p) V). now apply makes_clone.
  - destruct y as [j|a], v as [q|b]; try contradiction.
    + apply effects_raise; parts.
    + cbn in Y. subst b. now apply extract_effects.
  - apply effects_updates. now apply add_to_updates.
  - apply effects_raise; parts.
Qed.
