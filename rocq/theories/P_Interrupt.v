(** Proofs for C91: what a run leaves behind when it fails. *)
From Verif Require Import Prelude M_Dates M_Accounts M_Ledger M_Business M_Model M_Interrupt Spec_Dates Spec_Accounts Spec_Ledger Spec_Business Spec_Model Spec_Interrupt
  P_Dates P_Accounts P_Ledger P_Reports P_Business P_Year.
Local Open Scope Z_scope.
Local Open Scope list_scope.

(** ** The two ways of running agree *)
Definition agree {A B} (r : res A) (o : B * option exn) (val : A -> B) : Prop :=
  match r with Ok y => o = (val y, None) | Err e => snd o = Some e end.

Lemma each_agree {A} (f : A -> res A) (g : A -> out A) l : Forall (fun x => agree (f x) (g x) (fun y => y)) l ->
  agree (mapM f l) (each g l) (fun y => y).
Proof.
  induction 1 as [|x l H F IH]; cbn; auto. unfold agree in H. destruct (f x) as [y|e]; cbn [bind].
  - rewrite H. destruct (mapM f l) as [l'|e']; cbn [bind agree] in *; [rewrite IH; reflexivity|]. destruct (each g l); cbn in *. auto.
  - destruct (g x) as [y o]; cbn in H. subst o. reflexivity.
Qed.

Lemma each_with_agree {A S} (f : S -> A -> res (S * A)) (g : S -> A -> out (S * A)) l :
  Forall (fun x => forall s, agree (f s x) (g s x) (fun y => y)) l -> forall s, agree (traverse f l s) (each_with g l s) (fun y => y).
Proof.
  induction 1 as [|x l H F IH]; intros s; cbn; auto. specialize (H s). unfold agree in H. destruct (f s x) as [[s' y]|e]; cbn [bind fst snd].
  - rewrite H. specialize (IH s'). destruct (traverse f l s') as [[s2 l2]|e']; cbn [bind agree] in *; [rewrite IH; reflexivity|].
    destruct (each_with g l s') as [[? ?] ?]; cbn in *. auto.
  - destruct (g s x) as [[? ?] o]; cbn in H. subst o. reflexivity.
Qed.

Lemma prepare_activity_agree c n a : agree (prepare_activity c n a) (prepare_activity_out c n a) (fun y => y).
Proof.
  unfold prepare_activity, prepare_base, prepare_activity_out.
  match goal with |- context [if ?b then first_after c (ac_start a) ?i ?n else Ok None] => destruct (if b then first_after c (ac_start a) i n else Ok None) as [f|] end; cbn [bind]; [|reflexivity].
  match goal with |- context [if ?b then first_after c (ac_end a) ?i ?n else Ok None] => destruct (if b then first_after c (ac_end a) i n else Ok None) as [f'|] end; cbn [bind]; reflexivity.
Qed.

Lemma Forall_all {A} (P : A -> Prop) l : (forall x, P x) -> Forall P l.
Proof. intros H. induction l; constructor; auto. Qed.

Lemma prepare_comp_agree c n k : agree (prepare_comp c n k) (prepare_comp_out c n k) (fun y => y).
Proof.
  induction k as [nm pp p ss aa IH] using comp_ind'. cbn [prepare_comp prepare_comp_out].
  pose proof (each_agree _ _ _ IH) as E. destruct (mapM (prepare_comp c n) ss) as [ss'|e]; cbn [bind agree] in *.
  - rewrite E. pose proof (each_agree (prepare_activity c n) (prepare_activity_out c n) aa (Forall_all _ _ (prepare_activity_agree c n))) as E2.
    destruct (mapM (prepare_activity c n) aa) as [aa'|e]; cbn [bind agree] in *; [rewrite E2; reflexivity|exact E2].
  - destruct (each (prepare_comp_out c n) ss) as [ss' o]; cbn in E. subst o. reflexivity.
Qed.

Lemma prepare_entity_agree c n e : agree (prepare_entity c n e) (prepare_entity_out c n e) (fun y => y).
Proof.
  unfold prepare_entity, prepare_entity_out. destruct (datetime_at c n); cbn [bind agree]; [|reflexivity].
  destruct (add_years (ck_start c) 1); cbn [bind agree]; [|reflexivity].
  pose proof (each_agree (prepare_comp c n) (prepare_comp_out c n) (en_comps e) (Forall_all _ _ (prepare_comp_agree c n))) as E.
  destruct (mapM _ _); cbn [bind agree] in *; [rewrite E; reflexivity|exact E].
Qed.

Lemma prepare_model_agree m : agree (prepare_model m) (prepare_model_out m) (fun y => y).
Proof.
  unfold prepare_model, prepare_model_out.
  pose proof (each_agree (prepare_entity (reset (md_clock m)) (md_count m)) _ (md_ents m) (Forall_all _ _ (prepare_entity_agree (reset (md_clock m)) (md_count m)))) as E.
  destruct (mapM _ _); cbn [bind agree] in *; [rewrite E; reflexivity|exact E].
Qed.

Lemma run_activity_agree c l a : agree (run_activity c l a) (run_activity_out c l a) (fun y => y).
Proof. unfold run_activity_out, agree. destruct (run_activity c l a); reflexivity. Qed.

Lemma run_comp_agree c k : forall l, agree (run_comp c l k) (run_comp_out c l k) (fun y => y).
Proof.
  induction k as [nm pp p ss aa IH] using comp_ind'. intros l. cbn [run_comp run_comp_out].
  pose proof (each_with_agree (fun l s => run_comp c l s) (fun l s => run_comp_out c l s) ss IH l) as E.
  destruct (traverse (fun l s => run_comp c l s) ss l) as [[l1 ss']|e]; cbn [bind agree fst snd] in *.
  - rewrite E. pose proof (each_with_agree (run_activity c) (run_activity_out c) aa (Forall_all _ _ (fun x s => run_activity_agree c s x)) l1) as E2.
    destruct (traverse (run_activity c) aa l1) as [[l2 aa']|e]; cbn [bind agree fst snd] in *; [rewrite E2; reflexivity|].
    exact E2.
  - destruct (each_with _ ss l) as [[l1 ss'] o]; cbn in E. subst o. reflexivity.
Qed.

Lemma year_end_agree c e : agree (year_end c e) (year_end_out c e) (fun y => y).
Proof.
  unfold year_end, year_end_out. destruct (get_datetime c); cbn [bind agree]; [|reflexivity].
  destruct (_ || _); [|reflexivity]. destruct (add_us _ _); cbn [bind agree]; [|reflexivity].
  destruct (add_years _ _); cbn [bind agree]; [|reflexivity].
  destruct (close_year _ _ _ _ _); reflexivity.
Qed.

Lemma run_comps_agree c ks l : agree (traverse (run_comp c) ks l) (each_with (run_comp_out c) ks l) (fun y => y).
Proof. apply each_with_agree, Forall_all. intros; apply run_comp_agree. Qed.

Lemma run_entity_agree c e : agree (run_entity c e) (run_entity_out c e) (fun y => y).
Proof.
  unfold run_entity, run_entity_out. destruct (_ <=? _); [reflexivity|].
  pose proof (run_comps_agree c (en_comps e) (en_gl e)) as E.
  destruct (traverse _ _ _) as [[l ks]|er]; cbn [bind agree fst snd] in *.
  - rewrite E. cbn [fst snd]. apply year_end_agree.
  - destruct (each_with _ _ _) as [[? ?] ?]; cbn in *. subst. reflexivity.
Qed.

Lemma run_entities_agree c es : agree (mapM (run_entity c) es) (each (run_entity_out c) es) (fun y => y).
Proof. apply each_agree, Forall_all, run_entity_agree. Qed.

Lemma run_periods_agree n : forall m, agree (run_periods n m) (run_periods_out n m) (fun y => y).
Proof.
  induction n as [|n IH]; intros m; cbn [run_periods run_periods_out]; [reflexivity|].
  pose proof (run_entities_agree (md_clock m) (md_ents m)) as E. destruct (mapM _ _) as [es|er]; cbn [bind agree] in *.
  - rewrite E. cbn [fst snd]. apply IH.
  - rewrite E. reflexivity.
Qed.

Lemma run_agree m : agree (run_model m) (run_out m) (fun y => y).
Proof.
  unfold run_model, run_out. pose proof (prepare_model_agree m) as E. destruct (prepare_model m) as [p|er]; cbn [bind agree] in *.
  - rewrite E. apply run_periods_agree.
  - destruct (prepare_model_out m) as [p o]; cbn in E. subst o. reflexivity.
Qed.

Lemma outcome m : (forall m', run_model m = Ok m' <-> run_out m = (m', None)) /\ (forall e, run_model m = Err e <-> snd (run_out m) = Some e).
Proof.
  pose proof (run_agree m) as E. destruct (run_model m) as [x|er]; cbn [agree] in E.
  - split; intros y; rewrite E; cbn; split; intros H; try discriminate; congruence.
  - split; intros y; split; intros H; try discriminate; [rewrite H in E; discriminate|congruence|congruence].
Qed.

(** ** What a run depends on *)
Definition ixs (c : clock) (n si ct : Z) (st en : datetime) : res (Z * Z * Z) :=
  do f <- (if (si =? -1) && negb (dt_eqb st dt_min) then first_after c st 0 (Z.to_nat n) else Ok None);
  let s := match f with Some i => i | None => si end in
  let s := if s =? -1 then 0 else s in
  do g <- (if (ct =? -1) && negb (dt_eqb en dt_max) then first_after c en 0 (Z.to_nat n) else Ok None);
  let k := match g with Some i => i - s | None => ct end in
  Ok (s, if k =? -1 then s + n else s + k, k).

Definition act_norm (c : clock) (n : Z) (a : activity) :=
  ((ac_name a, ac_desc a, ac_ppath a, ac_path a), (ac_start a, ac_end a, ac_interval a, prepare_kind (ac_kind a)),
   ixs c n (ac_start_ix a) (ac_count a) (ac_start a) (ac_end a)).

Lemma prepare_ixs c n a : prepare_activity c n a =
  do r <- ixs c n (ac_start_ix a) (ac_count a) (ac_start a) (ac_end a);
  Ok (with_kind (with_ixs a (fst (fst r)) (snd (fst r)) (snd r)) (prepare_kind (ac_kind a))).
Proof.
  unfold prepare_activity, prepare_base, ixs.
  destruct (if (ac_start_ix a =? -1) && _ then _ else _) as [f|]; cbn [bind]; [|reflexivity].
  destruct (if (ac_count a =? -1) && _ then _ else _) as [g|]; cbn [bind fst snd]; reflexivity.
Qed.

Lemma prepare_norm c n a b : act_norm c n a = act_norm c n b -> prepare_activity c n a = prepare_activity c n b.
Proof.
  unfold act_norm. intros H. injection H as H1 H2 H3 H4 H5 H6 H7 H8 H9. rewrite !prepare_ixs, H9.
  destruct (ixs c n (ac_start_ix b) _ _ _) as [[[s e] k]|]; cbn [bind fst snd]; [|reflexivity].
  unfold with_kind, with_ixs. cbn. rewrite H1, H2, H3, H4, H5, H6, H7, H8. reflexivity.
Qed.

Inductive ctree := CT (nm pp p : string) (ss : list ctree)
  (aa : list ((string * option string * string * string) * (datetime * datetime * Z * akind) * res (Z * Z * Z))).
Fixpoint comp_norm (c : clock) (n : Z) (k : comp) : ctree :=
  let 'Comp nm pp p ss aa := k in CT nm pp p (map (comp_norm c n) ss) (map (act_norm c n) aa).
Definition ent_norm (c : clock) (n : Z) (e : entity) := (en_name e, en_ppath e, en_path e, l_structure (en_gl e), map (comp_norm c n) (en_comps e)).
Definition model_norm (m : tbm) :=
  (md_name m, reset (md_clock m), md_count m, map (ent_norm (reset (md_clock m)) (md_count m)) (md_ents m)).

Lemma map_cong {A B C} (nf : A -> B) (g : A -> C) l : Forall (fun x => forall y, nf x = nf y -> g x = g y) l ->
  forall l', map nf l = map nf l' -> map g l = map g l'.
Proof.
  induction 1 as [|x l H F IH]; intros [|y l'] E; try discriminate E; [reflexivity|]. cbn in E |- *. injection E as E1 E2. f_equal; auto.
Qed.
Lemma mapM_cong {A B C} (nf : A -> B) (g : A -> res C) l : Forall (fun x => forall y, nf x = nf y -> g x = g y) l ->
  forall l', map nf l = map nf l' -> mapM g l = mapM g l'.
Proof.
  induction 1 as [|x l H F IH]; intros [|y l'] E; try discriminate E; [reflexivity|]. cbn in E |- *. injection E as E1 E2.
  rewrite (H _ E1), (IH _ E2). reflexivity.
Qed.

Lemma prepare_comp_norm c n k : forall k', comp_norm c n k = comp_norm c n k' -> prepare_comp c n k = prepare_comp c n k'.
Proof.
  induction k as [nm pp p ss aa IH] using comp_ind'. intros [nm' pp' p' ss' aa'] E. cbn [comp_norm prepare_comp] in *.
  injection E as -> -> -> E1 E2. rewrite (mapM_cong _ _ _ IH _ E1).
  rewrite (mapM_cong (act_norm c n) (prepare_activity c n) aa (Forall_all _ _ (fun x y => prepare_norm c n x y)) _ E2). reflexivity.
Qed.

Lemma prepare_entity_norm c n e e' : ent_norm c n e = ent_norm c n e' -> prepare_entity c n e = prepare_entity c n e'.
Proof.
  unfold ent_norm. intros H. injection H as H1 H2 H3 H4 H5. unfold prepare_entity.
  rewrite (mapM_cong (comp_norm c n) (prepare_comp c n) _ (Forall_all _ _ (prepare_comp_norm c n)) _ H5), H1, H2, H3, H4. reflexivity.
Qed.

Lemma prepare_model_norm m m' : model_norm m = model_norm m' -> prepare_model m = prepare_model m' /\ md_count m = md_count m'.
Proof.
  unfold model_norm, prepare_model. intros H. injection H as H1 H2 H3 H4 H5.
  assert (Hc : reset (md_clock m) = reset (md_clock m')) by (unfold reset; congruence).
  split; [|auto]. rewrite H1, Hc, H4. rewrite Hc, H4 in H5.
  rewrite (mapM_cong (ent_norm (reset (md_clock m')) (md_count m')) (prepare_entity (reset (md_clock m')) (md_count m')) _ (Forall_all _ _ (fun x y => prepare_entity_norm _ _ x y)) _ H5). reflexivity.
Qed.

Lemma run_model_norm m m' : model_norm m = model_norm m' -> run_model m = run_model m'.
Proof. intros H. apply prepare_model_norm in H as [H1 H2]. unfold run_model. rewrite H1, H2. reflexivity. Qed.

(** *** preparing keeps it *)
Lemma prepare_out_norm c n a : act_norm c n (fst (prepare_activity_out c n a)) = act_norm c n a.
Proof.
  pose proof (prepare_activity_agree c n a) as G. destruct (prepare_activity c n a) as [b|e] eqn:E; cbn [agree] in G.
  - rewrite G. cbn [fst]. pose proof (prepare_act_idem _ _ _ _ E) as I. rewrite prepare_ixs in E, I.
    unfold act_norm. destruct (ixs c n (ac_start_ix a) _ _ _) as [r|] eqn:R1; [|discriminate]. cbn [bind] in E.
    destruct (ixs c n (ac_start_ix b) _ _ _) as [r'|] eqn:R2; [|discriminate]. cbn [bind] in I.
    assert (Hb : b = with_kind (with_ixs a (fst (fst r)) (snd (fst r)) (snd r)) (prepare_kind (ac_kind a))) by (injection E as <-; reflexivity).
    assert (Hr : (ac_start_ix b, ac_end_ix b, ac_count b) = r') by (injection I as <-; destruct r' as [[? ?] ?]; reflexivity).
    rewrite <- Hr. rewrite Hb. cbn. destruct r as [[? ?] ?]. cbn. destruct (ac_kind a); reflexivity.
  - clear E. unfold prepare_activity_out in *.
    destruct (if (ac_start_ix a =? -1) && negb (dt_eqb (ac_start a) dt_min) then first_after c (ac_start a) 0 (Z.to_nat n) else Ok None) as [f|] eqn:Ef; [|reflexivity].
    destruct (if (ac_count a =? -1) && negb (dt_eqb (ac_end a) dt_max) then first_after c (ac_end a) 0 (Z.to_nat n) else Ok None) as [g|] eqn:Eg.
    + discriminate G.
    + cbn [fst]. unfold act_norm. cbn -[Z.eqb]. f_equal. unfold ixs. rewrite Ef, Eg. cbn [bind].
      set (s0 := match f with Some i => i | None => ac_start_ix a end). set (s := if s0 =? -1 then 0 else s0).
      assert (Hs : s =? -1 = false) by (unfold s; destruct (s0 =? -1) eqn:X; lia).
      rewrite Hs. cbn [andb bind]. reflexivity.
Qed.

Lemma each_norm {A B} (nf : A -> B) (g : A -> out A) l : Forall (fun x => nf (fst (g x)) = nf x) l -> map nf (fst (each g l)) = map nf l.
Proof.
  induction 1 as [|x l H F IH]; cbn; [reflexivity|]. destruct (g x) as [y [e|]]; cbn [fst] in *; cbn [map fst].
  - f_equal; auto.
  - f_equal; auto.
Qed.

Lemma prepare_comp_out_norm c n k : comp_norm c n (fst (prepare_comp_out c n k)) = comp_norm c n k.
Proof.
  induction k as [nm pp p ss aa IH] using comp_ind'. cbn [prepare_comp_out]. pose proof (each_norm _ _ _ IH) as E.
  pose proof (each_norm (act_norm c n) (prepare_activity_out c n) aa (Forall_all _ _ (prepare_out_norm c n))) as E2.
  destruct (each (prepare_comp_out c n) ss) as [ss' [er|]]; cbn [fst comp_norm] in *; [rewrite E; reflexivity|].
  rewrite E, E2. reflexivity.
Qed.

Lemma prepare_entity_out_norm c n e : ent_norm c n (fst (prepare_entity_out c n e)) = ent_norm c n e.
Proof.
  unfold prepare_entity_out. destruct (datetime_at c n); [|reflexivity]. destruct (add_years (ck_start c) 1); [|reflexivity].
  unfold ent_norm. cbn [fst en_name en_ppath en_path en_gl en_comps l_structure].
  rewrite (each_norm (comp_norm c n) (prepare_comp_out c n) (en_comps e) (Forall_all _ _ (prepare_comp_out_norm c n))). reflexivity.
Qed.

Lemma prepare_model_out_norm m : model_norm (fst (prepare_model_out m)) = model_norm m.
Proof.
  unfold prepare_model_out, model_norm. cbn [fst md_name md_clock md_count md_ents].
  change (reset (reset (md_clock m))) with (reset (md_clock m)).
  rewrite (each_norm _ _ (md_ents m) (Forall_all _ _ (prepare_entity_out_norm (reset (md_clock m)) (md_count m)))). reflexivity.
Qed.

(** *** running keeps it, also when it stops early *)
Lemma act_next_norm c n c' a : act_norm c n (act_next c' a) = act_norm c n a.
Proof. unfold act_norm, act_next. destruct (criteria _ _); [|reflexivity]. destruct (ac_kind a) eqn:E; cbn; [rewrite E|]; reflexivity. Qed.

Lemma each_with_norm {A B S} (nf : A -> B) (g : S -> A -> out (S * A)) l :
  Forall (fun x => forall s, nf (snd (fst (g s x))) = nf x) l -> forall s, map nf (snd (fst (each_with g l s))) = map nf l.
Proof.
  induction 1 as [|x l H F IH]; intros s; cbn; [reflexivity|]. specialize (H s). destruct (g s x) as [[s' y] [e|]]; cbn [fst snd] in *; cbn [map fst snd].
  - f_equal; auto.
  - f_equal; auto.
Qed.
Lemma each_with_structure {A} (g : ledger -> A -> out (ledger * A)) l :
  Forall (fun x => forall s, l_structure (fst (fst (g s x))) = l_structure s) l -> forall s, l_structure (fst (fst (each_with g l s))) = l_structure s.
Proof.
  induction 1 as [|x l H F IH]; intros s; cbn; [reflexivity|]. specialize (H s). destruct (g s x) as [[s' y] [e|]]; cbn [fst snd] in *; [auto|].
  rewrite IH. auto.
Qed.

Lemma run_act_norm c n c' a l : act_norm c n (snd (fst (run_activity_out c' l a))) = act_norm c n a /\ l_structure (fst (fst (run_activity_out c' l a))) = l_structure l.
Proof.
  unfold run_activity_out. destruct (run_activity c' l a) as [[l' a']|e] eqn:E; cbn [fst snd]; [|auto].
  apply run_activity_ok in E as (_ & E & ->). split; [apply act_next_norm|exact E].
Qed.

Lemma run_comp_norm c n c' k : forall l, comp_norm c n (snd (fst (run_comp_out c' l k))) = comp_norm c n k /\ l_structure (fst (fst (run_comp_out c' l k))) = l_structure l.
Proof.
  induction k as [nm pp p ss aa IH] using comp_ind'. intros l. cbn [run_comp_out].
  assert (E : map (comp_norm c n) (snd (fst (each_with (fun l s => run_comp_out c' l s) ss l))) = map (comp_norm c n) ss /\
              l_structure (fst (fst (each_with (fun l s => run_comp_out c' l s) ss l))) = l_structure l).
  { split; [apply each_with_norm|apply each_with_structure]; eapply Forall_impl; [|exact IH| |exact IH]; cbn beta; intros x H s; apply H. }
  destruct (each_with (fun l s => run_comp_out c' l s) ss l) as [[l1 ss'] [er|]]; cbn [fst snd comp_norm] in *; destruct E as [E1 E2].
  - rewrite E1. auto.
  - rewrite E1, (each_with_norm (act_norm c n) (run_activity_out c') aa (Forall_all _ _ (fun x s => proj1 (run_act_norm c n c' x s)))).
    rewrite (each_with_structure (run_activity_out c') aa (Forall_all _ _ (fun x s => proj2 (run_act_norm c n c' x s)))). auto.
Qed.

Lemma year_end_norm c n c' e : ent_norm c n (fst (year_end_out c' e)) = ent_norm c n e.
Proof.
  unfold year_end_out. destruct (get_datetime c'); [|reflexivity]. destruct (_ || _); [|reflexivity]. destruct (add_us _ _); [|reflexivity].
  destruct (add_years _ _); [|reflexivity]. destruct (close_year _ _ _ _ _); reflexivity.
Qed.

Lemma run_entity_norm c n c' e : ent_norm c n (fst (run_entity_out c' e)) = ent_norm c n e.
Proof.
  unfold run_entity_out. destruct (_ <=? _); [reflexivity|].
  pose proof (each_with_norm (comp_norm c n) (run_comp_out c') (en_comps e) (Forall_all _ _ (fun x s => proj1 (run_comp_norm c n c' x s))) (en_gl e)) as E1.
  pose proof (each_with_structure (run_comp_out c') (en_comps e) (Forall_all _ _ (fun x s => proj2 (run_comp_norm c n c' x s))) (en_gl e)) as E2.
  destruct (each_with (run_comp_out c') (en_comps e) (en_gl e)) as [[l ks] [er|]]; cbn [fst snd] in *; [|rewrite year_end_norm];
    unfold ent_norm; cbn [en_name en_ppath en_path en_gl en_comps]; rewrite E1, E2; reflexivity.
Qed.

Lemma run_periods_norm n : forall m, model_norm (fst (run_periods_out n m)) = model_norm m.
Proof.
  induction n as [|n IH]; intros m; cbn [run_periods_out]; [reflexivity|].
  assert (E : forall c, reset c = reset (md_clock m) -> model_norm (mktbm (md_name m) c (md_count m) (fst (each (run_entity_out (md_clock m)) (md_ents m)))) = model_norm m).
  { intros c Hc. unfold model_norm. cbn [md_name md_clock md_count md_ents]. rewrite Hc.
    rewrite (each_norm _ _ (md_ents m) (Forall_all _ _ (run_entity_norm (reset (md_clock m)) (md_count m) (md_clock m)))). reflexivity. }
  destruct (snd (each _ _)); cbn [fst]; [apply E; reflexivity|]. rewrite IH. apply E. reflexivity.
Qed.

Lemma run_out_norm m : model_norm (fst (run_out m)) = model_norm m.
Proof.
  unfold run_out. pose proof (prepare_model_out_norm m) as E. destruct (prepare_model_out m) as [p [er|]]; cbn [fst] in *; [exact E|].
  rewrite run_periods_norm. exact E.
Qed.

(** ** Running again *)
Lemma each_idem {A} (g : A -> out A) l : Forall (fun x => g (fst (g x)) = g x) l -> each g (fst (each g l)) = each g l.
Proof.
  induction 1 as [|x l H F IH]; cbn [each]; [reflexivity|]. destruct (g x) as [y [e|]] eqn:E; cbn [fst] in *; cbn [each fst].
  - rewrite H. reflexivity.
  - rewrite H, IH. reflexivity.
Qed.

Lemma prepare_activity_out_idem c n a : prepare_activity_out c n (fst (prepare_activity_out c n a)) = prepare_activity_out c n a.
Proof.
  pose proof (prepare_activity_agree c n a) as G. destruct (prepare_activity c n a) as [b|e] eqn:E; cbn [agree] in G.
  - rewrite G. cbn [fst]. pose proof (prepare_activity_agree c n b) as G'. rewrite (prepare_act_idem _ _ _ _ E) in G'. exact G'.
  - clear E. unfold prepare_activity_out at 2 3. unfold prepare_activity_out in G.
    destruct (if (ac_start_ix a =? -1) && negb (dt_eqb (ac_start a) dt_min) then first_after c (ac_start a) 0 (Z.to_nat n) else Ok None) as [f|] eqn:Ef.
    2:{ cbn [fst]. unfold prepare_activity_out. rewrite Ef. reflexivity. }
    destruct (if (ac_count a =? -1) && negb (dt_eqb (ac_end a) dt_max) then first_after c (ac_end a) 0 (Z.to_nat n) else Ok None) as [g|] eqn:Eg; [discriminate G|].
    cbn [fst]. set (s0 := match f with Some i => i | None => ac_start_ix a end). set (s := if s0 =? -1 then 0 else s0).
    assert (Hs : s =? -1 = false) by (unfold s; destruct (s0 =? -1) eqn:X; lia).
    unfold prepare_activity_out. cbn [ac_start_ix ac_start ac_end ac_count with_ixs]. rewrite Hs. cbn [andb]. rewrite Hs, Eg. reflexivity.
Qed.

Lemma prepare_comp_out_idem c n k : prepare_comp_out c n (fst (prepare_comp_out c n k)) = prepare_comp_out c n k.
Proof.
  induction k as [nm pp p ss aa IH] using comp_ind'. cbn [prepare_comp_out]. pose proof (each_idem _ _ IH) as E.
  pose proof (each_idem (prepare_activity_out c n) aa (Forall_all _ _ (prepare_activity_out_idem c n))) as E2.
  destruct (each (prepare_comp_out c n) ss) as [ss' [er|]]; cbn [fst prepare_comp_out] in *; rewrite E; [reflexivity|].
  destruct (each (prepare_activity_out c n) aa) as [aa' o]; cbn [fst snd] in *. rewrite E2. reflexivity.
Qed.

Lemma prepare_entity_out_idem c n e : prepare_entity_out c n (fst (prepare_entity_out c n e)) = prepare_entity_out c n e.
Proof.
  unfold prepare_entity_out at 2 3. destruct (datetime_at c n) eqn:E1; [|unfold prepare_entity_out; rewrite E1; reflexivity].
  destruct (add_years (ck_start c) 1) eqn:E2; [|unfold prepare_entity_out; rewrite E1, E2; reflexivity].
  unfold prepare_entity_out. rewrite E1, E2. cbn [fst en_name en_ppath en_path en_gl en_comps l_structure].
  rewrite (each_idem (prepare_comp_out c n) (en_comps e) (Forall_all _ _ (prepare_comp_out_idem c n))). reflexivity.
Qed.

Lemma retry m : run_out (fst (run_out m)) = run_out m.
Proof.
  unfold run_out at 2 3. pose proof (prepare_model_agree m) as G. destruct (prepare_model m) as [p|e] eqn:E; cbn [agree] in G.
  - rewrite G. pose proof (prepare_model_out_norm m) as N. rewrite G in N. cbn [fst] in N.
    pose proof (run_periods_norm (Z.to_nat (md_count m)) p) as N2. set (m' := fst (run_periods_out (Z.to_nat (md_count m)) p)) in *.
    assert (N3 : model_norm m' = model_norm m) by congruence. apply prepare_model_norm in N3 as [N3 N4].
    unfold run_out. pose proof (prepare_model_agree m') as G'. rewrite N3, E in G'. cbn [agree] in G'. rewrite G', N4. reflexivity.
  - assert (I : prepare_model_out (fst (prepare_model_out m)) = prepare_model_out m).
    { unfold prepare_model_out. cbn [fst md_name md_clock md_count md_ents]. change (reset (reset (md_clock m))) with (reset (md_clock m)).
      rewrite (each_idem _ (md_ents m) (Forall_all _ _ (prepare_entity_out_idem (reset (md_clock m)) (md_count m)))). reflexivity. }
    destruct (prepare_model_out m) as [p o]; cbn [snd fst] in *. subst o. unfold run_out. cbn [fst]. rewrite I. reflexivity.
Qed.
