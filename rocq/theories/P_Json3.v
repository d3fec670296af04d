(** Objects written and read (C88). *)
From Verif Require Import Prelude M_Stoichiometry M_Factsage M_Json Spec_Json P_Json P_Json2.
From Coq Require Import Permutation Sorted Lia.
Local Open Scope list_scope.

Section Ind.
Variable P : pyobj -> Prop.
Hypothesis Hnone : P ONone.
Hypothesis Hbool : forall b, P (OBool b).
Hypothesis Hnum : forall x, P (ONum x).
Hypothesis Hstr : forall t, P (OStr t).
Hypothesis Hlist : forall l, Forall P l -> P (OList l).
Hypothesis Hdict : forall l, Forall (fun kv => P (snd kv)) l -> P (ODict l).
Hypothesis Hinst : forall c l, Forall (fun kv => P (snd kv)) l -> P (OInst c l).
Hypothesis Hmeth : forall m, P (OMethod m).
Fixpoint pyobj_ind' (o : pyobj) : P o :=
  match o with
  | ONone => Hnone | OBool b => Hbool b | ONum x => Hnum x | OStr t => Hstr t | OMethod m => Hmeth m
  | OList l => Hlist l ((fix go l : Forall P l := match l with [] => Forall_nil _ | x :: l' => Forall_cons _ (pyobj_ind' x) (go l') end) l)
  | ODict l => Hdict l ((fix go l : Forall (fun kv => P (snd kv)) l := match l with [] => Forall_nil _ | x :: l' => Forall_cons _ (pyobj_ind' (snd x)) (go l') end) l)
  | OInst c l => Hinst c l ((fix go l : Forall (fun kv => P (snd kv)) l := match l with [] => Forall_nil _ | x :: l' => Forall_cons _ (pyobj_ind' (snd x)) (go l') end) l)
  end.
End Ind.

Section RoundTrip.
Variable repr : Qc -> text.
Variable float_of : text -> res Qc.
Notation flat := (flatten repr).
Notation good := (faithful repr float_of).
Definition fl (kv : text * pyobj) : text * json := (fst kv, flat (snd kv)).

Lemma flat_data d : flat_map (fun kv => if is_method (snd kv) then [] else [(fst kv, flat (snd kv))]) d = map fl (data d).
Proof. induction d as [|[k []] d IH]; cbn [flat_map data filter snd is_method map app]; rewrite ?IH; try reflexivity; try (unfold data; now rewrite IH). Qed.
Lemma flat_dict d : flat (ODict d) = JObj (map fl (data d)).
Proof. rewrite <- flat_data. reflexivity. Qed.
Lemma flat_inst c a : flat (OInst c a) = JObj ((py_object, JStr c) :: map fl (data a)).
Proof. rewrite <- flat_data. reflexivity. Qed.
Lemma data_keys d : NoDup (map fst d) -> NoDup (map fst (data d)).
Proof.
  induction d as [|[k v] d IH]; cbn [map fst data filter snd]; auto. intros N. inversion_clear N as [|? ? K N'].
  assert (L : ~ In k (map fst (data d))) by (intros H; apply K; apply in_map_iff in H as (x & <- & Hx); apply filter_In in Hx; now apply in_map).
  destruct v; cbn [map fst]; try (constructor; auto; fail). now apply IH.
Qed.
Lemma data_absent k d : ~ In k (map fst d) -> ~ In k (map fst (data d)).
Proof. intros K H. apply K. apply in_map_iff in H as (x & <- & Hx). apply filter_In in Hx. now apply in_map. Qed.
Lemma data_attrs (Q : pyobj -> Prop) a : Forall (fun kv => (exists m, snd kv = OMethod m) \/ Q (snd kv)) a -> Forall (fun kv => Q (snd kv)) (data a).
Proof.
  rewrite !Forall_forall. intros H x Hx. apply filter_In in Hx as [I E]. destruct (H x I) as [[m Em]|]; auto. rewrite Em in E. discriminate.
Qed.
Lemma data_forall (Q : text * pyobj -> Prop) a : Forall Q a -> Forall Q (data a).
Proof. rewrite !Forall_forall. intros H x Hx. apply filter_In in Hx as [I E]. auto. Qed.
Lemma map_fl_keys d : map fst (map fl d) = map fst d.
Proof. rewrite map_map. reflexivity. Qed.

Lemma flat_good o : plain good o -> jgood (flat o).
Proof.
  induction o as [|b|x|t|l IH|d IH|c a IH|m] using pyobj_ind'; intros P; inversion P as [|?|? Hx|?|? Hl|? Nd Kd Hd|? ? Nd Kd Hd]; subst; try (cbn; constructor; fail).
  - constructor. apply Hx.
  - cbn [flatten]. constructor. rewrite Forall_forall in *. intros v Hv. apply in_map_iff in Hv as (y & <- & Hy). auto.
  - rewrite flat_dict. constructor; [rewrite map_fl_keys; now apply data_keys|].
    apply Forall_forall. intros v Hv. apply in_map_iff in Hv as (y & <- & Hy). apply filter_In in Hy as [Hy _]. rewrite Forall_forall in *. cbn [fl snd]. auto.
  - rewrite flat_inst. constructor.
    + cbn [map fst]. rewrite map_fl_keys. constructor; [now apply data_absent|now apply data_keys].
    + constructor; [constructor|]. apply Forall_forall. intros v Hv. apply in_map_iff in Hv as (y & <- & Hy). apply data_attrs in Hd.
      rewrite Forall_forall in *. cbn [fl snd]. assert (In y a) by (apply filter_In in Hy; tauto). auto.
Qed.

(** What is read. *)
Fixpoint osort (o : pyobj) : pyobj :=
  match o with
  | OList l => OList (map osort l)
  | ODict d => ODict (sort_keys (data (map (fun kv => (fst kv, osort (snd kv))) d)))
  | OInst c a => OInst c (filter (fun kv => if tdec (fst kv) py_object then false else true) (sort_keys ((py_object, OStr c) :: data (map (fun kv => (fst kv, osort (snd kv))) a))))
  | _ => o
  end.
Definition os (kv : text * pyobj) : text * pyobj := (fst kv, osort (snd kv)).
Lemma data_osort d : data (map (fun kv => (fst kv, osort (snd kv))) d) = map os (data d).
Proof. induction d as [|[k []] d IH]; cbn [map data filter snd fst osort]; try unfold data in IH; rewrite ?IH; try reflexivity; try (unfold data; now rewrite IH). Qed.

Lemma restore_arr l r : mapM (restore float_of) l = Ok r -> restore float_of (JArr l) = Ok (OList r).
Proof.
  intros H. cbn [restore].
  match goal with |- (do r <- ?g l; _) = _ => enough (g l = Ok r) as -> by reflexivity end.
  revert r H. induction l as [|x l IH]; intros r H; cbn [mapM] in H |- *; [exact H|].
  destruct (restore float_of x); cbn [bind] in *; [|discriminate]. destruct (mapM (restore float_of) l) as [q|]; cbn [bind] in *; [|discriminate].
  now rewrite (IH q eq_refl).
Qed.
Lemma restore_obj l r : mapM (fun kv => do y <- restore float_of (snd kv); Ok (fst kv, y)) l = Ok r ->
  restore float_of (JObj l) = match dget tdec r py_object with
    | Ok (OStr c) => Ok (OInst c (filter (fun kv => if tdec (fst kv) py_object then false else true) r))
    | _ => Ok (ODict r) end.
Proof.
  intros H. cbn [restore].
  match goal with |- (do r <- ?g l; _) = _ => enough (g l = Ok r) as -> by reflexivity end.
  revert r H. induction l as [|[k x] l IH]; intros r H; cbn [mapM fst snd] in H |- *; [exact H|].
  destruct (restore float_of x); cbn [bind] in *; [|discriminate].
  destruct (mapM (fun kv => do y <- restore float_of (snd kv); Ok (fst kv, y)) l) as [q|]; cbn [bind] in *; [|discriminate].
  now rewrite (IH q eq_refl).
Qed.
Lemma mapM_map {A B C} (f : B -> res C) (g : A -> B) (h : A -> C) l : Forall (fun x => f (g x) = Ok (h x)) l -> mapM f (map g l) = Ok (map h l).
Proof. induction 1 as [|x l H F IH]; cbn [map mapM]; auto. now rewrite H, IH. Qed.
Lemma dget_In {A} (d : list (text * A)) k v : NoDup (map fst d) -> In (k, v) d -> dget tdec d k = Ok v.
Proof.
  induction d as [|[k' v'] d IH]; cbn [dget map fst In]; [contradiction|]. intros N [E|H].
  - injection E as -> ->. now destruct (tdec k k).
  - inversion_clear N as [|? ? K N']. destruct (tdec k' k) as [->|]; auto. exfalso. apply K. change k with (fst (k, v)). now apply in_map.
Qed.
Lemma dget_absent {A} (d : list (text * A)) k : ~ In k (map fst d) -> dget tdec d k = Err KeyError.
Proof. induction d as [|[k' v'] d IH]; cbn [dget map fst In]; auto. intros N. destruct (tdec k' k); [tauto|]. apply IH. tauto. Qed.

Lemma restore_flat o : plain good o -> restore float_of (jsort (flat o)) = Ok (osort o).
Proof.
  induction o as [|b|x|t|l IH|d IH|c a IH|m] using pyobj_ind'; intros P; inversion P as [|?|? Hx|?|? Hl|? Nd Kd Hd|? ? Nd Kd Hd]; subst; try reflexivity.
  - cbn [flatten jsort restore osort]. now rewrite (proj2 Hx).
  - cbn [flatten jsort osort]. rewrite map_map. apply restore_arr. rewrite <- map_map, map_map. apply mapM_map.
    rewrite Forall_forall in *. auto.
  - rewrite flat_dict. cbn [jsort osort]. rewrite map_map, data_osort. cbn [fl fst snd].
    rewrite (sort_map (fun o => jsort (flat o)) (data d)). change (map os (data d)) with (map (fun kv => (fst kv, osort (snd kv))) (data d)). rewrite (sort_map osort (data d)).
    rewrite (restore_obj _ (map (fun kv => (fst kv, osort (snd kv))) (sort_keys (data d)))).
    + rewrite dget_absent; auto. rewrite map_map. cbn [fst]. intros H. apply (data_absent _ _ Kd). eapply Permutation_in; [|exact H]. apply Permutation_map. symmetry. apply sort_perm.
    + apply mapM_map. eapply Permutation_Forall; [apply sort_perm|]. apply data_forall. rewrite Forall_forall in *. intros kv K. cbn [fst snd]. rewrite IH; auto.
  - rewrite flat_inst. cbn [jsort osort map fst snd]. rewrite map_map, data_osort. cbn [fl fst snd].
    assert (E : (py_object, JStr c) :: map (fun kv => (fst kv, jsort (flat (snd kv)))) (data a) = map (fun kv => (fst kv, jsort (flat (snd kv)))) ((py_object, OStr c) :: data a)) by reflexivity.
    rewrite E, (sort_map (fun o => jsort (flat o))).
    assert (E2 : (py_object, OStr c) :: map os (data a) = map (fun kv => (fst kv, osort (snd kv))) ((py_object, OStr c) :: data a)) by reflexivity.
    rewrite E2, (sort_map osort). clear E E2. set (m := (py_object, OStr c) :: data a).
    assert (Q := sort_perm m). assert (Nm : NoDup (map fst m)) by (constructor; [now apply data_absent|now apply data_keys]).
    rewrite (restore_obj _ (map (fun kv => (fst kv, osort (snd kv))) (sort_keys m))).
    + rewrite (dget_In _ py_object (OStr c)); auto.
      * rewrite map_map. cbn [fst]. eapply Permutation_NoDup; [apply Permutation_map, Q|exact Nm].
      * change (py_object, OStr c) with ((fun kv => (fst kv, osort (snd kv))) (py_object, OStr c)). apply in_map. eapply Permutation_in; [exact Q|now left].
    + apply mapM_map. eapply Permutation_Forall; [exact Q|]. constructor; [reflexivity|]. apply data_attrs in Hd.
      rewrite Forall_forall in *. intros kv K. cbn [fst snd]. rewrite IH; auto. apply filter_In in K. tauto.
Qed.
Lemma read_str o : plain good o -> object_read float_of (object_str repr o) = Ok (osort o).
Proof. intros P. unfold object_read, object_str. rewrite loads_dumps by now apply flat_good. cbn [bind]. now apply restore_flat. Qed.

(** The object read has the same data. *)
Lemma osort_method o : (forall m, o <> OMethod m) -> forall m, osort o <> OMethod m.
Proof. destruct o; cbn; try discriminate. intros H m. apply H. Qed.
Lemma data_os d : data (map os (data d)) = map os (data d).
Proof. induction d as [|[k []] d IH]; cbn [map data filter snd fst osort os]; try unfold data in IH; rewrite ?IH; try reflexivity; try (unfold data; now rewrite IH). Qed.
Lemma data_perm d e : Permutation d e -> Permutation (data d) (data e).
Proof.
  induction 1; cbn [data filter]; auto.
  - destruct (snd x); auto.
  - destruct (snd x), (snd y); auto; constructor.
  - etransitivity; eassumption.
Qed.
Lemma data_filter f d : data (filter f d) = filter f (data d).
Proof. induction d as [|[k v] d IH]; cbn [data filter]; auto. destruct (f (k, v)) eqn:E, v; cbn [data filter snd]; try unfold data in IH; rewrite ?E, ?IH; auto. Qed.
Lemma filter_perm {A} (f : A -> bool) d e : Permutation d e -> Permutation (filter f d) (filter f e).
Proof.
  induction 1; cbn [filter]; auto.
  - destruct (f x); auto.
  - destruct (f x), (f y); auto; constructor.
  - etransitivity; eassumption.
Qed.
Lemma filter_all {A} (f : A -> bool) d : Forall (fun x => f x = true) d -> filter f d = d.
Proof. induction 1 as [|x d H F IH]; cbn [filter]; auto. now rewrite H, IH. Qed.
Lemma not_py d : ~ In py_object (map fst d) -> filter (fun kv : text * pyobj => if tdec (fst kv) py_object then false else true) d = d.
Proof.
  intros K. apply filter_all. apply Forall_forall. intros x Hx. destruct (tdec (fst x) py_object) as [E|]; auto. exfalso. apply K. rewrite <- E. now apply in_map.
Qed.
Lemma os_keys d : map fst (map os d) = map fst d.
Proof. rewrite map_map. reflexivity. Qed.
Lemma inst_perm c a : ~ In py_object (map fst a) ->
  Permutation (filter (fun kv => if tdec (fst kv) py_object then false else true) (sort_keys ((py_object, OStr c) :: map os (data a)))) (map os (data a)).
Proof.
  intros K. etransitivity; [apply filter_perm; symmetry; apply sort_perm|]. cbn [filter fst]. destruct (tdec py_object py_object); [|contradiction].
  rewrite not_py; auto. rewrite os_keys. now apply data_absent.
Qed.
Lemma forall2_os d : Forall (fun kv => same (snd kv) (osort (snd kv))) d -> Forall2 (fun a b => fst a = fst b /\ same (snd a) (snd b)) d (map os d).
Proof. induction 1; cbn [map]; constructor; auto. Qed.
Lemma osort_same o : plain good o -> same o (osort o).
Proof.
  induction o as [|b|x|t|l IH|d IH|c a IH|m] using pyobj_ind'; intros P; inversion P as [|?|? Hx|?|? Hl|? Nd Kd Hd|? ? Nd Kd Hd]; subst; cbn [osort]; try constructor.
  - clear P. induction l as [|x l IHl]; constructor; inversion_clear IH; inversion_clear Hl; auto.
  - rewrite data_osort. apply (same_dict _ _ (map os (data d))).
    + etransitivity; [apply data_perm; symmetry; apply sort_perm|]. now rewrite data_os.
    + apply forall2_os, data_forall. rewrite Forall_forall in *. auto.
  - rewrite data_osort. apply (same_inst _ _ _ (map os (data a))).
    + etransitivity; [apply data_perm, inst_perm, Kd|]. now rewrite data_os.
    + apply forall2_os. apply data_attrs in Hd. rewrite Forall_forall in *. intros kv K. apply IH; auto. apply filter_In in K. tauto.
Qed.

(** The text depends only on the data. *)
Lemma forall2_keys d e : Forall2 (fun a b : text * pyobj => fst a = fst b /\ same (snd a) (snd b)) d e -> map fst d = map fst e.
Proof. induction 1 as [|x y d e [E _] F IH]; cbn [map]; congruence. Qed.
Definition written (L : nat) (kv : text * pyobj) : text * text := (fst kv, dumps L (flat (snd kv))).
Lemma dumps_obj_perm L l m : Permutation (map (fun kv => (fst kv, dumps (S L) (snd kv))) l) (map (fun kv => (fst kv, dumps (S L) (snd kv))) m) -> NoDup (map fst l) -> dumps L (JObj l) = dumps L (JObj m).
Proof.
  intros P N. destruct l as [|x l], m as [|y m]; [reflexivity| | |].
  - symmetry in P. apply Permutation_sym, Permutation_nil in P. discriminate.
  - apply Permutation_sym, Permutation_nil in P. discriminate.
  - change (dumps L (JObj (x :: l))) with ("{"%char :: newline (S L) ++ join (comma (S L)) (map (fun kt => quote (fst kt) ++ text_of ": " ++ snd kt) (sort_keys (map (fun kv => (fst kv, dumps (S L) (snd kv))) (x :: l)))) ++ newline L ++ ["}"%char]).
    change (dumps L (JObj (y :: m))) with ("{"%char :: newline (S L) ++ join (comma (S L)) (map (fun kt => quote (fst kt) ++ text_of ": " ++ snd kt) (sort_keys (map (fun kv => (fst kv, dumps (S L) (snd kv))) (y :: m)))) ++ newline L ++ ["}"%char]).
    rewrite (sort_unique _ _ P); auto. rewrite map_map. exact N.
Qed.
Lemma fl_dumps L d : map (fun kv => (fst kv, dumps L (snd kv))) (map fl d) = map (written L) d.
Proof. rewrite map_map. reflexivity. Qed.
Lemma same_written L d e : Forall (fun kv => forall o', same (snd kv) o' -> forall L, dumps L (flat (snd kv)) = dumps L (flat o')) d ->
  Forall2 (fun a b => fst a = fst b /\ same (snd a) (snd b)) d e -> map (written L) d = map (written L) e.
Proof.
  intros H F. revert H. induction F as [|x y d e [E S] F IH]; intros H; auto. inversion_clear H as [|? ? Hx Hd]. cbn [map]. unfold written at 1 3. rewrite E, (Hx (snd y) S L), IH; auto.
Qed.
Lemma same_text o : plain good o -> forall o', same o o' -> forall L, dumps L (flat o) = dumps L (flat o').
Proof.
  induction o as [|b|x|t|l IH|d IH|c a IH|m] using pyobj_ind'; intros P o' Sm L; inversion P as [|?|? Hx|?|? Hl|? Nd Kd Hd|? ? Nd Kd Hd]; subst; inversion Sm as [| | | |? l' F|? d' e Q F|? ? a' e Q F]; subst; try reflexivity.
  - cbn [flatten]. assert (E : forall L, map (dumps L) (map flat l) = map (dumps L) (map flat l')).
    { clear P Sm. intros K. revert IH Hl. induction F as [|x y l l' Hxy F IHF]; intros IH Hl; auto. inversion_clear IH as [|? ? Ix Il]. inversion_clear Hl as [|? ? Px Pl].
      cbn [map]. rewrite (Ix Px y Hxy K), (IHF Il Pl). reflexivity. }
    inversion F as [|x y l1 l2 Hxy F']; subst; [reflexivity|]. specialize (E (S L)). cbn [map] in E |- *. rewrite !dumps_arr. cbn [map]. now rewrite E.
  - rewrite !flat_dict. apply dumps_obj_perm.
    + rewrite !fl_dumps. rewrite (same_written (S L) (data d) e); auto.
      * apply Permutation_map. now symmetry.
      * apply data_forall. rewrite Forall_forall in *. auto.
    + rewrite map_fl_keys. now apply data_keys.
  - rewrite !flat_inst. apply dumps_obj_perm.
    + cbn [map fst snd]. constructor. rewrite !fl_dumps. rewrite (same_written (S L) (data a) e); auto.
      * apply Permutation_map. now symmetry.
      * apply data_attrs in Hd. rewrite Forall_forall in *. intros kv K. apply IH; auto. apply filter_In in K. tauto.
    + cbn [map fst]. rewrite map_fl_keys. constructor; [now apply data_absent|now apply data_keys].
Qed.
End RoundTrip.
