(** C79 for the custom properties of thermo packages and streams: refuted. *)
From Verif Require Import Prelude M_Lists M_Heap Spec_Heap P_Heap M_Custom.
From Coq Require Import Reals.
Local Open Scope list_scope.

(** Setting a property of one package changes the properties of another one: of
    its clone, and of a package to which an amount of a compound was added. *)
Theorem C79_custom_properties_refuted name x : ~ leaves_alone c_create c_method (CopSet name x) other_variables.
Proof.
  intros H. specialize (H [Create tt; Call CopClone 0 (OOther tt)] 1%nat (OOther tt) 0%nat (mkprops [])). unfold other_variables in H. cbn in H. specialize (H ltac:(lia) eq_refl). discriminate H.
Qed.
Print Assumptions C79_custom_properties_refuted.
(** In every state, with every object: what is set in the clone (or in the sum with
    an amount of a compound) is read in the original. *)
Theorem C79_custom_properties_shared w k p o name x : view w k = Some p -> o = CopClone \/ o = CopAddCompound ->
  exists w1 n w2, c_method o k (OOther tt) w = (w1, Ok (Some n)) /\ n <> k /\ c_set n name x w1 = (w2, Ok tt) /\ exists p2, view w2 k = Some p2 /\ dict_get (entries p2) name = Some x.
Proof.
  intros V O. assert (G : forall d, dict_get (dict_put d name x) name = Some x).
  { induction d as [|[k' v] d IH]; cbn.
    - destruct (string_dec name name); congruence.
    - destruct (string_dec k' name) as [E|E]; cbn; destruct (string_dec k' name); congruence. }
  unfold view in V. destruct (nth_error (w_objects w) k) as [[f r]|] eqn:E; [|discriminate]. destruct (nth_error (w_arrays w) r) as [d|] eqn:D; [|discriminate]. injection V as <-.
  assert (B : (k < length (w_objects w))%nat) by (apply nth_error_Some; congruence). assert (Br : (r < length (w_arrays w))%nat) by (apply nth_error_Some; congruence).
  exists (mkworld (w_arrays w) (w_objects w ++ [(f, r)])), (length (w_objects w)), (mkworld (put (w_arrays w) r (dict_put d name x)) (w_objects w ++ [(f, r)])). split; [|split; [lia|split]].
  - destruct O as [->| ->]; cbn; unfold bindM, copy; rewrite E; reflexivity.
  - unfold c_set. cbn [w_objects w_arrays]. rewrite nth_error_app2, Nat.sub_diag by lia. cbn. rewrite D. reflexivity.
  - exists (mkprops (dict_put d name x)). split; [|apply G]. unfold view. cbn [w_objects w_arrays]. rewrite nth_error_app1, E by lia.
    assert (N : forall (l : list (list (string * R))) i, (i < length l)%nat -> nth_error (put l i (dict_put d name x)) i = Some (dict_put d name x)).
    { induction l as [|a l IH]; intros i L; cbn in *; [lia|]. destruct i; cbn; auto. apply IH. lia. }
    rewrite N by assumption. reflexivity.
Qed.
Print Assumptions C79_custom_properties_shared.
(** A product, a sum with a package of the same material, a sum with an amount at a
    temperature and what is extracted have no custom properties, and setting
    theirs changes no other object. *)
Theorem C79_custom_properties_fresh w k p o : wf w -> view w k = Some p -> In o [CopMul; CopAddSame; CopAddHot; CopExtract] ->
  exists w1 n, c_method o k (OOther tt) w = (w1, Ok (Some n)) /\ view w1 n = Some (mkprops []) /\ (forall j q, view w j = Some q -> j <> n /\ view w1 j = Some q) /\
  forall name x, exists w2, c_set n name x w1 = (w2, Ok tt) /\ view w2 n = Some (mkprops [(name, x)]) /\ forall j q, view w j = Some q -> view w2 j = Some q.
Proof.
  intros W V I. assert (E : c_method o k (OOther tt) w = (mkworld (w_arrays w ++ [[]]) (w_objects w ++ [(tt, length (w_arrays w))]), Ok (Some (length (w_objects w))))).
  { destruct I as [<-|[<-|[<-|[<-|[]]]]]; cbn [c_method]; unfold bindM; rewrite (read_run _ _ _ V); reflexivity. }
  assert (A : forall j q, view w j = Some q -> exists f r, nth_error (w_objects w) j = Some (f, r) /\ (j < length (w_objects w))%nat /\ (r < length (w_arrays w))%nat /\ nth_error (w_arrays w) r = Some (entries q)).
  { intros j q H. unfold view in H. destruct (nth_error (w_objects w) j) as [[f r]|] eqn:Ej; [|discriminate]. destruct (nth_error (w_arrays w) r) as [d|] eqn:Er; [|discriminate]. injection H as <-. exists f, r. split; auto.
    split; [|split]; [apply nth_error_Some; congruence|apply nth_error_Some; congruence|exact Er]. }
  assert (N : forall (l : list (list (string * R))) a b, put (l ++ [a]) (length l) b = l ++ [b]) by (induction l as [|z l IH]; intros a b; cbn; [|rewrite IH]; reflexivity).
  eexists _, _. split; [exact E|]. split; [|split].
  - unfold view. cbn [w_objects w_arrays]. rewrite nth_error_app2, Nat.sub_diag by lia. cbn. rewrite nth_error_app2, Nat.sub_diag by lia. reflexivity.
  - intros j q H. destruct (A j q H) as (f & r & Ej & Lj & Lr & Er). split; [lia|]. unfold view. cbn [w_objects w_arrays]. rewrite nth_error_app1, Ej, nth_error_app1, Er by lia. destruct q. reflexivity.
  - intros name x. eexists. split; [|split].
    + unfold c_set. cbn [w_objects w_arrays]. rewrite nth_error_app2, Nat.sub_diag by lia. cbn. rewrite nth_error_app2, Nat.sub_diag by lia. cbn. rewrite N. reflexivity.
    + unfold view. cbn [w_objects w_arrays]. rewrite nth_error_app2, Nat.sub_diag by lia. cbn. rewrite nth_error_app2, Nat.sub_diag by lia. reflexivity.
    + intros j q H. destruct (A j q H) as (f & r & Ej & Lj & Lr & Er). unfold view. cbn [w_objects w_arrays]. rewrite nth_error_app1, Ej, nth_error_app1, Er by lia. destruct q. reflexivity.
Qed.
Print Assumptions C79_custom_properties_fresh.
Example C79_custom_example : exists w, wf w /\ view w 0 = Some (mkprops []).
Proof. exists (fst (c_create tt empty_world)). split; [|reflexivity]. split; cbn; repeat constructor. intros []. Qed.
