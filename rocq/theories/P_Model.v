(** Proofs for C76 to C78. *)
From Verif Require Import Prelude M_Dates M_Accounts M_Ledger M_Business M_Model Spec_Business Spec_Model P_Business.
Local Open Scope string_scope.
Local Open Scope list_scope.

(** * Paths *)
Lemma model_coh name s p n ops : Forall ent_coh (md_ents (model_built name s p n ops)).
Proof.
  unfold model_built. assert (H : Forall ent_coh (md_ents (new_model name s p n))) by constructor. revert H. generalize (new_model name s p n).
  induction ops as [|o ops IH]; intros m H; cbn [fold_left]; auto. apply IH. destruct o as [v|v g|v|i o]; cbn [model_step].
  - cbn [md_set_name md_ents]. apply Forall_forall. intros x X. apply in_map_iff in X. destruct X as (y & <- & _). unfold ent_coh. cbn. split; auto. apply Forall_forall. intros z Z. apply in_map_iff in Z. destruct Z as (u & <- & _). apply comp_set_parent_coh.
  - cbn [md_create_entity md_ents]. apply Forall_app. split; auto. constructor; [|constructor]. split; [reflexivity|constructor].
  - cbn [md_remove_entity md_ents]. now apply forall_remove_last.
  - cbn [md_ents]. apply forall_upd_nth; auto. intros e. apply ent_step_coh.
Qed.
Lemma under_coh v l w k : under v l w k -> Forall (comp_coh v) l -> comp_coh w k.
Proof.
  induction 1 as [v l k H|v l k w d H U IH]; intros F; rewrite Forall_forall in F; [auto|]. apply IH. specialize (F k H). inversion F; subst. exact H0.
Qed.
Lemma model_paths name s p n ops e w k a : In e (md_ents (model_built name s p n ops)) -> under (en_path e) (en_comps e) w k ->
  c_path k = (w ++ "/" ++ c_name k)%string /\ (In a (c_acts k) -> ac_path a = (c_path k ++ "/" ++ ac_name a)%string).
Proof.
  intros E U. pose proof (model_coh name s p n ops) as C. rewrite Forall_forall in C. destruct (C e E) as [_ F]. pose proof (under_coh _ _ _ _ U F) as K. inversion K; subst. cbn. split; auto. intros A. rewrite Forall_forall in H0. now apply H0.
Qed.
Lemma ent_step_pp e o : match o with EParent _ => False | _ => True end -> en_ppath (ent_step e o) = en_ppath e.
Proof. destruct o; cbn; tauto. Qed.
(** The parent path of an entity is the model's name if the model was renamed after
    the entity was made, and empty otherwise. *)
Lemma parents_rule : forall ops m, no_moves ops -> Forall (fun e => en_ppath e = "" \/ en_ppath e = md_name m) (md_ents m) ->
  Forall (fun e => en_ppath e = "" \/ en_ppath e = md_name (fold_left model_step ops m)) (md_ents (fold_left model_step ops m)).
Proof.
  induction ops as [|o ops IH]; intros m N H; cbn [fold_left]; auto. inversion N; subst. apply IH; auto. destruct o as [v|v g|v|i o]; cbn [model_step].
  - cbn. apply Forall_forall. intros x X. apply in_map_iff in X. destruct X as (y & <- & _). right. reflexivity.
  - cbn. apply Forall_app. split; auto.
  - cbn. now apply forall_remove_last.
  - cbn. apply forall_upd_nth; auto. intros e E. rewrite ent_step_pp by (destruct o; auto). exact E.
Qed.
Lemma never_named ops : forall m, no_moves ops -> Forall (fun o => match o with MName _ => False | _ => True end) ops -> Forall (fun e => en_ppath e = "") (md_ents m) ->
  Forall (fun e => en_ppath e = "") (md_ents (fold_left model_step ops m)).
Proof.
  induction ops as [|o ops IH]; intros m N M H; cbn [fold_left]; auto. inversion N; subst. inversion M; subst. apply IH; auto. destruct o as [v|v g|v|i o]; cbn [model_step]; [tauto|..].
  - cbn. apply Forall_app. split; auto.
  - cbn. now apply forall_remove_last.
  - cbn. apply forall_upd_nth; auto. intros e E. rewrite ent_step_pp by (destruct o; auto). exact E.
Qed.

(** * Lookup by name *)
Section Named.
Context {A : Type} (name : A -> string).
Definition pick (n : string) (l : list A) : res A := match filter (fun s => name s =? n) l with x :: _ => Ok x | [] => Err IndexError end.
Lemma pick_ok n l x : pick n l = Ok x <-> first_named name n l x.
Proof.
  unfold pick, first_named. induction l as [|y l IH]; cbn [filter].
  - split; [discriminate|]. intros (b & a & E & _). destruct b; discriminate.
  - destruct (String.eqb_spec (name y) n) as [Y|Y].
    + split.
      * intros H. injection H as ->. exists [], l. split; auto.
      * intros (b & a & E & X & B). destruct b as [|z b]; cbn in E; injection E as -> E; [reflexivity|]. exfalso. apply (B z); cbn; auto.
    + rewrite IH. split.
      * intros (b & a & -> & X & B). exists (y :: b), a. split; auto. split; auto. intros z [<-|Z]; auto.
      * intros (b & a & E & X & B). destruct b as [|z b]; cbn in E; injection E as -> E; [congruence|]. exists b, a. split; auto. split; auto. intros u U. apply B. now right.
Qed.
Lemma pick_err n l e : pick n l = Err e <-> e = IndexError /\ ~ In n (map name l).
Proof.
  unfold pick. induction l as [|y l IH]; cbn [filter map].
  - split; [intros H; injection H as <-; auto|intros [-> _]; auto].
  - destruct (String.eqb_spec (name y) n) as [Y|Y].
    + split; [discriminate|]. intros [_ H]. exfalso. apply H. now left.
    + rewrite IH. split; intros [-> H]; split; auto; [intros [X|X]; auto|]. intros X. apply H. now right.
Qed.
Lemma remove_last_spec n l : without_last name n l (remove_last (fun s => name s =? n) l).
Proof.
  induction l as [|x l IH]; cbn [remove_last]; [left; split; auto|]. assert (EX : existsb (fun s => name s =? n) l = true <-> In n (map name l)).
  { rewrite existsb_exists, in_map_iff. split; intros (y & P & Q); exists y; rewrite String.eqb_eq in *; auto. }
  destruct (String.eqb_spec (name x) n) as [X|X]; cbn [andb].
  - destruct (existsb _ l) eqn:B; cbn [negb].
    + destruct IH as [[N _]|(b & y & a & -> & Y & N & E)]; [exfalso; apply N; now apply EX|]. right. exists (x :: b), y, a. rewrite E. auto.
    + right. exists [], x, l. split; auto. split; auto. split; auto. intros H. apply EX in H. congruence.
  - destruct IH as [[N E]|(b & y & a & -> & Y & N & E)].
    + left. rewrite E. split; auto. intros [H|H]; auto.
    + right. exists (x :: b), y, a. rewrite E. auto.
Qed.
Lemma removed_gone n l l' : NoDup (map name l) -> without_last name n l l' -> ~ In n (map name l') /\ forall m x, m <> n -> (first_named name m l' x <-> first_named name m l x).
Proof.
  intros D [[N ->]|(b & y & a & -> & Y & N & ->)]; [split; auto; reflexivity|]. rewrite map_app in D. cbn [map] in D. apply NoDup_remove in D. destruct D as [D1 D2]. split.
  - rewrite Y in D2. now rewrite map_app.
  - intros m x M. rewrite <- !pick_ok. unfold pick. rewrite !filter_app. cbn [filter]. destruct (String.eqb_spec (name y) m); [congruence|]. reflexivity.
Qed.
End Named.

(** * Loans *)
Lemma terms_final ts : forall l l', foldM set_term ts l = Ok l' ->
  ln_bank l' = ln_bank l /\ ln_loan l' = ln_loan l /\ ln_interest l' = ln_interest l /\ ln_amount l' = final_amount ts (ln_amount l) /\ ln_rate l' = final_rate ts (ln_rate l) /\
  ln_duration l' = final_duration ts (ln_duration l) /\ (ln_mrate l = (ln_rate l / twelve)%Qc -> ln_mrate l' = (ln_rate l' / twelve)%Qc) /\ ln_months l' = ln_months l.
Proof.
  induction ts as [|t ts IH]; intros l l' H; cbn [foldM] in H; [injection H as <-; cbn; tauto|].
  destruct (set_term l t) as [l1|] eqn:E; cbn [bind] in H; [|discriminate]. destruct (IH l1 l' H) as (A & B & C & D & F & G & M & N).
  unfold final_amount, final_rate, final_duration in *. cbn [fold_left].
  destruct t as [v|v|n]; cbn [set_term] in E; unfold loan_set_amount, loan_set_rate, loan_set_duration in E;
    try (destruct (monthly_payment _ _ _); cbn [bind] in E; [|discriminate]); injection E as <-; cbn [ln_bank ln_loan ln_interest ln_amount ln_rate ln_mrate ln_duration ln_months] in *; repeat split; auto.
Qed.
Lemma terms_payment ts : forall l l', keeps_duration ts -> foldM set_term ts l = Ok l' -> monthly_payment (ln_amount l) (ln_mrate l) (ln_duration l) = Ok (ln_payment l) ->
  monthly_payment (ln_amount l') (ln_mrate l') (ln_duration l') = Ok (ln_payment l').
Proof.
  induction ts as [|t ts IH]; intros l l' K H P; cbn [foldM] in H; [injection H as <-; auto|]. inversion K; subst.
  destruct (set_term l t) as [l1|] eqn:E; cbn [bind] in H; [|discriminate]. apply (IH l1 l'); auto.
  destruct t as [v|v|n]; cbn [set_term] in E; unfold loan_set_amount, loan_set_rate in E; [..|tauto];
    (destruct (monthly_payment _ _ _) eqn:X; cbn [bind] in E; [|discriminate]); injection E as <-; cbn [ln_amount ln_mrate ln_duration ln_payment]; auto.
Qed.
