From Verif Require Import Prelude M_Elements M_Stoichiometry Spec_Stoich M_Thermochem Spec_Thermo.
From Coq Require Import Reals Lra.
Local Open Scope R_scope.

(** * Module functions *)
Lemma rdiv_ok a b : b <> 0 -> rdiv a b = Ok (a / b).
Proof. unfold rdiv. destruct (Req_EM_T b 0); tauto. Qed.
Lemma split_at_none c t : ~ In c t -> split_at c t = [t].
Proof.
  induction t as [|d t IH]; cbn; intros H; auto. destruct (Ascii.eqb_spec c d); [subst; tauto|]. rewrite IH; auto.
Qed.
Lemma split_at_app c a b : ~ In c a -> split_at c (a ++ c :: b) = a :: split_at c b.
Proof.
  induction a as [|d a IH]; cbn; intros H.
  - now rewrite Ascii.eqb_refl.
  - destruct (Ascii.eqb_spec c d); [subst; tauto|]. rewrite IH; auto.
Qed.
Definition no_bracket (t : text) : Prop := ~ In "["%char t /\ ~ In "]"%char t.
Lemma filter_id {A} (f : A -> bool) l : (forall x, In x l -> f x = true) -> filter f l = l.
Proof. induction l as [|x l IH]; cbn; intros H; auto. rewrite H, IH; auto. Qed.
Lemma drop_close t : ~ In "]"%char t -> filter (fun c => negb (Ascii.eqb "]"%char c)) t = t.
Proof. intros H. apply filter_id. intros c Hc. destruct (Ascii.eqb_spec "]"%char c); [subst; tauto|reflexivity]. Qed.
Lemma split_ok f q : no_bracket f -> no_bracket q ->
  split_compound_string (str_of (f ++ ["["%char] ++ q ++ ["]"%char])%list) = Ok (str_of f, str_of q).
Proof.
  intros [F1 F2] [Q1 Q2]. unfold split_compound_string, str_of, text_of. rewrite list_ascii_of_string_of_list_ascii.
  assert (E : filter (fun c => negb (Ascii.eqb "]"%char c)) (f ++ ["["%char] ++ q ++ ["]"%char])%list = (f ++ "["%char :: q)%list).
  { rewrite !filter_app, (drop_close f), (drop_close q) by auto. cbn. now rewrite app_nil_r. }
  rewrite E, (split_at_app _ f q F1), (split_at_none _ q Q1). reflexivity.
Qed.
Lemma split_missing f : ~ In "["%char f -> split_compound_string (str_of f) = Err IndexError.
Proof.
  intros H. unfold split_compound_string, str_of, text_of. rewrite list_ascii_of_string_of_list_ascii. rewrite split_at_none; auto.
  intros X. apply filter_In in X as [X _]. auto.
Qed.

Lemma lookup_In {A} k (d : list (string * A)) v : lookup k d = Some v -> In (k, v) d.
Proof. induction d as [|[k' v'] d IH]; cbn; [discriminate|]. destruct (String.eqb_spec k k'); [intros [= ->]; subst; auto|auto]. Qed.

Lemma thermo_value f db cs fo ph c p T v mass : split_compound_string cs = Ok (fo, ph) -> lookup fo db = Some c -> tc_molar_mass c <> 0 ->
  lookup ph (tc_phases c) = Some p -> f p (T + 27315 / 100) = Ok v -> thermo f db cs T mass = Ok (v / 3600000 / tc_molar_mass c * mass).
Proof.
  intros E1 E2 N E3 E4. unfold thermo. rewrite E1. cbn [bind fst snd]. rewrite E2. unfold compound_of. rewrite E3, E4. cbn [bind]. unfold finalise_result.
  rewrite rdiv_ok by auto. reflexivity.
Qed.
Lemma thermo_linear f db cs T mass v : thermo f db cs T 1 = Ok v -> thermo f db cs T mass = Ok (mass * v).
Proof.
  unfold thermo. destruct (split_compound_string cs) as [fp|e]; cbn [bind]; [|discriminate]. destruct (lookup (fst fp) db) as [c|]; [|discriminate].
  destruct (compound_of f c (snd fp) (T + 27315 / 100)) as [x|e]; cbn [bind]; [|discriminate]. unfold finalise_result. destruct (rdiv (x / 3600000) (tc_molar_mass c)) as [y|e]; cbn [bind]; [|discriminate].
  intros [= <-]. f_equal. ring.
Qed.
Lemma thermo_error f db cs T m1 m2 e : thermo f db cs T m1 = Err e -> thermo f db cs T m2 = Err e.
Proof.
  unfold thermo. destruct (split_compound_string cs) as [fp|]; cbn [bind]; [|congruence]. destruct (lookup (fst fp) db) as [c|]; [|congruence].
  destruct (compound_of f c (snd fp) (T + 27315 / 100)) as [x|]; cbn [bind]; [|congruence]. unfold finalise_result. destruct (rdiv (x / 3600000) (tc_molar_mass c)) as [y|]; cbn [bind]; congruence.
Qed.
