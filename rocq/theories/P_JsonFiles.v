(** Compounds written to files and read back (C88). *)
From Verif Require Import Prelude M_Stoichiometry M_Thermochem M_Text M_Factsage M_Json M_JsonFiles Spec_Json Spec_JsonFiles P_Json P_Json2 P_Json3 P_Thermo.
From Coq Require Import Permutation Sorted Lia Reals Lra.
Local Open Scope list_scope.

(** * Sorting the records *)
Definition rle (a b : R * cprecord) : Prop := (fst a <= fst b)%R.
Lemma rsorted_unique l : forall m, StronglySorted rle l -> StronglySorted rle m -> Permutation l m -> NoDup (map fst l) -> l = m.
Proof.
  induction l as [|x l IH]; intros m Sl Sm P N; [now apply Permutation_nil in P|].
  destruct m as [|y m]; [symmetry in P; now apply Permutation_nil in P|].
  inversion_clear Sl as [|? ? Sl' Fl]. inversion_clear Sm as [|? ? Sm' Fm]. cbn [map] in N. inversion_clear N as [|? ? Nx Nl].
  assert (x = y).
  { destruct (Permutation_in x P (or_introl eq_refl)) as [->|Hx]; auto.
    destruct (Permutation_in y (Permutation_sym P) (or_introl eq_refl)) as [->|Hy]; auto.
    exfalso. apply Nx. rewrite Forall_forall in Fl, Fm. assert (E : fst x = fst y) by (apply Rle_antisym; [apply (Fl y Hy)|apply (Fm x Hx)]). rewrite E. now apply in_map. }
  subst y. f_equal. apply IH; auto. now apply Permutation_cons_inv in P.
Qed.
Lemma sorted_records_perm p q : Permutation (ph_records p) (ph_records q) -> NoDup (map fst (ph_records p)) -> sorted_records p = sorted_records q.
Proof.
  intros P N. apply rsorted_unique; try apply sorted_sorted.
  - rewrite <- (sorted_perm p), <- (sorted_perm q). exact P.
  - eapply Permutation_NoDup; [apply Permutation_map, sorted_perm|exact N].
Qed.
Definition same_phase (p q : phase) : Prop :=
  ph_DHref p = ph_DHref q /\ ph_Sref p = ph_Sref q /\ ph_mag p = ph_mag q /\ Permutation (ph_records p) (ph_records q) /\ NoDup (map fst (ph_records p)).
Lemma same_phase_functions p q f T : same_phase p q -> In f [phase_Cp; phase_H; phase_S; phase_G] -> f p T = f q T.
Proof.
  intros (H1 & H2 & H3 & P & N) I. assert (E := sorted_records_perm p q P N).
  assert (C : forall T, phase_Cp p T = phase_Cp q T) by (intros t; unfold phase_Cp, last_record, Cp_mag; now rewrite E, H3).
  assert (L : last_record p = last_record q) by (unfold last_record; now rewrite E).
  destruct I as [<-|[<-|[<-|[<-|[]]]]]; auto; unfold phase_H, phase_S, phase_G, H_mag, S_mag, G_mag; rewrite E, H1 || rewrite E, H2; rewrite ?H2, ?H3, ?L.
  - destruct (fst _); auto. destruct (last_record q); cbn [bind]; auto. now rewrite C.
  - destruct (fst _); auto. destruct (last_record q); cbn [bind]; auto. now rewrite C.
  - destruct (fst _); auto. destruct (last_record q); cbn [bind]; auto. now rewrite C.
Qed.

Lemma Forall2_in_l {A B} (Q : A -> B -> Prop) l m : Forall2 Q l m -> forall x, In x l -> exists y, In y m /\ Q x y.
Proof. induction 1 as [|a b l m H F IH]; cbn [In]; [contradiction|]. intros x [<-|I]; [eauto|]. destruct (IH x I) as (y & Y & Z). eauto. Qed.
(** * Attributes *)
Section Files.
Variable repr : Qc -> text.
Variable float_of : text -> res Qc.
Notation good := (faithful repr float_of).

Lemma dget_sound {A} (d : list (text * A)) k v : dget tdec d k = Ok v -> In (k, v) d.
Proof. induction d as [|[k' v'] d IH]; cbn [dget In]; [discriminate|]. destruct (tdec k' k) as [->|]; [intros [= ->]; auto|auto]. Qed.
Lemma plain_data d : Forall (fun kv => plain good (snd kv)) d -> data d = d.
Proof. intros F. apply filter_all. eapply Forall_impl; [|exact F]. intros [k []] P; auto. inversion P. Qed.
Lemma same_attr c a o k v : plain good o -> same (OInst c a) o -> get_attr (OInst c a) k = Ok v -> (forall m, v <> OMethod m) ->
  exists v', get_attr o k = Ok v' /\ same v v' /\ plain good v'.
Proof.
  intros P S G M. inversion S as [| | | | | |? ? a' e Q F]; subst. inversion P as [| | | | | |? ? Nd Kd Hd]; subst.
  cbn [get_attr] in *. destruct (dget tdec a (text_of k)) eqn:D; [|discriminate]. injection G as ->. apply dget_sound in D.
  assert (D2 : In (text_of k, v) (data a)) by (apply filter_In; split; auto; cbn; destruct v; auto; exfalso; eapply M; reflexivity).
  destruct (Forall2_in_l _ _ _ F _ D2) as ([k' v'] & I & E & S').
  cbn [fst snd] in *. subst k'. assert (I2 : In (text_of k, v') (data a')) by (eapply Permutation_in; [symmetry; exact Q|exact I]).
  assert (I3 : In (text_of k, v') a') by (apply filter_In in I2; tauto). exists v'. rewrite (dget_In _ _ _ Nd I3). split; [reflexivity|]. split; auto.
  apply data_attrs in Hd. rewrite Forall_forall in Hd. apply (Hd _ I2).
Qed.
Lemma same_num_inv x v : same (ONum x) v -> v = ONum x. Proof. now inversion 1. Qed.
Lemma same_str_inv x v : same (OStr x) v -> v = OStr x. Proof. now inversion 1. Qed.
Lemma same_nums_inv l v : same (OList (map ONum l)) v -> v = OList (map ONum l).
Proof.
  inversion 1 as [| | | |? l' F| |]; subst. f_equal. clear H. revert l' F. induction l as [|x l IH]; cbn [map]; intros l' F; inversion F as [|? y ? l2 Hx F2]; subst; auto.
  apply same_num_inv in Hx. subst. cbn [map]. f_equal. auto.
Qed.
Lemma mapM_nums l : mapM as_num (map ONum l) = Ok l.
Proof. induction l as [|x l IH]; cbn [map mapM as_num bind]; auto. now rewrite IH. Qed.

(** The data of a record, a phase and a compound. *)
Definition rec_data (r : arecord) : cprecord := mkcp (qr (ar_Tmin r)) (qr (ar_Tmax r)) (combine (map qr (ar_coefficients r)) (map qr (ar_exponents r))).
Definition key_num (k : text) : R := match float_of k with Ok t => qr t | Err _ => 0%R end.
Definition ph_data (p : aphase) : phase :=
  mkphase (qr (ap_DHref p)) (qr (ap_Sref p)) (map (fun kr => (key_num (fst kr), rec_data (snd kr))) (ap_records p)) None.
Definition cmp_data (c : acompound) : tcompound :=
  mktc (str_of (ac_formula c)) (qr (ac_molar_mass c)) (map (fun kp => (str_of (fst kp), ph_data (snd kp))) (ac_phases c)).

Ltac attr P S k := let v := fresh "v" in let G := fresh "G" in let Sv := fresh "Sv" in let Pv := fresh "Pv" in
  destruct (same_attr _ _ _ k _ P S eq_refl ltac:(discriminate)) as (v & G & Sv & Pv).
Lemma record_same r o : plain good o -> same (record_obj r) o -> record_of o = Ok (rec_data r).
Proof.
  intros P S. attr P S "Tmin"%string. attr P S "Tmax"%string. attr P S "_coefficients"%string. attr P S "_exponents"%string.
  apply same_num_inv in Sv, Sv0. apply same_nums_inv in Sv1, Sv2. subst. unfold record_of. rewrite G, G0, G1, G2. cbn [bind as_num as_nums]. rewrite !mapM_nums. reflexivity.
Qed.
Lemma mapM_perm {A B} (f : A -> res B) l m r : Permutation l m -> mapM f m = Ok r -> exists r', mapM f l = Ok r' /\ Permutation r' r.
Proof.
  intros P. revert r. induction P as [|x l m P IH|x y l|l m n P1 IH1 P2 IH2]; intros r H; cbn [mapM] in *.
  - exists r. auto.
  - destruct (f x); cbn [bind] in *; [|discriminate]. destruct (mapM f m) as [q|]; cbn [bind] in *; [|discriminate]. destruct (IH q eq_refl) as (q' & -> & Pq). injection H as <-. eexists. split; [reflexivity|]. now constructor.
  - destruct (f x), (f y); cbn [bind] in *; try discriminate; destruct (mapM f l) as [q|]; cbn [bind] in *; try discriminate. injection H as <-. eexists. split; [reflexivity|]. constructor.
  - destruct (IH2 r H) as (r1 & H1 & Q1). destruct (IH1 r1 H1) as (r2 & H2 & Q2). exists r2. split; auto. etransitivity; eassumption.
Qed.
Lemma mapM_in {A B} (f : A -> res B) l r x : mapM f l = Ok r -> In x l -> exists y, f x = Ok y /\ In y r.
Proof.
  revert r. induction l as [|a l IH]; intros r H I; cbn [mapM] in H; [contradiction|]. destruct (f a) eqn:E; cbn [bind] in H; [|discriminate]. destruct (mapM f l) as [q|]; cbn [bind] in H; [|discriminate].
  injection H as <-. destruct I as [->|I]; [eexists; split; [exact E|now left]|]. destruct (IH q eq_refl I) as (y & Y & Z). exists y. split; [auto|now right].
Qed.
(** The entries of a dictionary read back, in some order. *)
Lemma dict_same {B} (mk : B -> pyobj) d o :
  plain good o -> same (ODict (map (fun kb => (fst kb, mk (snd kb))) d)) o -> (forall b m, mk b <> OMethod m) ->
  exists d' e, o = ODict d' /\ Permutation d' e /\ Forall2 (fun kb kv => fst kb = fst kv /\ same (mk (snd kb)) (snd kv) /\ plain good (snd kv)) d e.
Proof.
  intros P S M. inversion S as [| | | | |? d' e Q F|]; subst. inversion P as [| | | | |? Nd Kd Hd|]; subst. rewrite (plain_data d' Hd) in Q. exists d', e. split; auto. split; auto.
  assert (Pe : Forall (fun kv => plain good (snd kv)) e) by (eapply Permutation_Forall; eassumption).
  assert (E : data (map (fun kb => (fst kb, mk (snd kb))) d) = map (fun kb => (fst kb, mk (snd kb))) d).
  { apply filter_all. apply Forall_forall. intros x Hx. apply in_map_iff in Hx as (kb & <- & _). cbn. destruct (mk (snd kb)) eqn:X; auto. exfalso. eapply M, X. }
  rewrite E in F. clear E S P Q Nd Kd Hd d'. revert e F Pe. induction d as [|kb d IH]; intros e F Pe; cbn [map] in F; inversion F as [|? y ? e2 [Hk Hs] F2]; subst; constructor; inversion_clear Pe; auto.
Qed.
Lemma key_num_ok k t : float_of k = Ok t -> key_num k = qr t. Proof. unfold key_num. now intros ->. Qed.
Lemma qr_inj x y : qr x = qr y -> x = y.
Proof. unfold qr. intros H. apply Qc_is_canon. now apply Qreals.eqR_Qeq. Qed.
Lemma keys_distinct ks ts : mapM float_of ks = Ok ts -> NoDup ts -> NoDup (map key_num ks).
Proof.
  revert ts. induction ks as [|k ks IH]; intros ts H N; cbn [map mapM] in *; [constructor|].
  destruct (float_of k) as [t|] eqn:E; cbn [bind] in H; [|discriminate]. destruct (mapM float_of ks) as [q|] eqn:F; cbn [bind] in H; [|discriminate]. injection H as <-.
  inversion_clear N as [|? ? Nt Nq]. constructor; [|now apply (IH q)]. intros I. apply in_map_iff in I as (k2 & E2 & I2).
  destruct (mapM_in _ _ _ _ F I2) as (t2 & T2 & In2). rewrite (key_num_ok k t E), (key_num_ok k2 t2 T2) in E2. apply qr_inj in E2. subst. contradiction.
Qed.
Lemma phase_same p o : phase_ok repr float_of p -> plain good o -> same (phase_obj p) o -> exists q, phase_data float_of o = Ok q /\ same_phase (ph_data p) q.
Proof.
  intros [On Or Ok_ (ts & Ts & Nt)] P S. attr P S "DHref"%string. attr P S "Sref"%string. attr P S "_Cp_records"%string.
  apply same_num_inv in Sv, Sv0. subst. destruct (dict_same record_obj (ap_records p) v1 Pv1 Sv1 ltac:(discriminate)) as (d' & e & -> & Q & F).
  assert (M : mapM (fun kr => do t <- float_of (fst kr); do r <- record_of (snd kr); Ok (qr t, r)) e = Ok (map (fun kr => (key_num (fst kr), rec_data (snd kr))) (ap_records p))).
  { clear - F Ts. revert ts Ts. induction F as [|kb kv d e (E & Sm & Pl) F IH]; intros ts Ts; cbn [map mapM] in *; auto. rewrite <- E.
    destruct (float_of (fst kb)) as [t|] eqn:Et; cbn [bind] in *; [|discriminate]. destruct (mapM float_of (map fst d)) as [q|]; cbn [bind] in *; [|discriminate].
    rewrite (record_same (snd kb) (snd kv) Pl Sm). cbn [bind]. rewrite (IH q eq_refl). cbn [bind]. now rewrite (key_num_ok _ _ Et). }
  destruct (mapM_perm _ _ _ _ Q M) as (rs & M' & Qr). unfold phase_data. rewrite G, G0, G1. cbn [bind as_num as_dict]. rewrite M'. cbn [bind]. eexists. split; [reflexivity|].
  split; [reflexivity|]. split; [reflexivity|]. split; [reflexivity|]. split; [symmetry; exact Qr|]. cbn [ph_data ph_records]. rewrite map_map. cbn [fst]. rewrite <- map_map. now apply (keys_distinct _ ts).
Qed.
Lemma str_inj a b : str_of a = str_of b -> a = b.
Proof. unfold str_of. intros H. rewrite <- (list_ascii_of_string_of_list_ascii a), <- (list_ascii_of_string_of_list_ascii b). now f_equal. Qed.
Definition phases_match (l m : list (string * phase)) : Prop := exists e, Permutation m e /\ Forall2 (fun a b => fst a = fst b /\ same_phase (snd a) (snd b)) l e.
Lemma compound_same c o : compound_ok repr float_of c -> plain good o -> same (compound_obj c) o ->
  exists t, compound_data float_of o = Ok t /\ tc_formula t = str_of (ac_formula c) /\ tc_molar_mass t = qr (ac_molar_mass c) /\ phases_match (tc_phases (cmp_data c)) (tc_phases t).
Proof.
  intros [Om Ok_ Op] P S. attr P S "formula"%string. attr P S "molar_mass"%string. attr P S "_phases"%string.
  apply same_str_inv in Sv. apply same_num_inv in Sv0. subst. destruct (dict_same phase_obj (ac_phases c) v1 Pv1 Sv1 ltac:(discriminate)) as (d' & e & -> & Q & F).
  assert (M : exists ps, mapM (fun kp => do p <- phase_data float_of (snd kp); Ok (str_of (fst kp), p)) e = Ok ps /\ Forall2 (fun a b => fst a = fst b /\ same_phase (snd a) (snd b)) (tc_phases (cmp_data c)) ps).
  { cbn [cmp_data tc_phases]. clear - F Op. induction F as [|kb kv d e (E & Sm & Pl) F IH]; cbn [map mapM]; [exists []; auto|]. inversion_clear Op as [|? ? O1 O2].
    destruct (phase_same _ _ O1 Pl Sm) as (q & -> & Sq). destruct (IH O2) as (ps & -> & F2). cbn [bind]. eexists. split; [reflexivity|]. constructor; auto. cbn [fst snd]. now rewrite E. }
  destruct M as (ps & M & F2). destruct (mapM_perm _ _ _ _ Q M) as (rs & M' & Qr). unfold compound_data. rewrite G, G0, G1. cbn [bind as_str as_num as_dict]. rewrite M'. cbn [bind]. eexists. split; [reflexivity|].
  split; [reflexivity|]. split; [reflexivity|]. exists ps. auto.
Qed.
Lemma lookup_same l m k : Forall2 (fun a b : string * phase => fst a = fst b /\ same_phase (snd a) (snd b)) l m ->
  match lookup k l, lookup k m with Some p, Some q => same_phase p q | None, None => True | _, _ => False end.
Proof. induction 1 as [|[a p] [b q] l m [E S] F IH]; cbn [lookup]; auto. cbn [fst snd] in *. subst b. destruct (String.eqb k a); auto. Qed.
Lemma lookup_perm {A} (l m : list (string * A)) k : Permutation l m -> NoDup (map fst l) -> lookup k l = lookup k m.
Proof.
  induction 1 as [|[a p] l m P IH|[a p] [b q] l|l m n P1 IH1 P2 IH2]; intros N; cbn [lookup]; auto.
  - inversion_clear N. now rewrite IH.
  - destruct (String.eqb_spec k a), (String.eqb_spec k b); auto. subst. cbn in N. inversion_clear N as [|? ? H _]. exfalso. apply H. now left.
  - rewrite IH1 by auto. apply IH2. eapply Permutation_NoDup; [apply Permutation_map, P1|exact N].
Qed.
Lemma match_keys l e : Forall2 (fun a b : string * phase => fst a = fst b /\ same_phase (snd a) (snd b)) l e -> map fst l = map fst e.
Proof. induction 1 as [|x y l e [E _] F IH]; cbn [map]; congruence. Qed.
Lemma NoDup_str ks : NoDup ks -> NoDup (map str_of ks).
Proof. induction 1 as [|k ks N H IH]; cbn [map]; constructor; auto. intros I. apply in_map_iff in I as (k2 & E & I). apply str_inj in E. subst. contradiction. Qed.
Lemma matching_thermo c t : compound_ok repr float_of c -> tc_formula t = str_of (ac_formula c) -> tc_molar_mass t = qr (ac_molar_mass c) -> phases_match (tc_phases (cmp_data c)) (tc_phases t) -> same_thermo (cmp_data c) t.
Proof.
  intros O F M (e & Q & F2). split; [now rewrite F|]. split; [now rewrite M|]. intros f If ph T. unfold compound_of.
  assert (N : NoDup (map fst (tc_phases (cmp_data c)))).
  { cbn [cmp_data tc_phases]. rewrite map_map. cbn [fst]. rewrite <- map_map. apply NoDup_str, O. }
  rewrite (lookup_perm (tc_phases t) e ph Q).
  - assert (X := lookup_same _ _ ph F2). destruct (lookup ph (tc_phases (cmp_data c))), (lookup ph e); try contradiction; auto. now apply same_phase_functions.
  - rewrite (match_keys _ _ F2) in N. eapply Permutation_NoDup; [apply Permutation_map; symmetry; exact Q|exact N].
Qed.

(** * _init *)
Lemma dget_dput_other {A} (d : list (text * A)) k v k' : k <> k' -> dget tdec (dput tdec d k v) k' = dget tdec d k'.
Proof.
  intros N. induction d as [|[a b] d IH]; cbn [dput dget].
  - destruct (tdec k k'); [contradiction|reflexivity].
  - destruct (tdec a k) as [->|]; cbn [dget]; [destruct (tdec k k'); [contradiction|reflexivity]|]. destruct (tdec a k'); auto.
Qed.
Lemma dget_dput_same {A} (d : list (text * A)) k v : dget tdec (dput tdec d k v) k = Ok v.
Proof. induction d as [|[a b] d IH]; cbn [dput dget]; [now destruct (tdec k k)|]. destruct (tdec a k) as [->|] eqn:E; cbn [dget]; [now destruct (tdec k k)|]. now rewrite E. Qed.
Definition mag_names : list text := map text_of ["Cp_mag"; "H_mag"; "S_mag"; "G_mag"]%string.
Lemma init_attr o k : ~ In (text_of k) mag_names -> get_attr (init_phase o) k = get_attr o k.
Proof.
  intros N. destruct o; try reflexivity. cbn [init_phase get_attr zero_mag map fold_left fst snd].
  unfold mag_names in N. cbn [map In] in N. rewrite !dget_dput_other; auto; intros E; apply N; rewrite <- E; tauto.
Qed.
Lemma init_phase_data o : phase_data float_of (init_phase o) = phase_data float_of o.
Proof. unfold phase_data. rewrite !init_attr; auto; intros H; cbn in H; intuition discriminate. Qed.
Lemma mapM_map_eq {A B C} (f : B -> res C) (g : A -> B) l : mapM f (map g l) = mapM (fun x => f (g x)) l.
Proof. induction l as [|x l IH]; cbn [map mapM]; auto. now rewrite IH. Qed.
Lemma mapM_ext {A B} (f g : A -> res B) l : (forall x, f x = g x) -> mapM f l = mapM g l.
Proof. intros H. induction l as [|x l IH]; cbn [mapM]; auto. now rewrite H, IH. Qed.
Lemma init_compound_data o o' : init_compound o = Ok o' -> compound_data float_of o' = compound_data float_of o.
Proof.
  unfold init_compound. destruct (get_attr o "_phases") as [v|] eqn:E; cbn [bind]; [|discriminate]. destruct (as_dict v) as [d|] eqn:D; cbn [bind]; [|discriminate].
  destruct o as [| | | | | |c a|]; try discriminate. intros [= <-]. unfold compound_data. rewrite E.
  assert (X : forall k d2, text_of k <> text_of "_phases" -> get_attr (OInst c (dput tdec a (text_of "_phases") d2)) k = get_attr (OInst c a) k).
  { intros k d2 N. cbn [get_attr]. rewrite dget_dput_other; auto. }
  rewrite !X by discriminate. cbn [get_attr]. rewrite dget_dput_same. cbn [bind as_dict]. rewrite D. cbn [bind].
  destruct (dget tdec a (text_of "formula")) as [v1|]; cbn [bind]; auto. destruct (as_str v1); cbn [bind]; auto.
  destruct (dget tdec a (text_of "molar_mass")) as [v2|]; cbn [bind]; auto. destruct (as_num v2); cbn [bind]; auto.
  rewrite mapM_map_eq. cbn [fst snd]. erewrite mapM_ext; [reflexivity|]. intros x. now rewrite init_phase_data.
Qed.
End Files.
