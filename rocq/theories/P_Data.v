From Verif Require Import Prelude M_Elements M_Stoichiometry Spec_Stoich M_Thermochem Spec_Thermo P_Thermo P_Magnetic P_ThermoApi M_Data.
From Verif Require Import M_Data_Rao M_Data_Nist.
From Coq Require Import Qabs Reals Qreals Permutation Lra.
From Coquelicot Require Import Coquelicot.
Local Open Scope R_scope.

(** * A checker for contiguous records *)
Definition rec_of (kr : Q * qrecord) : R * cprecord := (Q2R (fst kr), read_record (snd kr)).
Fixpoint qcontiguous (t0 : Q) (l : list (Q * qrecord)) : bool :=
  match l with
  | nil => true
  | cons (k, r) l' => Qeq_bool (qr_Tmin r) t0 && Qeq_bool (qr_Tmax r) k && negb (Qle_bool k t0) && qcontiguous k l'
  end.
Lemma qcontiguous_ok l : forall t0, qcontiguous t0 l = true -> contiguous (Q2R t0) (map rec_of l).
Proof.
  induction l as [|[k r] l IH]; intros t0; cbn; auto. rewrite !andb_true_iff, negb_true_iff. intros [[[H1 H2] H3] H4].
  apply Qeq_bool_iff in H1. apply Qeq_bool_iff in H2. repeat split.
  - now apply Qeq_eqR.
  - now apply Qeq_eqR.
  - apply Qlt_Rlt. destruct (Qlt_le_dec t0 k); auto. apply Qle_bool_iff in q. congruence.
  - now apply IH.
Qed.
Fixpoint qinsert (x : Q * qrecord) (l : list (Q * qrecord)) : list (Q * qrecord) :=
  match l with nil => cons x nil | cons y l' => if Qle_bool (fst x) (fst y) then cons x l else cons y (qinsert x l') end.
Definition qsort (l : list (Q * qrecord)) := fold_right qinsert nil l.
Lemma qinsert_perm x l : Permutation (x :: l) (qinsert x l).
Proof. induction l as [|y l IH]; cbn; auto. destruct (Qle_bool _ _); auto. rewrite perm_swap. now constructor. Qed.
Lemma qsort_perm l : Permutation l (qsort l).
Proof. unfold qsort. induction l as [|x l IH]; cbn; auto. rewrite <- qinsert_perm. now constructor. Qed.

Definition qregular (p : qphase) : bool :=
  match qp_records p with nil => false | _ => qcontiguous (29815 # 100) (qsort (qp_records p)) end.
Lemma Tref_Q : Q2R (29815 # 100) = T_ref. Proof. unfold Q2R, T_ref. cbn. field. Qed.
Lemma qregular_ok p : qregular p = true -> regular (read_phase p).
Proof.
  unfold qregular. destruct (qp_records p) as [|x l] eqn:E; [discriminate|]. rewrite <- E. intros H. split; [reflexivity|]. exists (map rec_of (qsort (qp_records p))).
  split; [|split].
  - cbn. apply Permutation_map. symmetry. apply qsort_perm.
  - intros X. apply map_eq_nil in X. pose proof (qsort_perm (qp_records p)) as P. rewrite X, E in P. symmetry in P. now apply Permutation_nil in P.
  - rewrite <- Tref_Q. now apply qcontiguous_ok.
Qed.

(** * Positive heat capacities *)
Definition qpow (x : Q) (e : Q) : option Q :=
  if Qeq_bool e 0 then Some 1%Q else if Qeq_bool e 1 then Some x else if Qeq_bool e (-2) then Some (/ (x * x))%Q else None.
Definition qmin (a b : Q) : Q := if Qle_bool a b then a else b.
Fixpoint qbound (lo hi : Q) (ts : list (Q * Q)) : option Q :=
  match ts with
  | nil => Some 0%Q
  | cons (c, e) ts' =>
    match qpow lo e, qpow hi e, qbound lo hi ts' with
    | Some a, Some b, Some s => Some (qmin (c * a) (c * b) + s)%Q
    | _, _, _ => None
    end
  end.
Lemma qmin_l a b : Q2R (qmin a b) <= Q2R a.
Proof. unfold qmin. destruct (Qle_bool a b) eqn:E; [lra|]. apply Qle_Rle. destruct (Qlt_le_dec b a); [now apply Qlt_le_weak|]. apply Qle_bool_iff in q. congruence. Qed.
Lemma qmin_r a b : Q2R (qmin a b) <= Q2R b.
Proof. unfold qmin. destruct (Qle_bool a b) eqn:E; [|lra]. apply Qle_Rle. now apply Qle_bool_iff. Qed.
Lemma Q2R_0' : Q2R 0 = 0. Proof. unfold Q2R. cbn. field. Qed.
Lemma Q2R_1' : Q2R 1 = 1. Proof. unfold Q2R. cbn. field. Qed.
Lemma Q2R_m2 : Q2R (-2) = -(2). Proof. unfold Q2R. cbn. field. Qed.

Lemma qpow_ok x e y : 0 < Q2R x -> qpow x e = Some y -> Rpower (Q2R x) (Q2R e) = Q2R y.
Proof.
  intros Hx. unfold qpow. destruct (Qeq_bool e 0) eqn:E0.
  - intros [= <-]. apply Qeq_bool_iff in E0. apply Qeq_eqR in E0. rewrite E0, Q2R_0', Q2R_1'. now apply Rpower_O.
  - destruct (Qeq_bool e 1) eqn:E1.
    + intros [= <-]. apply Qeq_bool_iff in E1. apply Qeq_eqR in E1. rewrite E1, Q2R_1'. now apply Rpower_1.
    + destruct (Qeq_bool e (-2)) eqn:E2; [|discriminate]. intros [= <-]. apply Qeq_bool_iff in E2. apply Qeq_eqR in E2. rewrite E2, Q2R_m2.
      rewrite Rpower_Ropp. replace 2 with (INR 2) by (cbn; lra). rewrite Rpower_pow by auto. rewrite Q2R_inv.
      * rewrite Q2R_mult. cbn [pow]. f_equal. ring.
      * intros X. apply Qeq_eqR in X. rewrite Q2R_mult, Q2R_0' in X. nra.
Qed.
(** Between two positive temperatures a power lies between its values at the ends. *)
Lemma Rpower_between a b T e : 0 < a <= T -> T <= b ->
  (Rpower a e <= Rpower T e <= Rpower b e) \/ (Rpower b e <= Rpower T e <= Rpower a e).
Proof.
  intros Ha Hb. destruct (Rle_dec 0 e).
  - left. split; apply Rle_Rpower_l; lra.
  - right. assert (X : forall x y, 0 < x <= y -> Rpower y e <= Rpower x e).
    { intros x y H. replace e with (- (- e)) by ring. rewrite !(Rpower_Ropp _ (- e)). apply Rinv_le_contravar; [apply exp_pos|]. apply Rle_Rpower_l; lra. }
    split; apply X; lra.
Qed.
Lemma qbound_ok lo hi T : 0 < Q2R lo <= T -> T <= Q2R hi -> forall ts s, qbound lo hi ts = Some s ->
  Q2R s <= polynomial (map (fun ce => (Q2R (fst ce), Q2R (snd ce))) ts) T.
Proof.
  intros Hlo Hhi. induction ts as [|[c e] ts IH]; intros s; cbn.
  - intros [= <-]. rewrite Q2R_0'. lra.
  - destruct (qpow lo e) as [a|] eqn:Ea; [|discriminate]. destruct (qpow hi e) as [b|] eqn:Eb; [|discriminate]. destruct (qbound lo hi ts) as [s'|] eqn:Es; [|discriminate].
    intros [= <-]. specialize (IH _ eq_refl). unfold polynomial in IH. rewrite Q2R_plus. apply qpow_ok in Ea; [|lra]. apply qpow_ok in Eb; [|lra].
    pose proof (qmin_l (c * a) (c * b)) as M1. pose proof (qmin_r (c * a) (c * b)) as M2. rewrite Q2R_mult in M1, M2.
    apply Rplus_le_compat; [|exact IH]. destruct (Rpower_between _ _ _ (Q2R e) Hlo Hhi) as [B|B]; rewrite Ea, Eb in B; destruct (Rle_dec 0 (Q2R c)); nra.
Qed.
Definition qpositive_record (kr : Q * qrecord) : bool :=
  match qbound (qr_Tmin (snd kr)) (qr_Tmax (snd kr)) (qr_terms (snd kr)) with Some s => negb (Qle_bool s 0) | None => false end.
Definition qpositive (p : qphase) : bool := forallb qpositive_record (qp_records p).

Lemma positive_record kr : qpositive_record kr = true -> 0 < cr_Tmin (snd (rec_of kr)) ->
  exists d, 0 < d /\ forall T, cr_Tmin (snd (rec_of kr)) <= T <= cr_Tmax (snd (rec_of kr)) -> d <= cp_Cp (snd (rec_of kr)) T.
Proof.
  unfold qpositive_record, rec_of, read_record. cbn [snd fst cr_Tmin cr_Tmax]. destruct (qbound _ _ _) as [s|] eqn:E; [|discriminate]. intros H HT. exists (Q2R s). split.
  - rewrite <- Q2R_0'. apply Qlt_Rlt. destruct (Qlt_le_dec 0 s); auto. apply Qle_bool_iff in q. rewrite q in H. discriminate.
  - intros T HTT. rewrite cp_Cp_sum. cbn [cr_terms]. eapply qbound_ok; eauto; lra.
Qed.

(** A heat capacity with a positive lower bound on every record has one on the phase. *)
Lemma positive_piece l : forall t0, contiguous t0 l -> 0 < t0 ->
  (forall k r, In (k, r) l -> exists d, 0 < d /\ forall T, cr_Tmin r <= T <= cr_Tmax r -> d <= cp_Cp r T) ->
  forall g, 0 < g -> exists d, 0 < d /\ forall T, t0 <= T -> d <= piece cp_Cp l (fun _ => g) T.
Proof.
  induction l as [|[k r] l IH]; intros t0 C H0 H g Hg.
  - exists g. split; auto. intros T _. unfold piece. cbn. lra.
  - destruct C as (C1 & C2 & C3 & C4). destruct (H k r) as (d1 & P1 & Q1); [cbn; auto|].
    destruct (IH k C4 ltac:(lra)) with (g := g) as (d2 & P2 & Q2); auto; [intros k' r' I; apply (H k'); cbn; auto|].
    exists (Rmin d1 d2). split; [now apply Rmin_glb_lt|]. intros T HT. destruct (Rlt_dec T k).
    + rewrite piece_cons_lt by auto. eapply Rle_trans; [apply Rmin_l|]. apply Q1. lra.
    + rewrite piece_cons_ge by lra. eapply Rle_trans; [apply Rmin_r|]. apply Q2. lra.
Qed.
Lemma contiguous_In l : forall t0 k r, contiguous t0 l -> In (k, r) l -> t0 <= cr_Tmin r /\ cr_Tmax r = k /\ cr_Tmin r < k.
Proof.
  induction l as [|[k' r'] l IH]; intros t0 k r C; [intros []|]. destruct C as (C1 & C2 & C3 & C4). intros [[= <- <-]|I]; [lra|].
  destruct (IH _ _ _ C4 I) as (A & B & D). lra.
Qed.
Lemma positive_phase p : qregular p = true -> qpositive p = true -> exists d, 0 < d /\ forall T, T_ref <= T -> exists c, phase_Cp (read_phase p) T = Ok c /\ d <= c.
Proof.
  intros Hr Hp. apply qregular_ok in Hr. destruct (regular_sorted _ Hr) as (_ & N & C). destruct (regular_Cp _ Hr) as (rl & I & _ & E).
  assert (HR : forall k r, In (k, r) (sorted_records (read_phase p)) -> exists d, 0 < d /\ forall T, cr_Tmin r <= T <= cr_Tmax r -> d <= cp_Cp r T).
  { intros k r HI. pose proof (contiguous_In _ _ _ _ C HI) as (Tm & _). pose proof T_ref_pos.
    assert (HI' : In (k, r) (map rec_of (qp_records p))) by exact (Permutation_in _ (Permutation_sym (sorted_perm (read_phase p))) HI).
    apply in_map_iff in HI' as (kr & E1 & HI'). unfold qpositive in Hp. rewrite forallb_forall in Hp. specialize (Hp _ HI').
    destruct (positive_record kr Hp) as (d & P & Q); rewrite E1 in *; cbn [snd] in *; [lra|eauto]. }
  destruct (HR _ _ I) as (d0 & P0 & Q0). pose proof (contiguous_In _ _ _ _ C I) as (_ & EM & ?).
  destruct (positive_piece _ _ C T_ref_pos HR (cp_Cp rl (last_key T_ref (sorted_records (read_phase p))))) as (d & P & Q).
  { eapply Rlt_le_trans; [exact P0|]. apply Q0. rewrite EM. lra. }
  exists d. split; auto. intros T HT. eexists. split; [apply E|]. now apply Q.
Qed.

(** Then enthalpy and entropy increase strictly. *)
Lemma RInt_lower (f : R -> R) (a b d u : R) : a < b -> (forall t, a <= t -> d <= f t) -> is_RInt f a b u -> d * (b - a) <= u.
Proof.
  intros Hab Hf I. assert (J : is_RInt (fun _ => d) a b ((b - a) * d)) by exact (is_RInt_const a b d).
  rewrite Rmult_comm. apply (is_RInt_le (fun _ => d) f a b); auto; [lra|]. intros x Hx. apply Hf. lra.
Qed.
Lemma H_increasing p d a b : regular p -> 0 < d -> (forall T, T_ref <= T -> exists c, phase_Cp p T = Ok c /\ d <= c) -> T_ref <= a < b ->
  exists ha hb, phase_H p a = Ok ha /\ phase_H p b = Ok hb /\ d * (b - a) <= hb - ha.
Proof.
  intros Rg Hd HC Hab. pose proof T_ref_pos. destruct (regular_H p a Rg) as (ha & Ea & Ia); [lra|]. destruct (regular_H p b Rg) as (hb & Eb & Ib); [lra|].
  exists ha, hb. repeat split; auto. assert (I : is_RInt (fun t => value (phase_Cp p t)) a b (hb - ha)).
  { apply (chasles _ a T_ref b (opp (ha - ph_DHref p)) (hb - ph_DHref p)); [unfold opp; cbn; ring| |exact Ib]. exact (@is_RInt_swap R_NormedModule _ _ _ _ Ia). }
  eapply RInt_lower; [|  |exact I]; [lra|]. intros t Ht. destruct (HC t) as (c & -> & Hc); [lra|]. exact Hc.
Qed.
Lemma S_increasing p d a b : regular p -> 0 < d -> (forall T, T_ref <= T -> exists c, phase_Cp p T = Ok c /\ d <= c) -> T_ref <= a < b ->
  exists sa sb, phase_S p a = Ok sa /\ phase_S p b = Ok sb /\ sa < sb.
Proof.
  intros Rg Hd HC Hab. pose proof T_ref_pos. destruct (regular_S p a Rg) as (ha & Ea & Ia); [lra|]. destruct (regular_S p b Rg) as (hb & Eb & Ib); [lra|].
  exists ha, hb. repeat split; auto. assert (I : is_RInt (fun t => value (phase_Cp p t) / t) a b (hb - ha)).
  { apply (chasles _ a T_ref b (opp (ha - ph_Sref p)) (hb - ph_Sref p)); [unfold opp; cbn; ring| |exact Ib]. exact (@is_RInt_swap R_NormedModule _ _ _ _ Ia). }
  assert (J : is_RInt (fun _ => d / b) a b ((b - a) * (d / b))) by exact (is_RInt_const a b (d / b)).
  assert (L : (b - a) * (d / b) <= hb - ha).
  { apply (is_RInt_le (fun _ => d / b) (fun t => value (phase_Cp p t) / t) a b); auto; [lra|]. intros t Ht. destruct (HC t) as (c & -> & Hc); [lra|]. cbn [value].
    unfold Rdiv. apply Rmult_le_compat; try lra; [apply Rlt_le, Rinv_0_lt_compat; lra|]. apply Rinv_le_contravar; lra. }
  assert (0 < (b - a) * (d / b)) by (apply Rmult_lt_0_compat; [lra|apply Rdiv_lt_0_compat; lra]). lra.
Qed.

(** * The database *)
Lemma lookup_map {A B} (f : A -> B) k d v : lookup k (map (fun kv => (fst kv, f (snd kv))) d) = Some v -> exists x, In (k, x) d /\ lookup k d = Some x /\ v = f x.
Proof.
  induction d as [|[k' x] d IH]; cbn; [discriminate|]. destruct (String.eqb_spec k k') as [->|].
  - intros [= <-]. eauto.
  - intros H. destruct (IH H) as (y & I & L & ->). eauto.
Qed.
Lemma lookup_load l f c : lookup f (load_data l) = Some c -> exists q, In q l /\ qc_formula q = f /\ c = read_compound q.
Proof.
  unfold load_data. induction l as [|q l IH]; cbn; [discriminate|]. destruct (String.eqb_spec f (qc_formula q)) as [->|].
  - intros [= <-]. eauto.
  - intros H. destruct (IH H) as (q' & I & E & ->). eauto.
Qed.
Definition checked (f : qcompound -> string -> qphase -> bool) (l : list qcompound) : bool :=
  forallb (fun c => forallb (fun np => f c (fst np) (snd np)) (qc_phases c)) l.
Lemma checked_ok f l : checked f l = true -> forall fo c ph p, lookup fo (load_data l) = Some c -> lookup ph (tc_phases c) = Some p ->
  exists q qp, qc_formula q = fo /\ c = read_compound q /\ In (ph, qp) (qc_phases q) /\ p = read_phase qp /\ f q ph qp = true.
Proof.
  intros H fo c ph p E1 E2. apply lookup_load in E1 as (q & I & Ef & ->). cbn in E2. apply lookup_map in E2 as (qp & I2 & _ & ->).
  unfold checked in H. rewrite forallb_forall in H. specialize (H _ I). rewrite forallb_forall in H. specialize (H _ I2). exists q, qp. auto.
Qed.

(** * The shipped data *)
Definition rao : database := load_data rao_data.
Definition nist : database := load_data nist_data.
Definition in_database (db : database) (fo ph : string) (c : tcompound) (p : phase) : Prop :=
  lookup fo db = Some c /\ lookup ph (tc_phases c) = Some p.

Lemma rao_checked : checked (fun _ _ p => qregular p) rao_data = true. Proof. vm_compute. reflexivity. Qed.
Lemma rao_regular fo ph c p : in_database rao fo ph c p -> regular p.
Proof. intros [H1 H2]. destruct (checked_ok _ _ rao_checked _ _ _ _ H1 H2) as (q & qp & _ & _ & _ & -> & E). now apply qregular_ok. Qed.

Definition mm_ok (c : qcompound) : bool :=
  match molar_mass (Some (qc_formula c)) with
  | Ok m => Qle_bool (Qabs (this m / 1000 - qc_molar_mass c)) (1 # 1000000000000000) && negb (Qle_bool (qc_molar_mass c) 0)
  | Err _ => false end.
Lemma rao_mm_checked : forallb mm_ok rao_data = true. Proof. vm_compute. reflexivity. Qed.
Lemma Q2R_abs q : Q2R (Qabs q) = Rabs (Q2R q).
Proof.
  destruct (Qlt_le_dec q 0).
  - rewrite Qeq_eqR with (y := (- q)%Q); [|apply Qabs_neg; now apply Qlt_le_weak]. rewrite Q2R_opp. apply Qlt_Rlt in q0. rewrite Q2R_0' in q0. now rewrite Rabs_left.
  - rewrite Qeq_eqR with (y := q); [|now apply Qabs_pos]. apply Qle_Rle in q0. rewrite Q2R_0' in q0. now rewrite Rabs_right by lra.
Qed.
Lemma rao_molar_mass fo c : lookup fo rao = Some c ->
  0 < tc_molar_mass c /\ exists m, thermo_molar_mass fo = Ok m /\ Rabs (tc_molar_mass c - m) <= 1 / 10 ^ 15.
Proof.
  intros H. apply lookup_load in H as (q & I & <- & ->). pose proof rao_mm_checked as C. rewrite forallb_forall in C. specialize (C _ I). unfold mm_ok in C.
  unfold thermo_molar_mass. destruct (molar_mass (Some (qc_formula q))) as [m|]; [|discriminate]. apply andb_true_iff in C as [C P]. cbn [bind read_compound tc_molar_mass]. split.
  - rewrite <- Q2R_0'. apply Qlt_Rlt. destruct (Qlt_le_dec 0 (qc_molar_mass q)); auto. apply Qle_bool_iff in q0. rewrite q0 in P. discriminate.
  - eexists. split; [reflexivity|]. apply Qle_bool_iff in C. apply Qle_Rle in C. rewrite Q2R_abs, Q2R_minus in C.
    assert (E : Q2R (this m / 1000) = Q2R (this m) / 1000).
    { rewrite Q2R_div; [|discriminate]. f_equal. unfold Q2R. cbn. field. }
    rewrite E in C. rewrite Rabs_minus_sym. eapply Rle_trans; [exact C|]. unfold Q2R. cbn. lra.
Qed.
Lemma lookup_formula fo c : lookup fo rao = Some c -> tc_formula c = fo.
Proof. intros H. now apply lookup_load in H as (q & _ & <- & ->). Qed.

Definition odd_phase (fo ph : string) : bool :=
  (String.eqb fo "S" && String.eqb ph "Smono") || (String.eqb fo "Sn" && String.eqb ph "Sgray").
Lemma rao_pos_checked : checked (fun q ph p => qregular p && (odd_phase (qc_formula q) ph || qpositive p)) rao_data = true. Proof. vm_compute. reflexivity. Qed.
Lemma rao_positive fo ph c p : in_database rao fo ph c p -> odd_phase fo ph = false -> exists d, 0 < d /\ forall T, T_ref <= T -> exists cp, phase_Cp p T = Ok cp /\ d <= cp.
Proof.
  intros [H1 H2] O. destruct (checked_ok _ _ rao_pos_checked _ _ _ _ H1 H2) as (q & qp & <- & _ & _ & -> & E). rewrite O in E. cbn in E. apply andb_true_iff in E as [E1 E2].
  now apply positive_phase.
Qed.

Lemma thermo_increasing f db cs fo ph c p T1 T2 mass v1 v2 : split_compound_string cs = Ok (fo, ph) -> in_database db fo ph c p -> 0 < tc_molar_mass c ->
  f p (T1 + 27315 / 100) = Ok v1 -> f p (T2 + 27315 / 100) = Ok v2 -> v1 < v2 -> 0 < mass ->
  exists x y, thermo f db cs T1 mass = Ok x /\ thermo f db cs T2 mass = Ok y /\ x < y.
Proof.
  intros E [L1 L2] Hm E1 E2 Hv Hms. rewrite (thermo_value f db cs fo ph c p T1 v1 mass), (thermo_value f db cs fo ph c p T2 v2 mass) by (auto; lra).
  do 2 eexists. split; [reflexivity|]. split; [reflexivity|]. apply Rmult_lt_compat_r; auto. unfold Rdiv. apply Rmult_lt_compat_r; [now apply Rinv_0_lt_compat|].
  apply Rmult_lt_compat_r; lra.
Qed.
Definition lookup_phase (l : list qcompound) (fo ph : string) : option qphase :=
  match find (fun c => String.eqb fo (qc_formula c)) l with Some c => lookup ph (qc_phases c) | None => None end.
Lemma lookup_map_some {A B} (f : A -> B) k d x : lookup k d = Some x -> lookup k (map (fun kv => (fst kv, f (snd kv))) d) = Some (f x).
Proof. induction d as [|[k' y] d IH]; cbn; [discriminate|]. destruct (String.eqb k k'); auto. now intros [= ->]. Qed.
Lemma lookup_phase_ok l fo ph qp : lookup_phase l fo ph = Some qp -> exists c, in_database (load_data l) fo ph c (read_phase qp).
Proof.
  unfold lookup_phase, in_database, load_data. intros H. assert (E : exists q, find (fun c => String.eqb fo (qc_formula c)) l = Some q /\ lookup ph (qc_phases q) = Some qp).
  { destruct (find _ l) as [q|]; [eauto|discriminate]. }
  clear H. destruct E as (q & E & L). exists (read_compound q). split.
  - induction l as [|c l IH]; cbn in *; [discriminate|]. destruct (String.eqb fo (qc_formula c)); auto. now inversion E.
  - cbn. now apply (lookup_map_some read_phase).
Qed.
(** Monoclinic sulphur: heat capacity 14.79 + ... T, negative at 3000 K. *)
Lemma Smono_negative : exists c p x, in_database rao "S" "Smono" c p /\ phase_Cp p 3000 = Ok x /\ x < 0.
Proof.
  destruct (lookup_phase rao_data "S" "Smono") as [qp|] eqn:E; [|vm_compute in E; discriminate]. destruct (lookup_phase_ok _ _ _ _ E) as (c & I).
  exists c, (read_phase qp). vm_compute in E. inversion E; subst. clear E. eexists. split; [exact I|]. pose proof (rao_regular _ _ _ _ I) as Rg. clear I.
  match goal with |- phase_Cp (read_phase (mkqp _ _ (cons (?k, ?r) nil))) _ = _ /\ _ => rewrite (regular_Cp_highest _ 3000 (read_record r) 3000 Rg) end.
  - split; [reflexivity|]. cbn. rewrite Q2R_0', Q2R_1'. rewrite Rpower_O, Rpower_1 by lra. unfold Q2R. cbn. lra.
  - cbn. split; cbn; [left; unfold Q2R; cbn; lra|]. intros u [<-|[]]. unfold Q2R. cbn. lra.
  - cbn. left. f_equal. unfold Q2R. cbn. lra.
  - lra.
Qed.

Lemma Sgray_zero : exists c p, in_database rao "Sn" "Sgray" c p /\ forall T, phase_Cp p T = Ok 0.
Proof.
  destruct (lookup_phase rao_data "Sn" "Sgray") as [qp|] eqn:E; [|vm_compute in E; discriminate]. destruct (lookup_phase_ok _ _ _ _ E) as (c & I).
  exists c, (read_phase qp). split; [exact I|]. vm_compute in E. inversion E; subst. intros T. unfold phase_Cp, last_record. cbn. destruct (Rlt_dec _ _); cbn; unfold cp_Cp, Cp_mag; cbn; f_equal; ring.
Qed.
Lemma zero_terms r T c : cr_terms r = (c, Q2R 0) :: (Q2R 0, Q2R 1) :: (Q2R 0, Q2R 2) :: (Q2R 0, Q2R 3) :: (Q2R 0, Q2R (-2)) :: nil ->
  0 < T < cr_Tmax r -> 0 < cr_Tmin r -> cp_H r T = c * (T - cr_Tmin r).
Proof.
  intros E HT Hm. rewrite cp_H_sum, clamp_lt by lra. rewrite E. unfold sum_terms. cbn [fold_right fst snd]. unfold int_term. rewrite !Q2R_0'.
  repeat (destruct (Req_EM_T _ (-1)); [first [lra | (unfold Q2R in *; cbn in *; lra)]|]). rewrite !Rplus_0_l, !Rpower_1 by lra. unfold Rdiv. rewrite Rinv_1. ring.
Qed.
Lemma nist_unanchored : exists c p h, in_database nist "Fe2O3" "S2" c p /\ phase_H p 298.15 = Ok h /\ h <> ph_DHref p.
Proof.
  destruct (lookup_phase nist_data "Fe2O3" "S2") as [qp|] eqn:E; [|vm_compute in E; discriminate]. destruct (lookup_phase_ok _ _ _ _ E) as (c & I).
  exists c, (read_phase qp). eexists. split; [exact I|]. vm_compute in E. inversion E; subst. clear E I. split.
  - unfold phase_H, accumulate, sorted_records, read_phase. cbn [ph_records qp_records map fold_right insert_record fst snd]. destruct (Rle_dec 298.15 (Q2R (1050 # 1))) as [_|X]; [reflexivity|].
    exfalso. apply X. unfold Q2R. cbn. lra.
  - cbn [fst snd]. unfold H_mag. cbn [ph_mag read_phase]. match goal with |- context [cp_H ?r _] => rewrite (zero_terms r 298.15 (Q2R (150624 # 1000))) end.
    + cbn. unfold Q2R. cbn. lra.
    + reflexivity.
    + cbn. unfold Q2R. cbn. lra.
    + cbn. unfold Q2R. cbn. lra.
Qed.
Fixpoint nodup_strings (l : list string) : bool :=
  match l with nil => true | cons x l' => negb (existsb (String.eqb x) l') && nodup_strings l' end.
Lemma NoDup_strings l : nodup_strings l = true -> NoDup l.
Proof.
  induction l as [|x l IH]; cbn; constructor; apply andb_true_iff in H as [H1 H2]; auto. intros I. apply negb_true_iff in H1.
  assert (existsb (String.eqb x) l = true) by (apply existsb_exists; exists x; split; auto; apply String.eqb_refl). congruence.
Qed.
