(** Compounds written to files and read back (C88), continued. *)
From Verif Require Import Prelude M_Stoichiometry M_Thermochem M_Text M_Factsage M_Json M_JsonFiles Spec_Json Spec_JsonFiles P_Json P_Json2 P_Json3 P_Json4 P_JsonFiles.
From Coq Require Import Permutation Sorted Lia Reals.
Local Open Scope list_scope.

Section Files.
Variable repr : Qc -> text.
Variable float_of : text -> res Qc.
Notation good := (faithful repr float_of).

(** What is read is plain again. *)
Lemma osort_keys_inst c a : ~ In py_object (map fst a) -> NoDup (map fst a) ->
  let a' := filter (fun kv => if tdec (fst kv) py_object then false else true) (sort_keys ((py_object, OStr c) :: data (map (fun kv => (fst kv, osort (snd kv))) a))) in
  Permutation a' (map os (data a)).
Proof. intros K N. cbv zeta. rewrite data_osort. now apply inst_perm. Qed.
Lemma osort_plain o : plain good o -> plain good (osort o).
Proof.
  induction o as [|b|x|t|l IH|d IH|c a IH|m] using pyobj_ind'; intros P; inversion P as [|?|? Hx|?|? Hl|? Nd Kd Hd|? ? Nd Kd Hd]; subst; auto; cbn [osort].
  - constructor. rewrite Forall_forall in *. intros y Hy. apply in_map_iff in Hy as (z & <- & Hz). auto.
  - rewrite data_osort. assert (Q : Permutation (map os (data d)) (sort_keys (map os (data d)))) by apply sort_perm. constructor.
    + eapply Permutation_NoDup; [apply Permutation_map, Q|]. rewrite os_keys. now apply data_keys.
    + intros H. apply (data_absent _ _ Kd). rewrite <- os_keys. eapply Permutation_in; [apply Permutation_map; symmetry; exact Q|exact H].
    + eapply Permutation_Forall; [exact Q|]. rewrite Forall_forall in *. intros y Hy. apply in_map_iff in Hy as (z & <- & Hz). apply filter_In in Hz as [Hz _]. cbn [os snd]. auto.
  - assert (Q := osort_keys_inst c a Kd Nd). cbv zeta in Q. symmetry in Q. constructor.
    + eapply Permutation_NoDup; [apply Permutation_map, Q|]. rewrite os_keys. now apply data_keys.
    + intros H. apply (data_absent _ _ Kd). rewrite <- os_keys. eapply Permutation_in; [apply Permutation_map; symmetry; exact Q|exact H].
    + eapply Permutation_Forall; [exact Q|]. apply data_attrs in Hd. rewrite Forall_forall in *. intros y Hy. apply in_map_iff in Hy as (z & <- & Hz). right. cbn [os snd]. apply filter_In in Hz as Hz'. apply IH; [tauto|auto].
Qed.

(** The objects of well-formed compounds are plain. *)
Lemma keys_map {B} (mk : B -> pyobj) (d : list (text * B)) : map fst (map (fun kb => (fst kb, mk (snd kb))) d) = map fst d.
Proof. rewrite map_map. reflexivity. Qed.
Lemma nums_plain l : Forall good l -> plain good (OList (map ONum l)).
Proof. intros F. constructor. rewrite Forall_forall in *. intros y Hy. apply in_map_iff in Hy as (z & <- & Hz). constructor. auto. Qed.
Ltac distinct_keys := cbn [map fst]; repeat constructor; cbn; intuition discriminate.
Lemma record_plain r : Forall good (record_numbers r) -> plain good (record_obj r).
Proof.
  unfold record_numbers. intros F. inversion_clear F as [|? ? F1 F']. inversion_clear F' as [|? ? F2 F3]. apply Forall_app in F3 as [F3 F4].
  constructor; [distinct_keys|distinct_keys|]. do 2 (constructor; [right; cbn [snd]; constructor; assumption|]). do 2 (constructor; [right; cbn [snd]; now apply nums_plain|]). constructor.
Qed.
Lemma phase_plain p : phase_ok repr float_of p -> plain good (phase_obj p).
Proof.
  intros [On Or [Nk Kk] _]. inversion_clear On as [|? ? O1 On']. inversion_clear On' as [|? ? O2 On'']. inversion_clear On'' as [|? ? O3 _].
  constructor; [distinct_keys|distinct_keys|]. cbn [app zero_mag map]. do 5 (constructor; [right; cbn [snd]; constructor; assumption|]).
  constructor; [right; cbn [snd]; constructor|repeat (constructor; [left; eexists; reflexivity|]); constructor].
  - now rewrite keys_map.
  - now rewrite keys_map.
  - rewrite Forall_forall in *. intros y Hy. apply in_map_iff in Hy as (z & <- & Hz). cbn [snd]. apply record_plain. auto.
Qed.
Lemma compound_plain c : compound_ok repr float_of c -> plain good (compound_obj c).
Proof.
  intros [Om [Nk Kk] Op]. constructor; [distinct_keys|distinct_keys|].
  constructor; [right; constructor|]. constructor; [right; constructor; assumption|]. constructor; [right; cbn [snd]; constructor|constructor; [right; constructor|constructor]].
  - now rewrite keys_map.
  - now rewrite keys_map.
  - rewrite Forall_forall in *. intros y Hy. apply in_map_iff in Hy as (z & <- & Hz). cbn [snd]. apply phase_plain. auto.
Qed.

(** _init does not change what is written. *)
Notation flat := (flatten repr).
Lemma init_flat c a : (forall k, In k mag_names -> ~ In k (map fst a)) -> flat (init_phase (OInst c a)) = flat (OInst c a).
Proof.
  intros H. cbn [init_phase]. rewrite !flat_inst. do 3 f_equal.
  assert (E : fold_left (fun d kv => dput tdec d (fst kv) (snd kv)) zero_mag a = a ++ zero_mag).
  { assert (K : forall z b : list (text * pyobj), NoDup (map fst z) -> (forall k, In k (map fst z) -> ~ In k (map fst b)) -> fold_left (fun d kv => dput tdec d (fst kv) (snd kv)) z b = b ++ z).
    { clear. induction z as [|[k v] z IH]; intros b N D; cbn [fold_left fst snd]; [now rewrite app_nil_r|]. cbn [map fst] in *. inversion_clear N as [|? ? Nk Nz].
      rewrite (dput_new b k v (D k (or_introl eq_refl))). rewrite IH; auto; [now rewrite <- app_assoc|]. intros k2 I2 J. rewrite map_app, in_app_iff in J. cbn in J. destruct J as [J|[J|[]]]; [apply (D k2); [now right|exact J]|subst; contradiction]. }
    apply K; [cbn; repeat constructor; cbn; intuition discriminate|exact H]. }
  rewrite E. unfold data. rewrite filter_app. cbn. now rewrite app_nil_r.
Qed.
Lemma data_cons k v a : data ((k, v) :: a) = if is_method v then data a else (k, v) :: data a.
Proof. destruct v; reflexivity. Qed.
Lemma dput_flat a k v v2 : dget tdec a k = Ok v -> is_method v = false -> is_method v2 = false -> flat v2 = flat v -> map (fl repr) (data (dput tdec a k v2)) = map (fl repr) (data a).
Proof.
  intros D M M2 E. induction a as [|[k' v'] a IH]; cbn [dget dput] in *; [discriminate|]. destruct (tdec k' k).
  - injection D as ->. rewrite !data_cons, M, M2. cbn [map]. unfold fl at 1 3. cbn [fst snd]. now rewrite E.
  - rewrite !data_cons. destruct (is_method v'); cbn [map]; rewrite IH; auto.
Qed.
Definition has_phases (o : pyobj) (d : list (text * pyobj)) : Prop := get_attr o "_phases" = Ok (ODict d).
Lemma init_compound_flat o o' d : has_phases o d -> (forall kp, In kp d -> exists c a, snd kp = OInst c a /\ forall k, In k mag_names -> ~ In k (map fst a)) ->
  init_compound o = Ok o' -> flat o' = flat o.
Proof.
  intros G H. unfold init_compound. rewrite G. cbn [bind as_dict]. destruct o as [| | | | | |c a|]; try discriminate. intros [= <-]. rewrite !flat_inst. do 2 f_equal.
  cbn [has_phases get_attr] in G. unfold has_phases in G. cbn [get_attr] in G. destruct (dget tdec a (text_of "_phases")) as [v|] eqn:D; [|discriminate]. injection G as ->.
  eapply dput_flat; [exact D|reflexivity|reflexivity|]. rewrite !flat_dict. f_equal. clear D. induction d as [|[k p] d IH]; auto. destruct (H (k, p) (or_introl eq_refl)) as (c1 & a1 & E & N). cbn [snd] in E. subst p.
  assert (F := init_flat c1 a1 N). cbn [map data filter fst snd init_phase]. cbn [init_phase] in F. unfold fl at 1 3. cbn [fst snd]. rewrite F. f_equal. unfold data in IH. apply IH. intros kp I. apply H. now right.
Qed.

Lemma osort_attr c a k v : ~ In py_object (map fst a) -> NoDup (map fst a) -> In (text_of k, v) (data a) -> get_attr (osort (OInst c a)) k = Ok (osort v).
Proof.
  intros K N I. assert (Q := osort_keys_inst c a K N). cbv zeta in Q. cbn [osort get_attr]. rewrite (dget_In _ (text_of k) (osort v)); auto.
  - eapply Permutation_NoDup; [apply Permutation_map; symmetry; exact Q|]. rewrite os_keys. now apply data_keys.
  - eapply Permutation_in; [symmetry; exact Q|]. change (text_of k, osort v) with (os (text_of k, v)). now apply in_map.
Qed.
Lemma osort_phase_keys p k : phase_ok repr float_of p -> exists a, osort (phase_obj p) = OInst (module_name "Phase") a /\ (In k mag_names -> ~ In k (map fst a)).
Proof.
  intros O. assert (P := phase_plain p O). inversion P as [| | | | | |? ? Nd Kd Hd]; subst. assert (Q := osort_keys_inst (module_name "Phase") _ Kd Nd). cbv zeta in Q.
  unfold phase_obj. cbn [osort]. eexists. split; [reflexivity|]. intros I J. eapply Permutation_in in J; [|apply Permutation_map; exact Q]. rewrite os_keys in J.
  cbn [app zero_mag map data filter snd fst] in J. unfold mag_names in I. cbn [map In] in I, J. repeat (destruct I as [<-|I]; [cbn in J; intuition discriminate|]). contradiction.
Qed.
Lemma read_back c : compound_ok repr float_of c -> exists o, read_compound float_of (object_str repr (compound_obj c)) = Ok o /\
  object_str repr o = object_str repr (compound_obj c) /\
  exists t, compound_data float_of o = Ok t /\ tc_formula t = str_of (ac_formula c) /\ same_thermo (cmp_data float_of c) t.
Proof.
  intros O. assert (P := compound_plain c O). assert (P2 := osort_plain _ P). assert (S := osort_same repr float_of _ P).
  destruct (compound_same repr float_of c _ O P2 S) as (t & T & F & M & Ph).
  unfold read_compound. rewrite read_str by auto. cbn [bind].
  inversion P as [| | | | | |? ? Nd Kd Hd]; subst.
  assert (G : get_attr (osort (compound_obj c)) "_phases" = Ok (osort (ODict (map (fun kp => (fst kp, phase_obj (snd kp))) (ac_phases c))))).
  { unfold compound_obj. apply osort_attr; auto. right. right. left. reflexivity. }
  assert (E : exists o, init_compound (osort (compound_obj c)) = Ok o).
  { unfold init_compound. rewrite G. cbn [bind as_dict osort]. eexists. reflexivity. }
  destruct E as [o E]. exists o. split; [exact E|]. split.
  - unfold object_str. erewrite (init_compound_flat _ o); [|exact G| |exact E].
    + symmetry. apply (same_text repr float_of); auto.
    + intros kp I. rewrite data_osort in I. apply (Permutation_in _ (Permutation_sym (sort_perm _))) in I.
      apply in_map_iff in I as (x & <- & Ix). apply filter_In in Ix as [Ix _]. apply in_map_iff in Ix as (y & <- & Iy). cbn [os fst snd].
      assert (Oy : phase_ok repr float_of (snd y)) by (destruct O as [_ _ Op]; rewrite Forall_forall in Op; auto).
      destruct (osort_phase_keys (snd y) [] Oy) as (a & Ea & _). exists (module_name "Phase"), a. split; auto. intros k Ik.
      destruct (osort_phase_keys (snd y) k Oy) as (a2 & Ea2 & H2). rewrite Ea in Ea2. injection Ea2 as <-. auto.
  - exists t. split; [now rewrite (init_compound_data float_of _ _ E)|]. split; auto. now apply (matching_thermo repr).
Qed.

(** * A directory *)
Lemma compound_data_self c : compound_ok repr float_of c -> compound_data float_of (compound_obj c) = Ok (cmp_data float_of c).
Proof.
  intros [Om Ok_ Op]. unfold compound_data.
  change (get_attr (compound_obj c) "formula") with (Ok (OStr (ac_formula c))). change (get_attr (compound_obj c) "molar_mass") with (Ok (ONum (ac_molar_mass c))).
  change (get_attr (compound_obj c) "_phases") with (Ok (ODict (map (fun kp => (fst kp, phase_obj (snd kp))) (ac_phases c)))). cbn [bind as_str as_num as_dict].
  rewrite mapM_map_eq. cbn [fst snd].
  assert (X : mapM (fun kp => do p <- phase_data float_of (phase_obj (snd kp)); Ok (str_of (fst kp), p)) (ac_phases c) = Ok (map (fun kp => (str_of (fst kp), ph_data float_of (snd kp))) (ac_phases c))).
  { clear - Op. induction Op as [|kp l O F IH]; cbn [mapM map]; auto.
    assert (E : phase_data float_of (phase_obj (snd kp)) = Ok (ph_data float_of (snd kp))).
    { destruct O as [_ _ _ (ts & Ts & _)]. set (p := snd kp) in *. clearbody p. unfold phase_data.
      change (get_attr (phase_obj p) "DHref") with (Ok (ONum (ap_DHref p))). change (get_attr (phase_obj p) "Sref") with (Ok (ONum (ap_Sref p))).
      change (get_attr (phase_obj p) "_Cp_records") with (Ok (ODict (map (fun kr => (fst kr, record_obj (snd kr))) (ap_records p)))). cbn [bind as_num as_dict].
      rewrite mapM_map_eq. cbn [fst snd]. unfold ph_data. generalize dependent ts. induction (ap_records p) as [|kr rs IHr]; intros ts Ts; cbn [map mapM] in *; [reflexivity|].
      destruct (float_of (fst kr)) as [t|] eqn:Et; cbn [bind] in *; [|discriminate]. destruct (mapM float_of (map fst rs)) as [q|] eqn:Eq; cbn [bind] in *; [|discriminate].
      assert (Er : record_of (record_obj (snd kr)) = Ok (rec_data (snd kr))).
      { unfold record_of. change (get_attr (record_obj (snd kr)) "Tmin") with (Ok (ONum (ar_Tmin (snd kr)))). change (get_attr (record_obj (snd kr)) "Tmax") with (Ok (ONum (ar_Tmax (snd kr)))).
        change (get_attr (record_obj (snd kr)) "_coefficients") with (Ok (OList (map ONum (ar_coefficients (snd kr))))). change (get_attr (record_obj (snd kr)) "_exponents") with (Ok (OList (map ONum (ar_exponents (snd kr))))).
        cbn [bind as_num as_nums]. rewrite !mapM_nums. reflexivity. }
      rewrite Er. cbn [bind]. specialize (IHr q eq_refl).
      destruct (mapM (fun x => do t0 <- float_of (fst x); do r <- record_of (record_obj (snd x)); Ok (qr t0, r)) rs) as [rs'|]; cbn [bind] in *; [|discriminate].
      injection IHr as ->. rewrite (key_num_ok _ _ _ Et). reflexivity. }
    rewrite E. cbn [bind]. rewrite IH. reflexivity. }
  rewrite X. reflexivity.
Qed.
Definition file_name (c : acompound) : text := text_of "Compound_" ++ ac_formula c ++ text_of ".json".
Definition file_of (c : acompound) : text * text := (file_name c, object_str repr (compound_obj c)).
Lemma word_self w r : word w (w ++ r) = Some r.
Proof. induction w as [|c w IH]; cbn [word app]; auto. now rewrite Ascii.eqb_refl. Qed.
Lemma file_recognised c : is_compound_file (file_name c) = true.
Proof. unfold is_compound_file, file_name. rewrite word_self. rewrite rev_app_distr. unfold starts. now rewrite word_self. Qed.
Lemma file_name_inj c d : file_name c = file_name d -> ac_formula c = ac_formula d.
Proof. unfold file_name. intros H. apply app_inv_head in H. now apply app_inv_tail in H. Qed.
Lemma write_all cs : forall dir, NoDup (map ac_formula cs) -> (forall c, In c cs -> ~ In (file_name c) (map fst dir)) ->
  foldM (write_compound repr) (map compound_obj cs) dir = Ok (dir ++ map file_of cs).
Proof.
  induction cs as [|c cs IH]; intros dir N D; cbn [map foldM]; [now rewrite app_nil_r|]. inversion_clear N as [|? ? Nc Ns].
  assert (E : write_compound repr dir (compound_obj c) = Ok (dir ++ [file_of c])).
  { unfold write_compound, compound_file. change (get_attr (compound_obj c) "formula") with (Ok (OStr (ac_formula c))). cbn [bind as_str]. rewrite dput_new; [reflexivity|]. apply (D c). now left. }
  rewrite E. cbn [bind]. rewrite IH; auto; [now rewrite <- app_assoc|]. intros c2 I2 J. rewrite map_app, in_app_iff in J. destruct J as [J|[J|[]]].
  - apply (D c2); [now right|exact J].
  - cbn [file_of fst] in J. apply file_name_inj in J. apply Nc. rewrite J. now apply in_map.
Qed.
Lemma sdput_new {A} (d : list (string * A)) k v : ~ In k (map fst d) -> dput string_dec d k v = d ++ [(k, v)].
Proof. induction d as [|[k' v'] d IH]; cbn [dput map fst app In]; auto. intros N. destruct (string_dec k' k); [tauto|]. rewrite IH; tauto. Qed.
Definition loaded (c : acompound) (t : tcompound) : Prop := tc_formula t = str_of (ac_formula c) /\ same_thermo (cmp_data float_of c) t.
Lemma load_all cs : Forall (compound_ok repr float_of) cs -> NoDup (map ac_formula cs) -> forall db, (forall c, In c cs -> ~ In (str_of (ac_formula c)) (map fst db)) ->
  exists ts, Forall2 loaded cs ts /\
   foldM (fun db f => do o <- read_compound float_of (snd f); do c <- compound_data float_of o; Ok (dput string_dec db (tc_formula c) c)) (map file_of cs) db = Ok (db ++ map (fun t => (tc_formula t, t)) ts).
Proof.
  intros O. induction O as [|c cs Oc O IH]; intros N db D; cbn [map foldM]; [exists []; split; [constructor|now rewrite app_nil_r]|]. inversion_clear N as [|? ? Nc Ns].
  destruct (read_back c Oc) as (o & Ro & _ & t & T & F & Sm). cbn [file_of snd]. rewrite Ro. cbn [bind]. rewrite T. cbn [bind]. rewrite F, sdput_new by (apply D; now left).
  destruct (IH Ns (db ++ [(str_of (ac_formula c), t)])) as (ts & F2 & E).
  { intros c2 I2 J. rewrite map_app, in_app_iff in J. destruct J as [J|[J|[]]]; [apply (D c2); [now right|exact J]|]. cbn [fst] in J. apply str_inj in J. apply Nc. rewrite J. now apply in_map. }
  exists (t :: ts). split; [constructor; [split|]; auto|]. rewrite E, <- app_assoc. cbn [app map]. now rewrite F.
Qed.
Lemma perm_map_inv {A B} (f : A -> B) l : forall m, Permutation m (map f l) -> exists l', m = map f l' /\ Permutation l' l.
Proof. intros m P. destruct (Permutation_map_inv f l P) as (l' & E & Q). exists l'. split; auto. now symmetry. Qed.
Lemma lookup_loaded cs ts k : Forall2 loaded cs ts ->
  match lookup k (map (fun c => (str_of (ac_formula c), cmp_data float_of c)) cs), lookup k (map (fun t => (tc_formula t, t)) ts) with Some a, Some b => same_thermo a b | None, None => True | _, _ => False end.
Proof. induction 1 as [|c t cs ts [E S] F IH]; cbn [map lookup]; auto. rewrite E. destruct (String.eqb k _); auto. Qed.
Lemma directory cs dir files : Forall (compound_ok repr float_of) cs -> NoDup (map ac_formula cs) ->
  foldM (write_compound repr) (map compound_obj cs) [] = Ok dir -> Permutation files dir ->
  exists db0 db, mapM (fun c => do t <- compound_data float_of (compound_obj c); Ok (tc_formula t, t)) cs = Ok db0 /\ load_data_auxi float_of files = Ok db /\
    forall f, In f [phase_Cp; phase_H; phase_S; phase_G] -> forall s T mass, thermo f db s T mass = thermo f db0 s T mass.
Proof.
  intros O N W Q. rewrite write_all in W by (auto; cbn; auto). injection W as <-. cbn [app] in Q.
  destruct (perm_map_inv file_of cs files Q) as (cs' & -> & Pc).
  assert (O' : Forall (compound_ok repr float_of) cs') by (eapply Permutation_Forall; [symmetry; exact Pc|exact O]).
  assert (N' : NoDup (map ac_formula cs')) by (eapply Permutation_NoDup; [apply Permutation_map; symmetry; exact Pc|exact N]).
  destruct (load_all cs' O' N' [] ltac:(cbn; auto)) as (ts & F & E). cbn [app] in E.
  exists (map (fun c => (str_of (ac_formula c), cmp_data float_of c)) cs), (map (fun t => (tc_formula t, t)) ts). split; [|split].
  - clear - O. induction O as [|c cs Oc O IH]; cbn [mapM map]; auto. rewrite (compound_data_self c Oc). cbn [bind]. rewrite IH. reflexivity.
  - unfold load_data_auxi. rewrite filter_all; [exact E|]. apply Forall_forall. intros x Hx. apply in_map_iff in Hx as (c & <- & _). apply file_recognised.
  - intros f If s T mass. unfold thermo. destruct (split_compound_string s) as [fp|]; cbn [bind]; auto.
    assert (L := lookup_loaded cs' ts (fst fp) F).
    assert (X : lookup (fst fp) (map (fun c => (str_of (ac_formula c), cmp_data float_of c)) cs') = lookup (fst fp) (map (fun c => (str_of (ac_formula c), cmp_data float_of c)) cs)).
    { apply lookup_perm; [now apply Permutation_map|]. rewrite map_map. cbn [fst]. rewrite <- map_map. now apply NoDup_str. }
    rewrite X in L. destruct (lookup (fst fp) (map (fun c => _) cs)) as [a|], (lookup (fst fp) (map (fun t => _) ts)) as [b|]; try contradiction; auto.
    destruct L as (_ & M & L). rewrite <- (L f If). unfold finalise_result. rewrite M. reflexivity.
Qed.
End Files.
