(** C97: the shipped fluids, their names and files, and drawings of the gas models. *)
From Verif Require Import Prelude M_Lists M_Thermochem M_Stoichiometry M_Csv M_Coals M_Physical M_Data_Fluids M_Fluids M_Polyfit M_Shipped Spec_Physical Spec_Shipped P_Physical P_Fluids P_Polyfit P_Shipped P_Convert Properties_Physical Properties_Fluids Properties_Polyfit.
From Coq Require Import Reals Qreals Lra Lia.
Local Open Scope list_scope.

(** * What is put together *)
Lemma model_set_other d k m p : p <> k -> lookup p (model_set d k m) = lookup p d.
Proof. intros N. induction d as [|[k' m'] d IH]; cbn [model_set lookup]; [destruct (String.eqb_spec p k); congruence|]. destruct (String.eqb_spec k k') as [<-|]; cbn [lookup]; [destruct (String.eqb_spec p k); congruence|]. now rewrite IH. Qed.
Lemma model_set_same d k m : lookup k (model_set d k m) = Some m.
Proof. induction d as [|[k' m'] d IH]; cbn [model_set lookup]; [now rewrite String.eqb_refl|]. destruct (String.eqb_spec k k') as [<-|N]; cbn [lookup]; [now rewrite String.eqb_refl|]. destruct (String.eqb_spec k k'); congruence. Qed.
Definition file_of (namel active : text) (p : string) : text := model_path namel (lower (text_of p)) active.
Lemma load_all namel active props : NoDup props -> forall acc, (forall p, In p props -> exists m, read_model (file_of namel active p) = Ok m) ->
  exists m, foldM (load_step namel active) props acc = Ok (last (map (file_of namel active) props) (fst acc), m) /\
    (forall p f st, In p props -> read_model (file_of namel active p) = Ok f -> property m p st = f st) /\
    (forall p st, ~ In p props -> property m p st = property (snd acc) p st).
Proof.
  induction 1 as [|a props N D IH]; intros acc H.
  - exists (snd acc). destruct acc. cbn. repeat split; tauto.
  - destruct (H a (or_introl eq_refl)) as [f F]. cbn [foldM]. unfold load_step at 1. fold (file_of namel active a). rewrite F. cbn [bind].
    destruct (IH (file_of namel active a, model_set (snd acc) a f)) as (m & E & A & B); [intros p P; apply H; now right|]. exists m. cbn [fst snd] in E, B. rewrite E. split; [|split].
    + f_equal. f_equal. cbn [map last]. destruct (map (file_of namel active) props) eqn:M; auto. clear. revert t. induction l as [|b l IH]; intros t; [reflexivity|]. cbn [last]. cbn in IH. destruct l; auto.
    + intros p g st [<-|I] G; [|eauto]. rewrite B by auto. unfold property. rewrite model_set_same. congruence.
    + intros p st I. rewrite B by (intros J; apply I; now right). unfold property. rewrite model_set_other; auto. intros ->. apply I. now left.
Qed.
(** A fluid takes each property of the list from the file of that property, and
    the others from what it was given. *)
Theorem C97_created : forall name namel active base props, NoDup props -> (forall p, In p props -> exists m, read_model (file_of namel active p) = Ok m) ->
  exists n m, create_gas name namel active base props = Ok (n, m) /\
    (forall p f st, In p props -> read_model (file_of namel active p) = Ok f -> property m p st = f st) /\
    (forall p st, ~ In p props -> property m p st = property base p st).
Proof. intros name namel active base props D H. destruct (load_all namel active props D (name, base) H) as (m & E & A & B). unfold create_gas. rewrite E. do 2 eexists. eauto. Qed.
Print Assumptions C97_created.
Lemma mm_some : forall f, In f ["Ar"; "NH3"; "CO2"; "CO"; "N2"; "O2"; "H2O"]%string -> exists m, mm f = Ok m.
Proof. intros f I. destruct (gas_mm f I) as (m & E & _). eauto. Qed.
Lemma bind_ok {A B} (a : A) (f : A -> res B) : bind (Ok a) f = f a. Proof. reflexivity. Qed.
Lemma materials_eq : exists ar nh co2 co n2 o2 h2o, mm "Ar" = Ok ar /\ mm "NH3" = Ok nh /\ mm "CO2" = Ok co2 /\ mm "CO" = Ok co /\ mm "N2" = Ok n2 /\ mm "O2" = Ok o2 /\ mm "H2O" = Ok h2o /\
  materials = Ok (map (fun x : string * string * fluid => (fst (fst x), (file_of (dashes (lower (text_of (snd (fst x))))) (text_of "dataset-" ++ dashes (lower (text_of (snd (fst x)))) ++ text_of "-lienhard2018") "k", snd x)))
    (combine titles [gas_ideal "air" (rho_T (289645 / 10000)%R 101325%R); gas_ideal "argon" (rho_T ar 101325%R); gas_poly "ammonia"; gas_poly "carbon-dioxide"; gas_ideal "carbon-monoxide" (rho_T co 101325%R);
      gas_ideal "nitrogen" (rho_T n2 101325%R); gas_ideal "oxygen" (rho_T o2 101325%R); gas_ideal "water-vapour" (rho_T h2o 101325%R)])).
Proof.
  destruct (mm_some "Ar") as [ar E1]; [cbn; tauto|]. destruct (mm_some "NH3") as [nh E2]; [cbn; tauto|]. destruct (mm_some "CO2") as [co2 E3]; [cbn; tauto|]. destruct (mm_some "CO") as [co E4]; [cbn; tauto|].
  destruct (mm_some "N2") as [n2 E5]; [cbn; tauto|]. destruct (mm_some "O2") as [o2 E6]; [cbn; tauto|]. destruct (mm_some "H2O") as [h2o E7]; [cbn; tauto|].
  exists ar, nh, co2, co, n2, o2, h2o. repeat (split; [assumption|]).
  assert (I : forall title formula g m, mm formula = Ok m -> let namel := dashes (lower (text_of title)) in let active := text_of "dataset-" ++ namel ++ text_of "-lienhard2018" in
    find_file (file_of namel active "Cp") = Some (gas_file_name g "cp") -> find_file (file_of namel active "mu") = Some (gas_file_name g "mu") -> find_file (file_of namel active "k") = Some (gas_file_name g "k") ->
    create_ideal title formula = Ok (file_of namel active "k", gas_ideal g (rho_T m 101325%R))).
  { intros title formula g m M namel active A B C. unfold create_ideal. fold namel. fold active. cbv zeta. rewrite M. cbn [bind]. unfold create_gas. cbn [foldM]. unfold load_step, read_model. fold (file_of namel active "Cp") (file_of namel active "mu") (file_of namel active "k"). cbv zeta. rewrite A, B, C. unfold gas_ideal. rewrite !gas_file_eq. reflexivity. }
  assert (P : forall title formula g m, mm formula = Ok m -> let namel := dashes (lower (text_of title)) in let active := text_of "dataset-" ++ namel ++ text_of "-lienhard2018" in
    find_file (file_of namel active "rho") = Some (gas_file_name g "rho") -> find_file (file_of namel active "Cp") = Some (gas_file_name g "cp") -> find_file (file_of namel active "mu") = Some (gas_file_name g "mu") -> find_file (file_of namel active "k") = Some (gas_file_name g "k") ->
    create_poly title formula = Ok (file_of namel active "k", gas_poly g)).
  { intros title formula g m M namel active R A B C. unfold create_poly. fold namel. fold active. cbv zeta. rewrite M. cbn [bind]. unfold create_gas. cbn [foldM]. unfold load_step, read_model. fold (file_of namel active "rho") (file_of namel active "Cp") (file_of namel active "mu") (file_of namel active "k"). cbv zeta. rewrite R, A, B, C. unfold gas_poly. rewrite !gas_file_eq. reflexivity. }
  assert (A : create_air = Ok (file_of (text_of "air") (text_of "dataset-air-lienhard2018") "k", gas_ideal "air" (rho_T (289645 / 10000)%R 101325%R))).
  { unfold create_air, create_gas. cbn [foldM]. unfold load_step, read_model. cbv zeta. change (lower (text_of "Air")) with (text_of "air").
    assert (F1 : find_file (model_path (text_of "air") (lower (text_of "Cp")) (text_of "dataset-air-lienhard2018")) = Some (gas_file_name "air" "cp")) by (vm_compute; reflexivity). rewrite F1.
    assert (F2 : find_file (model_path (text_of "air") (lower (text_of "mu")) (text_of "dataset-air-lienhard2018")) = Some (gas_file_name "air" "mu")) by (vm_compute; reflexivity). rewrite F2.
    assert (F3 : find_file (model_path (text_of "air") (lower (text_of "k")) (text_of "dataset-air-lienhard2018")) = Some (gas_file_name "air" "k")) by (vm_compute; reflexivity). rewrite F3. unfold gas_ideal. rewrite !gas_file_eq. reflexivity. }
  unfold materials. rewrite A. rewrite bind_ok; cbv beta.
  erewrite (I "Argon"%string _ "argon"%string) by (first [exact E1|vm_compute; reflexivity]). rewrite bind_ok; cbv beta. erewrite (P "Ammonia"%string _ "ammonia"%string) by (first [exact E2|vm_compute; reflexivity]). rewrite bind_ok; cbv beta.
  erewrite (P "Carbon Dioxide"%string _ "carbon-dioxide"%string) by (first [exact E3|vm_compute; reflexivity]). rewrite bind_ok; cbv beta. erewrite (I "Carbon Monoxide"%string _ "carbon-monoxide"%string) by (first [exact E4|vm_compute; reflexivity]). rewrite bind_ok; cbv beta.
  erewrite (I "Nitrogen"%string _ "nitrogen"%string) by (first [exact E5|vm_compute; reflexivity]). rewrite bind_ok; cbv beta. erewrite (I "Oxygen"%string _ "oxygen"%string) by (first [exact E6|vm_compute; reflexivity]). rewrite bind_ok; cbv beta.
  erewrite (I "Water Vapour"%string _ "water-vapour"%string) by (first [exact E7|vm_compute; reflexivity]). rewrite bind_ok; cbv beta. reflexivity.
Qed.
(** The eight gases can be made, and their properties are those of [gases], about
    which C47, C66-C68 and C98 speak. *)
Theorem C97_materials : exists ms, materials = Ok ms /\ map fst ms = map fst titles /\
  Forall2 (fun made known => fst made = fst known /\ forall p st, property (snd (snd made)) p st = property (snd known) p st) ms gases.
Proof.
  destruct materials_eq as (ar & nh & co2 & co & n2 & o2 & h2o & E1 & E2 & E3 & E4 & E5 & E6 & E7 & ->). eexists. split; [reflexivity|]. split; [reflexivity|]. cbn [combine titles map fst snd]. unfold gases, air.
  assert (K : forall g r r' p st, (forall st, r st = r' st) -> property (gas_ideal g r) p st = property (gas_ideal g r') p st).
  { intros g r r' p st H. unfold property, gas_ideal. cbn [lookup]. destruct (String.eqb p "rho"); auto. }
  repeat match goal with |- Forall2 _ [] [] => constructor | |- Forall2 _ _ _ => constructor; [split; [reflexivity|]; cbn [snd]; intros p st; try reflexivity; apply K; intros st'; unfold ideal_rho; (rewrite E1 || rewrite E4 || rewrite E5 || rewrite E6 || rewrite E7); reflexivity|] end.
Qed.
Print Assumptions C97_materials.
(** None of them has its name: each is called after the file of the last property
    read. *)
Theorem C97_names_refuted : (forall name namel active base props last_prop n m, create_gas name namel active base (props ++ [last_prop]) = Ok (n, m) -> n = file_of namel active last_prop) /\
  exists ms, materials = Ok ms /\ Forall2 (fun made title => fst made = fst title /\ fst (snd made) <> text_of (snd title)) ms titles /\
    lookup "CO2" ms <> None /\ forall n m, lookup "CO2" ms = Some (n, m) -> n = text_of "data/carbon-dioxide-k-polynomialmodelt-dataset-carbon-dioxide-lienhard2018.json".
Proof.
  split.
  - intros name namel active base props p n m. unfold create_gas. generalize (name, base). induction props as [|a props IH]; intros acc; cbn [app foldM].
    + unfold load_step, read_model. cbv zeta. destruct (find_file _); cbn [bind]; [|discriminate]. intros E. injection E as <- _. reflexivity.
    + destruct (load_step namel active acc a) as [acc'|]; cbn [bind]; [apply IH|discriminate].
  - destruct materials_eq as (ar & nh & co2 & co & n2 & o2 & h2o & _ & _ & _ & _ & _ & _ & _ & ->). eexists. split; [reflexivity|]. split; [|split].
    + cbn [combine titles map fst snd]. repeat constructor; cbn [fst snd]; intros E; apply (f_equal (@length ascii)) in E; vm_compute in E; discriminate.
    + cbn. discriminate.
    + intros n m E. cbn [combine titles map fst snd lookup String.eqb Ascii.eqb Bool.eqb] in E. injection E as <- _. reflexivity.
Qed.
Print Assumptions C97_names_refuted.

(** * Files *)
Lemma lower_idem t : Forall (fun c => lower_char c = c) t -> lower t = t.
Proof. induction 1 as [|c t E F IH]; cbn; auto. unfold lower in *. congruence. Qed.
Lemma before_dot_app t u : ~ In "."%char t -> before_dot (t ++ "."%char :: u) = t.
Proof. induction t as [|c t IH]; cbn [app before_dot In]; [reflexivity|]. intros N. destruct (Ascii.eqb_spec c "."); [tauto|]. f_equal. tauto. Qed.
(** The model made for a property of a fluid from its active data set is the one
    that is loaded for it, when the data set's name has neither upper case letters
    nor dots. *)
Theorem C97_made_is_loaded : forall name active prop, Forall (fun c => lower_char c = c) active -> ~ In "."%char active ->
  made_path name (text_of prop) (dataset_name active) = file_of (lower name) active prop.
Proof. intros name active prop L D. unfold made_path, dataset_name, file_of. change (text_of ".csv") with ("."%char :: text_of "csv"). rewrite before_dot_app by auto. rewrite (lower_idem active) by auto. reflexivity. Qed.
Print Assumptions C97_made_is_loaded.
(** Otherwise, and for every model of water, what is made is not what is loaded. *)
Theorem C97_made_is_loaded_refuted : made_path (text_of "Air") (text_of "k") (dataset_name (text_of "dataset-air-v1.2")) <> file_of (lower (text_of "Air")) (text_of "dataset-air-v1.2") "k" /\
  made_path (text_of "Air") (text_of "k") (dataset_name (text_of "dataset-air-ASHRAE")) <> file_of (lower (text_of "Air")) (text_of "dataset-air-ASHRAE") "k" /\
  forall symbol, water_made_path symbol <> water_read_path symbol.
Proof. split; [vm_compute; discriminate|]. split; [vm_compute; discriminate|]. intros symbol. unfold water_made_path, water_read_path. cbn. discriminate. Qed.
Print Assumptions C97_made_is_loaded_refuted.
Example C97_files_case : Forall (fun c => lower_char c = c) (text_of "dataset-air-lienhard2018") /\ ~ In "."%char (text_of "dataset-air-lienhard2018") /\
  NoDup ["Cp"; "mu"; "k"]%string /\ exists f, read_model (file_of (text_of "air") (text_of "dataset-air-lienhard2018") "Cp") = Ok f.
Proof.
  split; [repeat constructor|]. split; [cbn; intuition discriminate|]. split; [repeat constructor; cbn; intuition discriminate|]. unfold read_model.
  destruct (find_file _) eqn:E; [eauto|]. exfalso. vm_compute in E. discriminate.
Qed.

(** * Drawings *)
Local Open Scope R_scope.
(** The drawing of the ideal gas density shows the measurements and a line from the
    lowest to the highest temperature measured, on the law. *)
Theorem C97_ideal_plot : forall mm P datasets measured lo hi, Forall2 (measured_at (text_of "rho")) datasets measured ->
  let temps := concat (map fst measured) in
  In lo temps -> In hi temps -> (forall t, In t temps -> lo <= t <= hi) -> 0 < lo -> lo <= 10 ^ 100 ->
  exists line, plot_ideal mm P datasets = Ok (map (fun xy => combine (fst xy) (snd xy)) measured, line) /\
    evenly_drawn lo hi (fun T y => rho_T mm P (at_T T) = Ok y) line.
Proof.
  intros mm P datasets measured lo hi F temps LO HI B P0 BL. assert (L := proj1 (B hi HI)). unfold plot_ideal. destruct (plot_acc _ _ _ F (10 ^ 100) (- 10 ^ 100) []) as (u & v & A & U & V & U' & V' & W). rewrite A. cbn [bind fst snd app]. fold temps in U', V', W.
  assert (BH : - 10 ^ 100 <= hi) by (assert (0 <= 10 ^ 100) by (apply pow_le; lra); lra).
  assert (u = lo) by (apply Rle_antisym; [apply W; auto|destruct U' as [U'|U']; [lra|apply B; auto]]).
  assert (v = hi) by (apply Rle_antisym; [destruct V' as [V'|V']; [lra|apply B; auto]|apply W; auto]). subst u v.
  destruct (Rlt_dec lo 0); [lra|]. destruct (line_drawn (fun T => rho_T mm P (at_T T)) lo hi) as (line & E & D).
  - intros T H. eexists. apply rho_T_ok. unfold Rmin in H. destruct (Rle_dec lo hi); lra.
  - rewrite E. cbn [bind]. eauto.
Qed.
Print Assumptions C97_ideal_plot.
(** The drawing of a mixture model: the measurements of every data set, and for the
    mixture of that name a line of the model up to 1000 K that begins at the lowest
    temperature of this data set and those drawn before it. *)
Theorem C97_mixture_plot_partial : forall calc symbol xs datasets measured, Forall2 (fun (ds : string * frame) xy => measured_at symbol (text_of (fst ds), snd ds) xy) datasets measured ->
  (forall T, In T (concat (map fst measured)) -> T <= 10 ^ 100) ->
  (forall k ds lo, nth_error datasets k = Some ds -> least (concat (firstn (S k) (map fst measured))) lo ->
     exists x, lookup (fst ds) xs = Some x /\ forall T, Rmin lo 1000 <= T <= Rmax lo 1000 -> exists y, calc T x = Ok y) ->
  exists drawn, plot_mixtures calc symbol xs datasets = Ok drawn /\ length drawn = length datasets /\
    forall k ds xy lo, nth_error datasets k = Some ds -> nth_error measured k = Some xy -> least (concat (firstn (S k) (map fst measured))) lo ->
      exists line, nth_error drawn k = Some (combine (fst xy) (snd xy), line) /\ evenly_drawn lo 1000 (fun T y => exists x, lookup (fst ds) xs = Some x /\ calc T x = Ok y) line.
Proof.
  intros calc symbol xs datasets measured F B H.
  assert (K : forall k ds lo, nth_error datasets k = Some ds -> low_of (10 ^ 100) (concat (firstn (S k) (map fst measured))) lo <-> least (concat (firstn (S k) (map fst measured))) lo).
  { intros k ds lo N. apply low_least.
    - destruct F as [|d xy datasets measured (_ & _ & C) F]; [destruct k; discriminate|]. cbn [map firstn concat]. destruct (fst xy); [congruence|discriminate].
    - intros t T. apply B. rewrite <- (firstn_skipn (S k) (map fst measured)), concat_app. apply in_or_app. now left. }
  destruct (mix_acc calc symbol xs datasets measured F (10 ^ 100) []) as (u & drawn & E & L & D).
  - intros k ds lo N LO. apply (H k ds lo N). now apply (K k ds lo N).
  - exists drawn. unfold plot_mixtures. rewrite E. split; [reflexivity|]. split; auto. intros k ds xy lo N1 N2 LO. apply (D k ds xy lo N1 N2). now apply (K k ds lo N1).
Qed.
Print Assumptions C97_mixture_plot_partial.
(** The lines are not those of the measurements beside them: that of a second data
    set begins where the first begins, and above 1000 K no line is drawn at the
    measured temperatures. *)
Theorem C97_mixture_plot_refuted : forall calc symbol xs d1 d2 m1 m2 lo1 lo2 drawn, 
  measured_at symbol (text_of (fst d1), snd d1) m1 -> measured_at symbol (text_of (fst d2), snd d2) m2 -> least (fst m1) lo1 -> least (fst m2) lo2 -> lo1 <= 10 ^ 100 -> lo2 <= 10 ^ 100 ->
  plot_mixtures calc symbol xs [d1; d2] = Ok drawn ->
  (lo1 < lo2 -> exists pts line T y, nth_error drawn 1 = Some (pts, line) /\ nth_error line 0 = Some (T, y) /\ T < lo2) /\
  (1000 < lo1 -> exists pts line, nth_error drawn 0 = Some (pts, line) /\ forall T y, In (T, y) line -> T <= lo1).
Proof.
  intros calc symbol xs d1 d2 m1 m2 lo1 lo2 drawn (A1 & A2 & A3) (B1 & B2 & B3) L1 L2 U1 U2 H. unfold plot_mixtures in H. cbn [foldM] in H. unfold mix_step in H. cbn [fst snd] in *. rewrite A1, A2, B1, B2 in H. cbn [bind] in H.
  assert (M1 : list_min (fst m1) = Ok lo1) by now apply list_min_ok. assert (M2 : list_min (fst m2) = Ok lo2) by now apply list_min_ok. destruct (list_max_some _ A3) as [h1 H1]. destruct (list_max_some _ B3) as [h2 H2]. rewrite M1, M2, H1, H2 in H. cbn [bind] in H.
  replace (if Rlt_dec (10 ^ 100) lo1 then 10 ^ 100 else lo1) with lo1 in H by (destruct (Rlt_dec (10 ^ 100) lo1); lra).
  destruct (mapM _ (linspace80 lo1 1000)) as [l1|] eqn:E1 in H; [|discriminate]. cbn [bind fst snd] in H. destruct (mapM _ (linspace80 _ 1000)) as [l2|] eqn:E2 in H; [|discriminate]. cbn [bind fst snd app] in H. injection H as <-.
  assert (G : forall (d : string * frame) a l, mapM (fun T => match lookup (fst d) xs with None => Err KeyError | Some x => do y <- calc T x; Ok (T, y) end) (linspace80 a 1000) = Ok l ->
    (exists y, nth_error l 0 = Some (a, y)) /\ forall T y, In (T, y) l -> In T (linspace80 a 1000)).
  { intros d a l E. apply mapM_Forall2 in E. assert (P : Forall2 (fun (T : R) (p : R * R) => fst p = T) (linspace80 a 1000) l).
    { revert E. generalize (linspace80 a 1000). intros s E. induction E as [|T p s l Q E IH]; constructor; auto. destruct (lookup (fst d) xs); [|discriminate]. destruct (calc T l0); [|discriminate]. injection Q as <-. reflexivity. }
    apply forall2_nth in P. destruct P as [PL PN]. split.
    - destruct (PN 0%nat _ (linspace_nth a 1000 0 ltac:(lia))) as ([t y] & N & Q). cbn [fst] in Q. exists y. rewrite N. repeat f_equal. rewrite Q. cbn. lra.
    - intros T y I. apply In_nth_error in I. destruct I as [i I]. assert (IL : (i < length (linspace80 a 1000))%nat) by (rewrite PL; apply nth_error_Some; congruence). destruct (nth_error (linspace80 a 1000) i) as [x|] eqn:X; [|apply nth_error_None in X; lia].
      destruct (PN i x X) as ([t z] & N & Q). rewrite I in N. injection N as <- <-. cbn [fst] in Q. subst x. now apply nth_error_In in X. }
  split.
  - intros L. replace (if Rlt_dec lo1 lo2 then lo1 else lo2) with lo1 in E2 by (destruct (Rlt_dec lo1 lo2); lra). destruct (G d2 lo1 l2 E2) as [[y Y] _]. exists (combine (fst m2) (snd m2)), l2, lo1, y. auto.
  - intros L. exists (combine (fst m1) (snd m1)), l1. split; [reflexivity|]. intros T y I. destruct (G d1 lo1 l1 E1) as [_ W]. apply W in I. apply linspace_between in I. unfold Rmax in I. destruct (Rle_dec lo1 1000); lra.
Qed.
Print Assumptions C97_mixture_plot_refuted.
(** A data set whose name has no composition cannot be drawn, and neither can one
    for a mixture that has no value at 1000 K: ammonia, which is known up to 473 K,
    cannot be drawn with its own measurements. *)
Theorem C97_no_plot_refuted : (forall calc symbol xs ds more xy, measured_at symbol (text_of (fst ds), snd ds) xy -> lookup (fst ds) xs = None -> plot_mixtures calc symbol xs (ds :: more) = Err KeyError) /\
  (forall calc symbol xs ds x xy drawn, measured_at symbol (text_of (fst ds), snd ds) xy -> lookup (fst ds) xs = Some x -> (forall y, calc 1000 x <> Ok y) -> plot_mixtures calc symbol xs [ds] <> Ok drawn) /\
  (forall ds a xy drawn, measured_at (text_of "Cp") (text_of (fst ds), snd ds) xy -> plot_mixtures (ideal_Cp gases) (text_of "Cp") [(fst ds, [("NH3"%string, a)])] [ds] <> Ok drawn).
Proof.
  assert (S : forall calc symbol xs ds x xy drawn, measured_at symbol (text_of (fst ds), snd ds) xy -> lookup (fst ds) xs = Some x -> (forall y, calc 1000 x <> Ok y) -> plot_mixtures calc symbol xs [ds] <> Ok drawn).
  { intros calc symbol xs ds x xy drawn (A & B & C) X N H. unfold plot_mixtures in H. cbn [foldM] in H. unfold mix_step in H. cbn [fst snd] in *. rewrite A, B, X in H. cbn [bind] in H. destruct (list_min (fst xy)); [|discriminate]. destruct (list_max (fst xy)); [|discriminate]. cbn [bind] in H.
    match type of H with context[mapM ?f ?l] => destruct (mapM f l) as [line|] eqn:E end; [|discriminate]. apply mapM_Forall2, forall2_nth in E. destruct E as [_ E]. specialize (E 79%nat _ (linspace_nth _ 1000 79 ltac:(lia))). destruct E as (p & _ & E).
    match type of E with context[calc ?t x] => replace t with 1000 in E by (replace (INR 79) with 79 by (rewrite INR_IZR_INZ; reflexivity); field) end. destruct (calc 1000 x) as [y|] eqn:Y; [exact (N y eq_refl)|discriminate]. }
  split; [|split; [exact S|]].
  - intros calc symbol xs ds more xy (A & B & C) X. unfold plot_mixtures. cbn [foldM]. unfold mix_step at 1. cbn [fst snd] in *. rewrite A, B, X. cbn [bind]. destruct (list_min_some _ C) as [lo LO]. destruct (list_max_some _ C) as [hi HI]. rewrite LO, HI. reflexivity.
  - intros ds a xy drawn M. apply (S _ _ _ _ [("NH3"%string, a)] xy drawn M); [cbn [lookup]; now rewrite String.eqb_refl|].
    intros y H. unfold ideal_Cp in H. unfold normalise_gases in H. change (filter _ [("NH3"%string, a)]) with [("NH3"%string, a)] in H. cbv zeta in H. cbn [map mapM snd fst] in H. destruct (rdiv a _) as [b|]; [|discriminate]. cbn [bind mapM fst] in H.
    assert (G : forall v, gas_property gases "Cp" 1000 "NH3" <> Ok v).
    { intros v G. change (gas_property gases "Cp" 1000 "NH3") with (gas_file "ammonia" "cp" (at_T 1000)) in G. rewrite gas_file_eq in G.
      destruct (lookup (gas_file_name "ammonia" "cp") fluid_data) as [q|] eqn:Q; [|vm_compute in Q; discriminate]. assert (W := proj1 (C67_files_defined _ q 1000 Q) (ex_intro _ v G)).
      assert (Qle (qp_max q) (473 # 1)) as K by (vm_compute in Q; injection Q as <-; apply Qle_bool_imp_le; reflexivity). apply Qle_Rle in K. replace (Q2R (473 # 1)) with 473 in K by (unfold Q2R; cbn; lra). lra. }
    destruct (gas_property gases "Cp" 1000 "NH3") as [v|]; [exact (G v eq_refl)|discriminate].
Qed.
Print Assumptions C97_no_plot_refuted.
(** Nitrogen at 100 K and 500 K: the hypotheses of C97_mixture_plot_partial hold. *)
Example C97_plot_case : let data : frame := [(temp, [100; 500]); (text_of "Cp", [1072; 1056])] in let xs := [("N2"%string, [("N2"%string, 1)])] in
  measured_at (text_of "Cp") (text_of "N2", data) ([100; 500], [1072; 1056]) /\ least [100; 500] 100 /\
  exists x, lookup "N2" xs = Some x /\ forall T, Rmin 100 1000 <= T <= Rmax 100 1000 -> exists y, ideal_Cp gases T x = Ok y.
Proof.
  intros data xs. split; [split; [reflexivity|split; [reflexivity|discriminate]]|]. split; [split; [cbn; auto|intros t [<-|[<-|[]]]; lra]|].
  exists [("N2"%string, 1)]. split; [reflexivity|]. intros T H. rewrite Rmin_left, Rmax_right in H by lra.
  destruct (gas_mm "N2") as (m & M & P); [cbn; tauto|].
  assert (G : exists v, gas_property gases "Cp" T "N2" = Ok v).
  { change (gas_property gases "Cp" T "N2") with (gas_file "nitrogen" "cp" (at_T T)). rewrite gas_file_eq. destruct (lookup (gas_file_name "nitrogen" "cp") fluid_data) as [q|] eqn:Q; [|vm_compute in Q; discriminate].
    apply (C67_files_defined _ q T Q). assert (Qle (qp_min q) (100 # 1)) as K by (vm_compute in Q; injection Q as <-; apply Qle_bool_imp_le; reflexivity). assert (Qle (1000 # 1) (qp_max q)) as L by (vm_compute in Q; injection Q as <-; apply Qle_bool_imp_le; reflexivity).
    apply Qle_Rle in K, L. replace (Q2R (100 # 1)) with 100 in K by (unfold Q2R; cbn; lra). replace (Q2R (1000 # 1)) with 1000 in L by (unfold Q2R; cbn; lra). lra. }
  destruct G as [v G]. exists v. apply (C47_pure gases T "N2" 1 m); auto; lra.
Qed.
