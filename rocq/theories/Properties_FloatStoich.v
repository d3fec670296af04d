(** C89: stoichiometry in binary64. *)
From Coq Require Import Qabs Qreals.
From Verif Require Import Prelude M_Elements M_Stoichiometry Spec_Stoich P_Stoich P_Count P_Convert M_Ieee Spec_Ieee M_FloatMix M_FloatLoan M_FloatStoich Spec_FloatStoich
  P_Ieee P_FloatReports P_FloatReports2 P_FloatMix P_FloatLoan P_FloatLoan2 P_Within P_FloatStoich P_FloatStoich2 P_FloatStoich3 P_FloatStoich4 P_FloatStoich5 P_FloatStoich6 Properties_Stoich Properties_Float Properties_FloatLoan.
From Coq Require Import Reals List Lra Lia ZArith.
From Flocq Require Import Core BinarySingleNaN.
Import ListNotations.
Local Open Scope list_scope.
Local Open Scope R_scope.

(** ** C89: every figure is the exact one up to a few roundings *)
(** The number of atoms is exact. *)
Theorem C89_counts_exact : forall s f el, proper s f -> fits f -> exists x, fcoefficient s el = Ok x /\ finite x /\ value x = IZR (atoms el f).
Proof. exact coefficient_ok. Qed.
Print Assumptions C89_counts_exact.
Theorem C89_molar_mass : forall s f, proper s f -> fits f -> exists x, fmolar_mass (Some s) = Ok x /\ finite x /\ within (kinds f + 1) (value x) (exact_molar f) /\ 0 <= value x.
Proof. intros s f P T. destruct (molar_ok s f P T) as (x & E & F & W & B & _). exists x. split; [exact E|]. split; [exact F|]. split; [exact W|]. lra. Qed.
Print Assumptions C89_molar_mass.
(** Amount from mass and back: two roundings from where one started. *)
Theorem C89_amount : forall s f m, proper s f -> fits f -> has_atoms f -> moderate m ->
  exists a, famount s m = Ok a /\ finite a /\ within (kinds f + 2) (value a) (value m / exact_molar f) /\
    exists m', fmass s a = Ok m' /\ finite m' /\ within 2 (value m') (value m).
Proof. exact amount_ok. Qed.
Print Assumptions C89_amount.
Theorem C89_mass : forall s f n, proper s f -> fits f -> has_atoms f -> moderate n ->
  exists m, fmass s n = Ok m /\ finite m /\ within (kinds f + 2) (value m) (value n * exact_molar f) /\
    exists n', famount s m = Ok n' /\ finite n' /\ within 2 (value n') (value n).
Proof. exact mass_ok'. Qed.
Print Assumptions C89_mass.
(** Rounding never pushes a mass fraction out of [0, 1], never makes one vanish
    or appear, and the fraction of the only element of a compound is exactly 1. *)
Theorem C89_element_fraction : forall s f el, proper s f -> fits f -> has_atoms f ->
  exists x, felement_fraction s el = Ok x /\ finite x /\ within (kinds f + 4) (value x) (exact_fraction f el) /\ 0 <= value x <= 1 /\
    (value x = 0 <-> atoms el f = 0%Z) /\ ((forall k, In k (symbols f) -> k = el) -> value x = 1).
Proof.
  intros s f el P T A. destruct (fraction_ok' s f el P T A) as (x & E & F & W & B & Z & L & O). rewrite (efrac_exact s f el P) in W. exists x. split; [exact E|]. split; [exact F|]. split; [exact W|]. split; [exact B|]. split.
  - split; [|intros N; rewrite (Z N); reflexivity]. intros V. destruct (Z.eq_dec (atoms el f) 0) as [N|N]; auto. specialize (L N). pose proof (ip2 73). lra.
  - intros H. apply O. destruct P as [P _]. apply symbols_some in P. destruct (nodup string_dec (symbols f)) as [|k l] eqn:D.
    + destruct (symbols f) as [|y ys]; [congruence|]. assert (I : In y (nodup string_dec (y :: ys))) by (apply nodup_In; now left). rewrite D in I. destruct I.
    + assert (Q : forall j, In j (k :: l) -> j = el) by (intros j I; apply H; rewrite <- D in I; now apply nodup_In in I). pose proof (NoDup_nodup string_dec (symbols f)) as N. rewrite D in N. inversion N as [|? ? N1 N2]; subst.
      rewrite (Q k) in N1 |- * by now left. f_equal. destruct l as [|j l]; [reflexivity|]. exfalso. apply N1. left. apply Q. right. now left.
Qed.
Print Assumptions C89_element_fraction.
Theorem C89_element_fractions_sum : forall s f els, proper s f -> fits f -> has_atoms f -> NoDup els -> (forall k, In k els -> in_table k) -> (forall k, In k (symbols f) -> In k els) ->
  exists xs, felement_fractions s els = Ok xs /\ length xs = length els /\ Forall (fun x => finite x /\ 0 <= value x <= 1) xs /\ within (kinds f + 4) (exact_sum xs) 1.
Proof. exact fractions_sum. Qed.
Print Assumptions C89_element_fractions_sum.
(** Conversion on an element keeps the element's mass, and converting back
    returns to within four roundings. *)
Theorem C89_convert : forall m a fa b fb el, proper a fa -> fits fa -> has_atoms fa -> proper b fb -> fits fb -> has_atoms fb -> moderate m -> atoms el fa <> 0%Z -> atoms el fb <> 0%Z ->
  exists y, fconvert m a b el = Ok y /\ finite y /\ within (kinds fa + kinds fb + 10) (value y) (value m * exact_fraction fa el / exact_fraction fb el) /\
    exists m', fconvert y b a el = Ok m' /\ finite m' /\ within 4 (value m') (value m).
Proof.
  intros m a fa b fb el Pa Ta Aa Pb Tb Ab M Na Nb. rewrite <- (efrac_exact a fa el Pa), <- (efrac_exact b fb el Pb). now apply convert_ok'.
Qed.
Print Assumptions C89_convert.
Theorem C89_convert_absent : forall m a fa b fb el, proper a fa -> fits fa -> has_atoms fa -> proper b fb -> fits fb -> has_atoms fb -> finite m ->
  (atoms el fb = 0%Z -> fconvert m a b el = Ok zero64) /\ (atoms el fa = 0%Z -> atoms el fb <> 0%Z -> exists y, fconvert m a b el = Ok y /\ finite y /\ value y = 0).
Proof. exact convert_absent_ok. Qed.
Print Assumptions C89_convert_absent.
(** Fractions of a dictionary of masses or amounts: one for every key, in the
    same order, in [0, 1], adding up to 1 up to one rounding per key, each close
    to the exact fraction. *)
Theorem C89_amount_fractions : forall K d fs, compounds K d fs -> INR (length d) <= 2 ^ 50 -> (exists kv, In kv d /\ value (snd kv) <> 0) ->
  exists xs, famount_fractions d = Ok xs /\ map fst xs = map fst d /\
    Forall (fun kv => finite (snd kv) /\ 0 <= value (snd kv) <= 1) xs /\ within (length d) (exact_sum (map snd xs)) 1 /\
    Forall2 (fun x q => within (length d + 2 * (K + 2)) (value (snd x)) (q / Rtotal (each Rdiv d fs))) xs (each Rdiv d fs).
Proof. exact amount_fractions_ok. Qed.
Print Assumptions C89_amount_fractions.
Theorem C89_mass_fractions : forall K d fs, compounds K d fs -> INR (length d) <= 2 ^ 50 -> (exists kv, In kv d /\ value (snd kv) <> 0) ->
  exists xs, fmass_fractions d = Ok xs /\ map fst xs = map fst d /\
    Forall (fun kv => finite (snd kv) /\ 0 <= value (snd kv) <= 1) xs /\ within (length d) (exact_sum (map snd xs)) 1 /\
    Forall2 (fun x q => within (length d + 2 * (K + 2)) (value (snd x)) (q / Rtotal (each Rmult d fs))) xs (each Rmult d fs).
Proof. exact mass_fractions_ok. Qed.
Print Assumptions C89_mass_fractions.
(** A number too large for a float, anywhere in the formula, and nothing else, raises OverflowError. *)
Theorem C89_overflow : forall s f, proper s f ->
  (fmolar_mass (Some s) = Err OverflowError <-> exists n, In n (numbers f) /\ (2 ^ 1024 - 2 ^ 970 <= n)%Z) /\
  (forall el, fcoefficient s el = Err OverflowError <-> exists n, In n (numbers f) /\ (2 ^ 1024 - 2 ^ 970 <= n)%Z).
Proof. exact overflow_iff. Qed.
Print Assumptions C89_overflow.
(** A formula without atoms ("H0") weighs nothing: amounts of it do not exist,
    and it holds no element. *)
Theorem C89_no_atoms : forall s f, proper s f -> (forall el, atoms el f = 0%Z) -> (forall n, In n (numbers f) -> (n <= 2 ^ 53)%Z) ->
  exists x, fmolar_mass (Some s) = Ok x /\ finite x /\ value x = 0 /\ (forall m, famount s m = Err ZeroDivisionError) /\ (forall el, felement_fraction s el = Ok zero64).
Proof.
  intros s f P A N. assert (T : fits f) by (split; [exact N|]; intros el; rewrite A; cbn; lia). destruct (molar_ok s f P T) as (x & E & F & W & B & _).
  assert (Z : exact_molar f = 0). { unfold exact_molar. rewrite (weight_ext _ (fun _ => 0%Z)) by exact A. rewrite weight_0. apply RMicromega.Q2R_0. }
  change (Q2R (weight (fun el => atoms el f))) with (exact_molar f) in W. rewrite Z in W. destruct W as [W _]. rewrite Rmult_0_l in W. assert (V : value x = 0) by lra.
  exists x. split; [exact E|]. split; [exact F|]. split; [exact V|]. split.
  - intros m. unfold famount. rewrite E. cbn [bind]. unfold pydiv64. now rewrite (zero_is_zero x F V).
  - intros el. unfold felement_fraction. destruct (coefficient_ok s f el P T) as (c & -> & Fc & Vc). cbn [bind]. rewrite A in Vc. now rewrite (zero_is_zero c Fc Vc).
Qed.
Print Assumptions C89_no_atoms.
(** Nothing but zeros has no fractions. *)
Theorem C89_all_zero : forall d fs K, compounds K d fs -> d <> [] -> Forall (fun kv => value (snd kv) = 0) d -> famount_fractions d = Err ZeroDivisionError /\ fmass_fractions d = Err ZeroDivisionError.
Proof.
  intros d fs K C N Z.
  assert (X : forall l : fpydict, l <> [] -> Forall (fun kv => finite (snd kv) /\ value (snd kv) = 0) l -> ffractions l = Err ZeroDivisionError).
  { intros l Nl H. unfold ffractions. assert (S : forall l acc, finite acc -> value acc = 0 -> Forall (fun kv : string * float64 => finite (snd kv) /\ value (snd kv) = 0) l -> is_zero64 (fold_left add64 (map snd l) acc) = true).
    { clear. induction l as [|kv l IH]; intros acc F V H; cbn [map fold_left]; [now apply zero_is_zero|]. apply Forall_cons_iff in H as [[Fk Vk] H].
      destruct (P_FloatLoan.add_ok acc (snd kv) F Fk) as [F1 V1]; rewrite V, Vk, Rplus_0_r, rnd_0 in *; [rewrite Rabs_R0; apply bpow_gt_0|]. now apply IH. }
    destruct l as [|kv l]; [congruence|]. set (t := sum64 _). cbn [mapM]. unfold pydiv64 at 1. unfold t, sum64. rewrite S by (auto; reflexivity). reflexivity. }
  assert (G : forall op g, (forall s f x, proper s f -> fits f -> has_atoms f -> moderate_or_zero x -> exists a, op s x = Ok a /\ ranged 473 a /\ within (kinds f + 2) (value a) (g (value x) (exact_molar f)) /\ (value x <> 0 -> value a <> 0)) -> (forall y, g 0 y = 0) ->
     exists l, mapM (fun kv : string * float64 => do n <- op (fst kv) (snd kv); Ok (fst kv, n)) d = Ok l /\ (d <> [] -> l <> []) /\ Forall (fun kv => finite (snd kv) /\ value (snd kv) = 0) l).
  { intros op g H G. clear N X. induction C as [|kv f d fs (P & T & A & _ & M) C IH]; [exists []; split; [reflexivity|]; split; [auto|constructor]|]. apply Forall_cons_iff in Z as [Zk Z]. destruct (IH Z) as (l & E & _ & Hl).
    destruct (H _ _ _ P T A M) as (a & Ea & [Fa Ra] & Wa & _). cbn [mapM]. rewrite Ea. cbn [bind]. rewrite E. cbn [bind]. eexists. split; [reflexivity|]. split; [discriminate|]. constructor; [|exact Hl]. cbn [snd]. split; [exact Fa|].
    rewrite Zk, G in Wa. destruct Wa as [Wa _]. rewrite Rmult_0_l in Wa. destruct Ra as [Ra|Ra]; [exact Ra|]. pose proof (ip2 473). lra. }
  split.
  - destruct (G famount Rdiv amount_entry) as (l & E & Nl & Hl); [intros y; unfold Rdiv; apply Rmult_0_l|]. unfold famount_fractions, famounts. rewrite E. cbn [bind]. apply X; auto.
  - destruct (G fmass Rmult mass_entry) as (l & E & Nl & Hl); [intros y; apply Rmult_0_l|]. unfold fmass_fractions, fmasses. rewrite E. cbn [bind]. apply X; auto.
Qed.
Print Assumptions C89_all_zero.
(** What [within] means in plain numbers. *)
Theorem C89_within_is_close : forall n a b, 0 <= b -> INR n <= 2 ^ 50 -> within n a b -> Rabs (a - b) <= 2 * INR n * / 2 ^ 53 * b.
Proof.
  intros n a b B N [H K]. pose proof (gamma_small n) as G. unfold gamma in G. specialize (G (Rle_trans _ _ _ N (two_pow_le 50 52 ltac:(lia)))). fold ulp_half. pose proof (pow_R1_Rle (1 + ulp_half) n) as O. assert (U : 0 < ulp_half) by (unfold ulp_half; apply ip2). specialize (O ltac:(lra)).
  set (g := (1 + ulp_half) ^ n) in *. assert (a >= b / g). { apply Rle_ge. apply (Rmult_le_reg_r g); [lra|]. unfold Rdiv. rewrite Rmult_assoc, Rinv_l by lra. lra. }
  assert (b / g >= b * (2 - g)). { apply Rle_ge. apply (Rmult_le_reg_r g); [lra|]. unfold Rdiv. rewrite !Rmult_assoc, Rinv_l, Rmult_1_r by lra. assert ((2 - g) * g <= 1) by nra. nra. }
  apply Rabs_le. split; nra.
Qed.
Print Assumptions C89_within_is_close.

(** *** Not exact *)
(** A count above 2^53 is rounded; mass, amount, mass again need not return. *)
Lemma count_computed : exists x, fcoefficient "H9007199254740993" "H" = Ok x /\ (is_finite x && negb (gt64 x (f_of 9007199254740992)))%bool = true.
Proof. apply ok_of. vm_compute. reflexivity. Qed.
Theorem C89_counts_above_2_53_refuted : exists f x, proper "H9007199254740993" f /\ atoms "H" f = 9007199254740993%Z /\ fcoefficient "H9007199254740993" "H" = Ok x /\ finite x /\ value x < IZR (atoms "H" f).
Proof.
  destruct (check "H9007199254740993") as [f|] eqn:E; [|vm_compute in E; discriminate]. pose proof (check_proper _ _ E) as P. destruct count_computed as (x & Ex & B). apply andb_true_iff in B as [F B]. exists f, x. split; [exact P|].
  vm_compute in E. injection E as <-. assert (A : atoms "H" {| f_group := [ISubElement ["H"%char] (text_of "9007199254740993")]; f_dotted := None; f_phase := None |} = 9007199254740993%Z) by (vm_compute; reflexivity). split; [exact A|]. split; [exact Ex|]. split; [exact F|].
  destruct (f_of_value 9007199254740992) as [G V]; [vm_compute; discriminate|]. apply negb_true_iff in B. apply (gt64_spec _ _ F G) in B. rewrite V in B. eapply Rle_lt_trans; [exact B|].
  match goal with |- _ < IZR ?a => change a with (atoms "H" {| f_group := [ISubElement ["H"%char] (text_of "9007199254740993")]; f_dotted := None; f_phase := None |}) end. rewrite A. apply IZR_lt. reflexivity.
Qed.
Print Assumptions C89_counts_above_2_53_refuted.
Definition back (s : string) (m : float64) : res (float64 * float64) := do a <- famount s m; do m' <- fmass s a; Ok (a, m').
Lemma back_computed : exists p, back "Fe2O3" (f_of 1) = Ok p /\ (is_finite (snd p) && gt64 (f_of 1) (snd p))%bool = true.
Proof. apply ok_of. vm_compute. reflexivity. Qed.
Theorem C89_round_trip_exact_refuted : exists a m', famount "Fe2O3" (f_of 1) = Ok a /\ fmass "Fe2O3" a = Ok m' /\ value m' < value (f_of 1).
Proof.
  destruct back_computed as ([a m'] & E & B). unfold back in E. exists a, m'. destruct (famount "Fe2O3" (f_of 1)) as [a'|]; [|discriminate]. cbn [bind] in E. destruct (fmass "Fe2O3" a') as [m2|] eqn:M; [|discriminate]. cbn [bind] in E. injection E as -> ->.
  split; [reflexivity|]. split; [exact M|]. cbn [snd] in B. apply andb_true_iff in B as [F G]. destruct (f_of_value 1) as [F1 _]; [cbn; lia|]. apply Rnot_le_lt. intros H. apply (gt64_spec _ _ F1 F) in H. congruence.
Qed.
Print Assumptions C89_round_trip_exact_refuted.

(** *** Cases *)
Lemma fits_check f : forallb (fun n => Z.leb n (2 ^ 53)) (numbers f) = true -> forallb (fun s => Z.leb (atoms s f) (2 ^ 53)) (symbols f) = true -> fits f.
Proof.
  rewrite !forallb_forall. intros N A. split; [intros n I; now apply Z.leb_le, N|]. intros s. destruct (Z.eq_dec (atoms s f) 0) as [E|E]; [rewrite E; cbn; lia|]. apply Z.leb_le, A, atoms_symbols, E.
Qed.
Lemma case_of s : (match check s with Some f => forallb (fun n => Z.leb n (2 ^ 53)) (numbers f) && forallb (fun s => Z.leb (atoms s f) (2 ^ 53)) (symbols f) && existsb (fun s => Z.ltb 0 (atoms s f)) (symbols f) | None => false end)%bool = true ->
  exists f, check s = Some f /\ proper s f /\ fits f /\ has_atoms f.
Proof.
  destruct (check s) as [f|] eqn:E; [|discriminate]. intros H. apply andb_true_iff in H as [H A]. apply andb_true_iff in H as [N B]. exists f. split; [reflexivity|]. split; [now apply check_proper|]. split; [now apply fits_check|].
  apply existsb_exists in A as (k & _ & A). exists k. now apply Z.ltb_lt.
Qed.
Lemma one_moderate : moderate (f_of 1) /\ moderate_or_zero (f_of 1).
Proof.
  destruct (f_of_value 1) as [F V]; [cbn; lia|]. unfold moderate, moderate_or_zero. rewrite V.
  assert (O : forall n, 1 <= 2 ^ n) by (intros n; apply pow_R1_Rle; lra). assert (I : forall n, / 2 ^ n <= 1) by (intros n; rewrite <- Rinv_1; apply Rinv_le_contravar; [lra|apply O]). split; (split; [exact F|]); [|right]; split; auto.
Qed.
Example C89_case : exists fa fb, proper "Fe2O3" fa /\ fits fa /\ has_atoms fa /\ kinds fa = 2%nat /\ atoms "Fe" fa = 2%Z /\ proper "FeO" fb /\ fits fb /\ has_atoms fb /\ atoms "Fe" fb = 1%Z /\ atoms "C" fb = 0%Z /\ moderate (f_of 1).
Proof.
  destruct (case_of "Fe2O3") as (fa & Ea & Pa & Ta & Aa); [vm_compute; reflexivity|]. destruct (case_of "FeO") as (fb & Eb & Pb & Tb & Ab); [vm_compute; reflexivity|]. exists fa, fb.
  vm_compute in Ea, Eb. injection Ea as Ea. injection Eb as Eb. subst fa fb. repeat (split; [assumption || (vm_compute; reflexivity)|]). apply one_moderate.
Qed.
Example C89_one_element_case : exists f, proper "O2" f /\ fits f /\ has_atoms f /\ forall k, In k (symbols f) -> k = "O"%string.
Proof.
  destruct (case_of "O2") as (f & E & P & T & A); [vm_compute; reflexivity|]. exists f. vm_compute in E. injection E as E. subst f. repeat (split; [assumption|]). intros k [<-|[]]. vm_compute. reflexivity.
Qed.
Example C89_dictionary_case : exists fs, compounds 2 [("Fe2O3"%string, f_of 1); ("C"%string, f_of 0)] fs.
Proof.
  destruct (case_of "Fe2O3") as (fa & Ea & Pa & Ta & Aa); [vm_compute; reflexivity|]. destruct (case_of "C") as (fb & Eb & Pb & Tb & Ab); [vm_compute; reflexivity|]. exists [fa; fb].
  vm_compute in Ea, Eb. injection Ea as Ea. injection Eb as Eb. subst fa fb. constructor; [|constructor; [|constructor]]; cbn [fst snd]; (split; [assumption|]; split; [assumption|]; split; [assumption|]; split; [vm_compute; lia|]).
  - apply one_moderate.
  - destruct (f_of_value 0) as [F V]; [cbn; lia|]. split; [exact F|]. left. exact V.
Qed.
Definition zeros (n : nat) : string := str_of (repeat "0"%char n).
Example C89_overflow_case : exists f, proper ("H1" ++ zeros 309) f /\ exists n, In n (numbers f) /\ (2 ^ 1024 - 2 ^ 970 <= n)%Z.
Proof.
  destruct (check ("H1" ++ zeros 309)) as [f|] eqn:E; [|vm_compute in E; discriminate]. exists f. split; [now apply check_proper|]. vm_compute in E. injection E as E. subst f. eexists. split; [left; reflexivity|]. vm_compute. discriminate.
Qed.
Example C89_no_atoms_case : exists f, proper "H0" f /\ (forall el, atoms el f = 0%Z) /\ forall n, In n (numbers f) -> (n <= 2 ^ 53)%Z.
Proof.
  destruct (check "H0") as [f|] eqn:E; [|vm_compute in E; discriminate]. exists f. split; [now apply check_proper|]. vm_compute in E. injection E as E. subst f. split.
  - intros el. destruct (Z.eq_dec (atoms el (mkformula [ISubElement ["H"%char] ["0"%char]] None None)) 0) as [H|H]; [exact H|]. exfalso. apply atoms_symbols in H as I. destruct I as [<-|[]]. apply H. vm_compute. reflexivity.
  - intros n [<-|[]]. vm_compute. discriminate.
Qed.
