(** Proofs about thermo packages. *)
From Verif Require Import Prelude M_Stoichiometry M_Lists M_Thermochem M_ThermoMat Spec_Stoich Spec_Thermo Spec_ThermoMat P_ThermoApi P_Content.
From Coq Require Import Reals Lra.
Local Open Scope list_scope.
Local Open Scope R_scope.

(** * Weights *)
Lemma weigh_cons w c cs m ms : weigh_list w (c :: cs) (m :: ms) = w c * m + weigh_list w cs ms.
Proof. reflexivity. Qed.
Lemma weigh_nil w cs : weigh_list w cs [] = 0.
Proof. now destruct cs. Qed.
Lemma weigh_app w cs ms cs' ms' : length cs = length ms -> weigh_list w (cs ++ cs') (ms ++ ms') = weigh_list w cs ms + weigh_list w cs' ms'.
Proof.
  revert ms. induction cs as [|c cs IH]; intros [|m ms] L; try discriminate; cbn [app]. - change (weigh_list w [] []) with 0. ring.
  - rewrite !weigh_cons, IH; auto. ring.
Qed.
Lemma weigh_scale w cs ms k : weigh_list w cs (rscale ms k) = k * weigh_list w cs ms.
Proof.
  revert ms. induction cs as [|c cs IH]; intros [|m ms]; cbn [rscale map]; rewrite ?weigh_nil; try (change (weigh_list w [] _) with 0); try ring.
  rewrite !weigh_cons. fold (rscale ms k). rewrite IH. ring.
Qed.
Lemma radd_ok a b : length a = length b -> exists r, radd a b = Ok r /\ length r = length a.
Proof.
  revert b. induction a as [|x a IH]; intros [|y b] L; try discriminate; cbn [radd]. - exists []. auto.
  - destruct (IH b) as (r & E & Lr); auto. rewrite E. cbn [bind]. eexists. split; [reflexivity|]. cbn. congruence.
Qed.
Lemma weigh_radd w cs a b r : radd a b = Ok r -> weigh_list w cs r = weigh_list w cs a + weigh_list w cs b.
Proof.
  revert a b r. induction cs as [|c cs IH]; intros a b r H. - change (weigh_list w [] _) with 0. unfold weigh_list. cbn. ring.
  - destruct a as [|x a], b as [|y b]; cbn [radd] in H; try discriminate. + injection H as <-. rewrite weigh_nil. ring.
    + destruct (radd a b) as [r'|] eqn:E; cbn [bind] in H; [|discriminate]. injection H as <-. rewrite !weigh_cons, (IH _ _ _ E). ring.
Qed.
Lemma weigh_plus w v cs ms : weigh_list (fun c => w c + v c) cs ms = weigh_list w cs ms + weigh_list v cs ms.
Proof. revert ms. induction cs as [|c cs IH]; intros [|m ms]; rewrite ?weigh_nil, ?weigh_cons, ?IH; first [ring | unfold weigh_list; cbn; ring]. Qed.
Lemma weigh_mul k w cs ms : weigh_list (fun c => k * w c) cs ms = k * weigh_list w cs ms.
Proof. revert ms. induction cs as [|c cs IH]; intros [|m ms]; rewrite ?weigh_nil, ?weigh_cons, ?IH; first [ring | unfold weigh_list; cbn; ring]. Qed.
Lemma weigh_ext w v cs ms : (forall c, In c cs -> w c = v c) -> weigh_list w cs ms = weigh_list v cs ms.
Proof.
  revert ms. induction cs as [|c cs IH]; intros [|m ms] H; auto. rewrite !weigh_cons, IH by (intros; apply H; cbn; auto). rewrite H by (cbn; auto). reflexivity.
Qed.
Lemma weigh_rsum cs ms : length cs = length ms -> weigh_list (fun _ => 1) cs ms = rsum ms.
Proof. revert ms. induction cs as [|c cs IH]; intros [|m ms] L; try discriminate; auto. rewrite weigh_cons, IH by auto. cbn [rsum fold_right]. fold (rsum ms). ring. Qed.
Lemma weigh_zero w cs ms : (forall x, In x ms -> x = 0) -> weigh_list w cs ms = 0.
Proof. revert ms. induction cs as [|c cs IH]; intros [|m ms] H; auto. rewrite weigh_cons, IH by (intros; apply H; cbn; auto). rewrite (H m) by (cbn; auto). ring. Qed.
Lemma set_nth_weigh w cs c i ms y v r : length cs = length ms -> nth_error cs i = Some c -> nth_error ms i = Some y -> set_nth ms i v = Ok r ->
  weigh_list w cs r = weigh_list w cs ms + w c * (v - y) /\ length r = length ms.
Proof.
  intros L. revert ms i r L. induction cs as [|d cs IH]; intros [|m ms] [|i] r L C Y H; try discriminate; cbn [nth_error set_nth] in *.
  - injection C as ->. injection Y as ->. injection H as <-. rewrite !weigh_cons. split; [ring|reflexivity].
  - destruct (set_nth ms i v) as [r'|] eqn:E; cbn [bind] in H; [|discriminate]. injection H as <-. destruct (IH ms i r') as [A B]; auto. rewrite !weigh_cons, A. split; [ring|cbn; congruence].
Qed.
Lemma rsum_nonneg l : (forall x, In x l -> 0 <= x) -> 0 <= rsum l.
Proof. induction l as [|x l IH]; intros H; cbn; [lra|]. fold (rsum l). assert (0 <= x) by (apply H; cbn; auto). assert (0 <= rsum l) by (apply IH; intros; apply H; cbn; auto). lra. Qed.
Lemma rsum_zero l : (forall x, In x l -> 0 <= x) -> rsum l <= 0 -> forall x, In x l -> x = 0.
Proof.
  induction l as [|x l IH]; intros H S y Hy; [destruct Hy|]. cbn in S. fold (rsum l) in S. assert (X : 0 <= x) by (apply H; cbn; auto).
  assert (L : 0 <= rsum l) by (apply rsum_nonneg; intros; apply H; cbn; auto). destruct Hy as [<-|Hy]; [lra|]. apply IH; auto; [intros; apply H; cbn; auto|lra].
Qed.
Lemma rsum_scale l k : rsum (rscale l k) = k * rsum l.
Proof. induction l as [|x l IH]; cbn; [ring|]. fold (rsum l). fold (rscale l k). fold (rsum (rscale l k)). rewrite IH. ring. Qed.
Lemma In_rscale x l k : In x (rscale l k) -> exists y, x = y * k /\ In y l.
Proof. unfold rscale. intros H. apply in_map_iff in H. destruct H as (y & <- & H). eauto. Qed.

(** * Content *)
Lemma has_nth cs ms i c x : NoDup cs -> nth_error cs i = Some c -> nth_error ms i = Some x ->
  weigh_list (fun d => if string_dec d c then 1 else 0) cs ms = x.
Proof.
  intros N. revert ms i. induction N as [|d cs H N IH]; intros [|m ms] [|i] C Y; try discriminate; cbn [nth_error] in *; rewrite weigh_cons.
  - injection C as ->. injection Y as ->. destruct (string_dec c c); [|congruence].
    replace (weigh_list _ cs ms) with 0; [ring|]. symmetry. rewrite (weigh_ext _ (fun _ => 0 * 0)).
    + rewrite (weigh_mul 0). ring. + intros d He. destruct (string_dec d c); [subst; contradiction|ring].
  - rewrite (IH ms i); auto. destruct (string_dec d c); [|ring]. subst. exfalso. apply H. eapply nth_error_In; eauto.
Qed.
Lemma get_compound_mass_has p c : wf p -> get_compound_mass p c = Ok (has p c).
Proof.
  intros [N L]. unfold get_compound_mass, has, weigh. destruct (member string_dec c (tm_compounds (tp_material p))) eqn:M.
  - apply member_In in M. destruct (index_total string_dec _ _ M) as [i E]. unfold get_compound_index. rewrite E. cbn [bind]. apply index_ok in E. destruct E as [E _].
    unfold get. destruct (nth_error (tp_masses p) i) as [x|] eqn:X. + f_equal. symmetry. eapply has_nth; eauto.
    + apply nth_error_None in X. assert (i < length (tm_compounds (tp_material p)))%nat by (apply nth_error_Some; congruence). lia.
  - apply member_not in M. f_equal. symmetry. rewrite (weigh_ext _ (fun _ => 0 * 0)). + rewrite (weigh_mul 0). ring. + intros d Hd. destruct (string_dec d c); [subst; contradiction|ring].
Qed.

(** * Enthalpy *)
Lemma known_H db m c T x : known db m -> In c (tm_compounds m) -> thermo_H db c T x = Ok (specific_H db c T * x).
Proof.
  intros K I. destruct (K c T I) as [v E]. unfold specific_H, thermo_H in *. rewrite E. cbn [value]. rewrite (thermo_linear _ _ _ _ x v E). f_equal. ring.
Qed.
Lemma sum_H_ok db m ms T : known db m -> NoDup (tm_compounds m) -> length ms = length (tm_compounds m) ->
  sum_H db m ms T = Ok (weigh_list (fun c => specific_H db c T) (tm_compounds m) ms).
Proof.
  intros K N L. unfold sum_H, get_compound_index.
  assert (G : forall suf msuf pre mpre a, tm_compounds m = pre ++ suf -> ms = mpre ++ msuf -> length pre = length mpre -> length suf = length msuf ->
    foldM (fun H c => do i <- index_of string_dec c (tm_compounds m); do x <- get ms i; do dH <- thermo_H db c T x; Ok (H + dH)) suf a
      = Ok (a + weigh_list (fun c => specific_H db c T) suf msuf)).
  { induction suf as [|c suf IH]; intros [|x msuf] pre mpre a E1 E2 L1 L2; try discriminate; cbn [foldM].
    - unfold weigh_list. cbn. f_equal. ring.
    - assert (Nc : nth_error (tm_compounds m) (length pre) = Some c) by (rewrite E1; apply nth_at).
      rewrite (index_nth string_dec _ (length pre) c N Nc). cbn [bind]. unfold get. rewrite E2, L1, nth_at. cbn [bind].
      rewrite (known_H db m) by (auto; eapply nth_error_In; eauto). cbn [bind].
      rewrite <- E2 . rewrite (IH msuf (pre ++ [c]) (mpre ++ [x])).
      + rewrite weigh_cons. f_equal. ring. + now rewrite <- app_assoc. + now rewrite <- app_assoc. + rewrite !app_length. cbn. congruence. + cbn in L2. congruence. }
  rewrite (G (tm_compounds m) ms [] []); auto. f_equal. ring.
Qed.
Lemma calculate_H_ok db p T : known db (tp_material p) -> wf p -> tp_coal p = false -> calculate_H db p T = Ok (enthalpy db p T).
Proof. intros K [N L] C. unfold calculate_H. rewrite C. now apply sum_H_ok. Qed.

Lemma new_package_ok db m ms P T : known db m -> NoDup (tm_compounds m) -> length ms = length (tm_compounds m) ->
  exists p, new_package db m ms P T false None = Ok p /\ tp_material p = m /\ tp_masses p = ms /\ tp_P p = P /\ tp_T p = T /\ tp_coal p = false /\ tp_HHV p = None /\
    (0 < rsum ms \/ (forall x, In x ms -> 0 <= x) -> consistent db p).
Proof.
  intros K N L. unfold new_package. destruct (Rlt_dec 0 (rsum ms)) as [H|H].
  - rewrite calculate_H_ok; auto; [|split; auto]. cbn [bind]. eexists. split; [reflexivity|]. cbn. repeat split; auto.
  - eexists. split; [reflexivity|]. cbn. repeat (split; [reflexivity|]). intros [X|X]; [lra|]. unfold consistent, enthalpy, weigh. cbn. symmetry. apply weigh_zero. apply rsum_zero; auto. lra.
Qed.
Lemma set_T_ok db p T : known db (tp_material p) -> wf p -> tp_coal p = false -> set_T db p T = (set_TH p T (enthalpy db p T), Ok tt).
Proof. intros K W C. unfold set_T. rewrite calculate_H_ok; auto. Qed.

Lemma add_pair_ok db p c x : known db (tp_material p) -> wf p -> In c (tm_compounds (tp_material p)) ->
  exists r, add_pair db p c x = Ok r /\ tp_material r = tp_material p /\ wf r /\ tp_P r = tp_P p /\ tp_T r = tp_T p /\ tp_coal r = tp_coal p /\ tp_HHV r = tp_HHV p /\
    tp_H r = tp_H p + specific_H db c (tp_T p) * x /\ (forall w, weigh w r = weigh w p + w c * x) /\ (not_negative p -> 0 <= x -> not_negative r).
Proof.
  intros K [N L] I. unfold add_pair, get_compound_index. destruct (index_total string_dec _ _ I) as [i E]. rewrite E. cbn [bind]. apply index_ok in E. destruct E as [E _].
  rewrite (known_H db (tp_material p)) by auto. cbn [bind]. assert (Li : (i < length (tp_masses p))%nat) by (rewrite L; apply nth_error_Some; congruence).
  unfold get. destruct (nth_error (tp_masses p) i) as [y|] eqn:Y; [|apply nth_error_None in Y; lia]. cbn [bind]. destruct (set_nth_ok (tp_masses p) i (y + x) Li) as [r R]. rewrite R. cbn [bind].
  eexists. split; [reflexivity|]. cbn [tp_material set_TH set_masses tp_masses tp_P tp_T tp_H tp_coal tp_HHV]. split; [reflexivity|].
  assert (Lr : length r = length (tp_masses p)) by (eapply (set_nth_weigh (fun _ => 1)); eauto).
  split; [split; cbn; congruence|]. do 4 (split; [reflexivity|]). split; [reflexivity|]. split.
  - intros w. unfold weigh. cbn. destruct (set_nth_weigh w _ c i _ y (y + x) r (eq_sym L) E Y R) as [A _]. rewrite A. ring.
  - intros Nn X z Hz. cbn in Hz. destruct (set_nth_split _ _ _ _ _ R Y) as (u & v & Eu & Er & _). rewrite Er in Hz. rewrite in_app_iff in Hz. cbn in Hz.
    assert (0 <= y) by (apply Nn; rewrite Eu; apply in_or_app; cbn; auto).
    destruct Hz as [Hz|[<-|Hz]]; [apply Nn; rewrite Eu; apply in_or_app; auto|lra|apply Nn; rewrite Eu; apply in_or_app; cbn; auto].
Qed.

(** * Setters *)
Lemma set_H_shape db p H r : finish (set_H db p H) = Ok r -> exists T, r = set_TH p T H /\ calculate_T db (set_TH p (tp_T p) H) H = Ok T.
Proof.
  unfold finish, set_H. destruct (calculate_T db (set_TH p (tp_T p) H) H) as [T|e] eqn:E; cbn [snd fst bind]; [|discriminate]. intros X. injection X as <-. exists T. auto.
Qed.
Lemma set_H_coal db p H r : finish (set_H db p H) = Ok r -> tp_coal p = false.
Proof.
  intros X. apply set_H_shape in X. destruct X as (T & _ & X). unfold calculate_T, find_T in X. destruct (tp_coal p) eqn:C; auto. exfalso.
  unfold calculate_H in X. cbn [tp_coal set_TH] in X. rewrite C in X. cbn [bind] in X. discriminate.
Qed.
Lemma weigh_set_TH w p T H : weigh w (set_TH p T H) = weigh w p. Proof. reflexivity. Qed.
Lemma wf_set_TH p T H : wf (set_TH p T H) <-> wf p. Proof. reflexivity. Qed.

(** The masses of distinct compounds are the package. *)
Fixpoint over (l : list string) (f : string -> R) : R := match l with [] => 0 | c :: l' => f c + over l' f end.
Lemma over_ext l f g : (forall c, In c l -> f c = g c) -> over l f = over l g.
Proof. induction l as [|c l IH]; intros H; cbn; auto. rewrite H, IH; cbn; auto. intros; apply H; cbn; auto. Qed.
Lemma over_weigh w cs ms : NoDup cs -> length ms = length cs ->
  over cs (fun c => w c * weigh_list (fun d => if string_dec d c then 1 else 0) cs ms) = weigh_list w cs ms.
Proof.
  intros N. revert ms. induction N as [|c cs H N IH]; intros [|m ms] L; try discriminate; auto. cbn [over]. rewrite !weigh_cons. destruct (string_dec c c); [|congruence].
  replace (weigh_list (fun d => if string_dec d c then 1 else 0) cs ms) with 0.
  - rewrite (over_ext cs _ (fun d => w d * weigh_list (fun e => if string_dec e d then 1 else 0) cs ms)).
    + rewrite IH by (cbn in L; congruence). ring.
    + intros d Hd. rewrite weigh_cons. destruct (string_dec c d); [subst; contradiction|]. ring.
  - symmetry. rewrite (weigh_ext _ (fun _ => 0 * 0)). + rewrite (weigh_mul 0). ring. + intros d He. destruct (string_dec d c); [subst; contradiction|ring].
Qed.
Lemma over_has w p : wf p -> over (tm_compounds (tp_material p)) (fun c => w c * has p c) = weigh w p.
Proof. intros [N L]. unfold has, weigh. now apply over_weigh. Qed.

(** * Addition *)
Lemma add_each_ok db p o cs : known db (tp_material p) -> wf o -> forall r0 r, wf r0 -> tp_material r0 = tp_material p ->
  foldM (fun r c => if negb (member string_dec c (tm_compounds (tp_material p))) then Err PyException else
             do x <- get_compound_mass o c; add_pair db r c x) cs r0 = Ok r ->
  wf r /\ tp_material r = tp_material p /\ tp_P r = tp_P r0 /\ tp_T r = tp_T r0 /\ tp_coal r = tp_coal r0 /\ incl cs (tm_compounds (tp_material p)) /\
  forall w, weigh w r = weigh w r0 + over cs (fun c => w c * has o c).
Proof.
  intros K Wo. induction cs as [|c cs IH]; intros r0 r W M H; cbn [foldM] in H.
  - injection H as <-. do 5 (split; auto). split; [intros ? []|]. intros w. cbn. ring.
  - destruct (member string_dec c (tm_compounds (tp_material p))) eqn:I; cbn [negb bind] in H; [|discriminate]. apply member_In in I.
    rewrite (get_compound_mass_has o c Wo) in H. cbn [bind] in H. rewrite <- M in K, I.
    destruct (add_pair_ok db r0 c (has o c) K W I) as (r1 & E & M1 & W1 & P1 & T1 & C1 & _ & _ & V1 & _). rewrite E in H. cbn [bind] in H. rewrite M in I.
    destruct (IH r1 r W1) as (A & B & C & D & F & G & Hw); [congruence|exact H|]. split; auto. split; auto. split; [congruence|]. split; [congruence|]. split; [congruence|].
    split; [intros d [<-|Hd]; auto|]. intros w. rewrite Hw, V1. cbn [over]. ring.
Qed.
Lemma add_package_ok db p o r : known db (tp_material p) -> wf p -> wf o -> (tm_id (tp_material p) = tm_id (tp_material o) -> tp_material o = tp_material p) ->
  add db p (APackage o) = Ok r ->
  tp_material r = tp_material p /\ wf r /\ tp_P r = tp_P p /\ tp_H r = tp_H p + tp_H o /\ (forall w, weigh w r = weigh w p + weigh w o).
Proof.
  intros K Wp Wo S H. unfold add in H. destruct (tm_id (tp_material p) =? tm_id (tp_material o))%Z eqn:I.
  - apply Z.eqb_eq in I. specialize (S I). destruct Wp as [N L], Wo as [N' L']. destruct (radd_ok (tp_masses p) (tp_masses o)) as (ms & E & Lm); [congruence|]. rewrite E in H. cbn [bind] in H.
    destruct (new_package_ok db (tp_material p) ms 1 25 K N) as (r1 & E1 & M1 & X1 & _ & _ & _ & _ & _); [congruence|]. rewrite E1 in H. cbn [bind] in H.
    destruct (finish (set_H db r1 (tp_H p + tp_H o))) as [r2|e] eqn:F; cbn [bind] in H; [|discriminate]. injection H as <-. apply set_H_shape in F. destruct F as (T & -> & _). cbn.
    split; auto. split; [split; cbn; congruence|]. split; auto. split; auto. intros w. unfold weigh. cbn. rewrite X1, M1, S. now apply weigh_radd.
  - destruct (foldM _ _ p) as [r1|e] eqn:F in H; cbn [bind] in H; [|discriminate]. destruct (add_each_ok db p o _ K Wo p r1 Wp eq_refl F) as (W1 & M1 & P1 & _ & _ & _ & V1).
    apply set_H_shape in H. destruct H as (T & -> & _). cbn. split; auto. split; [exact W1|]. split; auto. split; auto. intros w. rewrite weigh_set_TH, V1, over_has; auto.
Qed.
Lemma mul_ok db p k : known db (tp_material p) -> wf p -> 0 <= k -> exists r, mul db p k = Ok r /\ tp_material r = tp_material p /\ wf r /\ tp_P r = tp_P p /\ tp_T r = tp_T p /\ tp_coal r = false /\
  (forall w, weigh w r = k * weigh w p) /\ (not_negative p -> not_negative r) /\ (not_negative p \/ 0 < k * mass_of p -> consistent db r).
Proof.
  intros K [N L] Hk. unfold mul. destruct (Rlt_dec k 0); [lra|].
  destruct (new_package_ok db (tp_material p) (rscale (tp_masses p) k) (tp_P p) (tp_T p) K N) as (r & E & M & X & P & T & C & _ & Co); [unfold rscale; now rewrite map_length|].
  exists r. split; auto. split; auto. split; [split; [congruence|rewrite M, X; unfold rscale; now rewrite map_length]|]. do 3 (split; auto).
  assert (Nn : not_negative p -> not_negative r). { intros Q x Hx. rewrite X in Hx. apply In_rscale in Hx. destruct Hx as (y & -> & Hy). apply Rmult_le_pos; auto. }
  split; [intros w; unfold weigh; rewrite X, M; apply weigh_scale|]. split; auto. intros [Q|Q]; apply Co.
  - right. rewrite <- X. apply Nn, Q. - left. rewrite rsum_scale. unfold mass_of, weigh in Q. now rewrite weigh_rsum in Q.
Qed.
Lemma add_triple_ok db p c x T r : known db (tp_material p) -> wf p -> add db p (ATriple c x T) = Ok r ->
  In c (tm_compounds (tp_material p)) /\ tp_material r = tp_material p /\ wf r /\ tp_P r = tp_P p /\ tp_H r = tp_H p + specific_H db c T * x /\ (forall w, weigh w r = weigh w p + w c * x).
Proof.
  intros K W H. unfold add in H. cbn [bind] in H. destruct (get_compound_index (tp_material p) c) as [i|e] eqn:E; cbn [bind] in H; [|discriminate].
  apply index_ok in E. destruct E as [E _]. assert (I : In c (tm_compounds (tp_material p))) by (eapply nth_error_In; eauto). split; auto.
  rewrite (known_H db (tp_material p)) in H by auto. cbn [bind] in H. destruct (mul_ok db p 1 K W) as (r1 & E1 & M1 & W1 & P1 & _ & _ & V1 & _ & _); [lra|]. rewrite E1 in H. cbn [bind] in H.
  unfold get in H. destruct (nth_error (tp_masses r1) i) as [y|] eqn:Y; cbn [bind] in H; [|discriminate]. destruct (set_nth (tp_masses r1) i (y + x)) as [ms|] eqn:R; cbn [bind] in H; [|discriminate].
  destruct (finish _) as [r2|e] eqn:F in H; cbn [bind] in H; [|discriminate]. injection H as <-. apply set_H_shape in F. destruct F as (T' & -> & _). cbn.
  destruct W1 as [N1 L1]. rewrite <- M1 in E. assert (A := fun w => set_nth_weigh w _ c i _ y (y + x) ms (eq_sym L1) E Y R).
  split; auto. split; [split; cbn; [congruence|]; rewrite (proj2 (A (fun _ => 1))); congruence|]. split; auto. split; auto. intros w. unfold weigh at 1. cbn. rewrite (proj1 (A w)). fold (weigh w r1). rewrite V1. ring.
Qed.

(** * Extraction *)
Lemma keep_T_ok db p r : known db (tp_material p) -> wf p -> tp_coal p = false -> keep_T db p r = (set_TH p (tp_T p) (enthalpy db p (tp_T p)), r).
Proof. intros K W C. unfold keep_T. rewrite set_T_ok; auto. Qed.
Lemma mass_rsum p : wf p -> mass_of p = get_mass p.
Proof. intros [N L]. unfold mass_of, weigh. now rewrite weigh_rsum. Qed.

Lemma extract_mass_ok db p x : known db (tp_material p) -> wf p -> not_negative p -> tp_coal p = false -> 0 <= x <= mass_of p -> 0 < mass_of p ->
  exists p' r, extract db p (AMass x) = (p', Ok r) /\ tp_material r = tp_material p /\ tp_material p' = tp_material p /\ wf r /\ wf p' /\ not_negative r /\ not_negative p' /\
    tp_P r = tp_P p /\ tp_P p' = tp_P p /\ tp_T r = tp_T p /\ tp_T p' = tp_T p /\ tp_coal p' = false /\ consistent db r /\ consistent db p' /\
    (forall w, weigh w r = x / mass_of p * weigh w p) /\ (forall w, weigh w p' = weigh w p - weigh w r).
Proof.
  intros K W Nn C X M. pose proof (mass_rsum p W) as Em. cbn [extract]. unfold extract_mass. rewrite <- Em. destruct (Rlt_dec (mass_of p) x); [lra|].
  unfold ndiv. destruct (Req_EM_T (mass_of p) 0); [lra|]. set (f := x / mass_of p). assert (Fe : f * mass_of p = x) by (unfold f; field; lra).
  assert (F : 0 <= f <= 1). { split. - unfold f. apply Rmult_le_pos; [lra|]. left. now apply Rinv_0_lt_compat. - apply Rmult_le_reg_r with (mass_of p); lra. }
  destruct W as [N L]. destruct (new_package_ok db (tp_material p) (rscale (tp_masses p) f) (tp_P p) (tp_T p) K N) as (r & E & Mr & Xr & Pr & Tr & Cr & _ & Co); [unfold rscale; now rewrite map_length|].
  rewrite E. assert (W' : wf (set_masses p (rscale (tp_masses p) (1 - f)))) by (split; cbn; [exact N|unfold rscale; now rewrite map_length]).
  assert (Pos : forall k, 0 <= k -> forall y, In y (rscale (tp_masses p) k) -> 0 <= y). { intros k Hk y Hy. apply In_rscale in Hy. destruct Hy as (z & -> & Hz). apply Rmult_le_pos; auto. }
  rewrite keep_T_ok by auto. eexists. eexists. split; [reflexivity|]. cbn. split; auto. split; auto. split; [split; [congruence|rewrite Xr, Mr; unfold rscale; now rewrite map_length]|].
  split; [exact W'|]. split; [intros y Hy; rewrite Xr in Hy; revert y Hy; apply Pos; lra|]. split; [intros y Hy; cbn in Hy; revert y Hy; apply Pos; lra|].
  do 5 (split; auto). split; [apply Co; right; apply Pos; lra|]. split; [reflexivity|].
  assert (V : forall w, weigh w r = f * weigh w p) by (intros w; unfold weigh; rewrite Xr, Mr; apply weigh_scale). split; auto.
  intros w. rewrite V. unfold weigh at 1. cbn. rewrite weigh_scale. fold (weigh w p). ring.
Qed.
Lemma extract_mass_error db p x : wf p -> mass_of p < x -> extract db p (AMass x) = (p, Err PyException).
Proof. intros W H. cbn [extract]. unfold extract_mass. rewrite <- mass_rsum by auto. destruct (Rlt_dec (mass_of p) x); [auto|lra]. Qed.

Lemma empty_ok db m P T : exists r, create_package db m None 0 P T true = Ok r /\ tp_material r = m /\ tp_masses r = create_empty_assay m /\ tp_P r = P /\ tp_T r = T /\ tp_coal r = false /\
  tp_H r = 0 /\ length (tp_masses r) = length (tm_compounds m) /\ forall w, weigh w r = 0.
Proof.
  assert (Z : forall x, In x (create_empty_assay m) -> x = 0) by (intros x; apply repeat_spec).
  assert (Zs : rsum (create_empty_assay m) = 0). { unfold create_empty_assay. generalize (length (tm_compounds m)). intros n. induction n as [|n IH]; cbn; auto. fold (rsum (repeat 0 n)). rewrite IH. ring. }
  unfold create_package, new_package. rewrite Zs. destruct (Rlt_dec 0 0); [lra|]. eexists. split; [reflexivity|]. cbn. do 6 (split; [reflexivity|]). split; [unfold create_empty_assay; now rewrite repeat_length|].
  intros w. unfold weigh. cbn. now apply weigh_zero.
Qed.

Lemma extract_compound_in db p c : known db (tp_material p) -> wf p -> tp_coal p = false -> In c (tm_compounds (tp_material p)) ->
  exists p' r, extract_compound db p c = (p', Ok r) /\ tp_material r = tp_material p /\ tp_material p' = tp_material p /\ wf r /\ wf p' /\ (not_negative p -> not_negative r /\ not_negative p') /\
    tp_P r = tp_P p /\ tp_P p' = tp_P p /\ tp_T r = tp_T p /\ tp_T p' = tp_T p /\ tp_coal p' = false /\ consistent db r /\ consistent db p' /\
    (forall w, weigh w r = w c * has p c) /\ (forall w, weigh w p' = weigh w p - w c * has p c).
Proof.
  intros K W C I. destruct W as [N L]. unfold extract_compound. destruct (empty_ok db (tp_material p) 1 25) as (r0 & E0 & M0 & X0 & _ & _ & C0 & _ & L0 & V0). rewrite E0.
  assert (Im : member string_dec c (tm_compounds (tp_material p)) = true) by (now apply member_In). rewrite Im. cbn [negb]. unfold get_compound_index.
  destruct (index_total string_dec _ _ I) as [i E]. rewrite E. cbn [bind]. apply index_ok in E. destruct E as [E _].
  assert (Li : (i < length (tp_masses p))%nat) by (rewrite L; apply nth_error_Some; congruence).
  unfold get. destruct (nth_error (tp_masses p) i) as [y|] eqn:Y; [|apply nth_error_None in Y; lia]. cbn [bind].
  assert (Hy : has p c = y) by (unfold has, weigh; eapply has_nth; eauto).
  assert (Li0 : (i < length (tp_masses r0))%nat) by lia. destruct (set_nth_ok (tp_masses r0) i y Li0) as [rs Rs]. rewrite Rs. cbn [bind].
  destruct (nth_error (tp_masses r0) i) as [z|] eqn:Z; [|apply nth_error_None in Z; lia]. assert (z = 0) by (rewrite X0 in Z; apply nth_error_In, repeat_spec in Z; auto). subst z.
  assert (A := fun w => set_nth_weigh w (tm_compounds (tp_material p)) c i _ 0 y rs (eq_sym L0) E Z Rs).
  assert (W0 : wf (set_masses r0 rs)). { split; cbn; rewrite M0; auto. rewrite (proj2 (A (fun _ => 1))). exact L0. }
  rewrite set_T_ok; [|cbn; rewrite M0; auto|auto|auto]. unfold finish at 1. cbn [snd fst bind].
  destruct (set_nth_ok (tp_masses p) i 0 Li) as [ps Ps]. rewrite Ps. cbn [bind]. assert (B := fun w => set_nth_weigh w (tm_compounds (tp_material p)) c i _ y 0 ps (eq_sym L) E Y Ps).
  rewrite keep_T_ok; [|auto|split; cbn; auto; rewrite (proj2 (B (fun _ => 1))); auto|auto].
  eexists. eexists. split; [reflexivity|]. cbn. split; auto. split; auto. split; [exact W0|]. split; [split; cbn; auto; rewrite (proj2 (B (fun _ => 1))); auto|].
  split. { intros Nn. assert (0 <= y) by (apply Nn; eapply nth_error_In; eauto). split; intros a Ha; cbn in Ha.
    - destruct (set_nth_split _ _ _ _ _ Rs Z) as (u & v & Eu & Er & _). rewrite Er in Ha. rewrite in_app_iff in Ha. cbn in Ha.
      assert (Q : forall a, In a u \/ In a v -> a = 0). { intros b Hb. apply (repeat_spec (length (tm_compounds (tp_material p)))). unfold create_empty_assay in X0. rewrite <- X0, Eu. apply in_or_app. cbn. tauto. }
      destruct Ha as [Ha|[<-|Ha]]; auto; rewrite (Q a); auto; lra.
    - destruct (set_nth_split _ _ _ _ _ Ps Y) as (u & v & Eu & Er & _). rewrite Er in Ha. rewrite in_app_iff in Ha. cbn in Ha.
      destruct Ha as [Ha|[<-|Ha]]; [|lra|]; apply Nn; rewrite Eu; apply in_or_app; cbn; auto. }
  do 5 (split; auto). split; [reflexivity|]. split; [reflexivity|]. rewrite Hy. split; intros w; unfold weigh at 1; cbn.
  - rewrite M0, (proj1 (A w)). replace (weigh_list w (tm_compounds (tp_material p)) (tp_masses r0)) with (weigh w r0) by (unfold weigh; now rewrite M0). rewrite V0. ring.
  - rewrite (proj1 (B w)). fold (weigh w p). ring.
Qed.
Lemma extract_compound_absent db p c : ~ In c (tm_compounds (tp_material p)) -> exists r, extract_compound db p c = (p, Ok r) /\ tp_material r = tp_material p /\ forall w, weigh w r = 0.
Proof.
  intros I. unfold extract_compound. destruct (empty_ok db (tp_material p) 1 25) as (r0 & E0 & M0 & _ & _ & _ & _ & _ & _ & V0). rewrite E0.
  destruct (member string_dec c (tm_compounds (tp_material p))) eqn:Im; [apply member_In in Im; contradiction|]. cbn [negb]. exists r0. auto.
Qed.
Lemma extract_pair_ok db p c x : known db (tp_material p) -> wf p -> tp_coal p = false -> In c (tm_compounds (tp_material p)) -> x <= has p c ->
  exists p' r, extract db p (APair c x) = (p', Ok r) /\ tp_material r = tp_material p /\ tp_material p' = tp_material p /\ wf r /\ wf p' /\ (not_negative p -> 0 <= x -> not_negative r /\ not_negative p') /\
    tp_P r = tp_P p /\ tp_P p' = tp_P p /\ tp_T r = tp_T p /\ tp_T p' = tp_T p /\ tp_coal p' = false /\ consistent db r /\ consistent db p' /\
    (forall w, weigh w r = w c * x) /\ (forall w, weigh w p' = weigh w p - w c * x).
Proof.
  intros K W C I X. destruct W as [N L]. cbn [extract]. unfold extract_compound_mass.
  assert (Im : member string_dec c (tm_compounds (tp_material p)) = true) by (now apply member_In). rewrite Im. cbn [negb]. unfold get_compound_index.
  destruct (index_total string_dec _ _ I) as [i E]. rewrite E. cbn [bind]. apply index_ok in E. destruct E as [E _].
  assert (Li : (i < length (tp_masses p))%nat) by (rewrite L; apply nth_error_Some; congruence).
  unfold get. destruct (nth_error (tp_masses p) i) as [y|] eqn:Y; [|apply nth_error_None in Y; lia]. cbn [bind].
  assert (Hy : has p c = y) by (unfold has, weigh; eapply has_nth; eauto). rewrite Hy in X. destruct (Rlt_dec y x); [lra|].
  destruct (set_nth_ok (tp_masses p) i (y - x) Li) as [ps Ps]. rewrite Ps. assert (B := fun w => set_nth_weigh w (tm_compounds (tp_material p)) c i _ y (y - x) ps (eq_sym L) E Y Ps).
  assert (W' : wf (set_masses p ps)) by (split; cbn; auto; rewrite (proj2 (B (fun _ => 1))); auto).
  rewrite keep_T_ok by auto. destruct (empty_ok db (tp_material p) (tp_P p) (tp_T p)) as (r0 & E0 & M0 & X0 & P0 & T0 & C0 & H0 & L0 & V0). rewrite E0. cbn [bind].
  destruct (add_pair_ok db r0 c x) as (r & Er & Mr & Wr & Pr & Tr & Cr & _ & Hr & Vr & Nr); [now rewrite M0|split; rewrite M0; auto|now rewrite M0|]. rewrite Er.
  eexists. eexists. split; [reflexivity|]. cbn. split; [congruence|]. split; auto. split; auto. split; [exact W'|].
  split. { intros Nn X0'. split; [apply Nr; auto; intros a Ha; rewrite X0 in Ha; apply repeat_spec in Ha; lra|]. intros a Ha. cbn in Ha.
    destruct (set_nth_split _ _ _ _ _ Ps Y) as (u & v & Eu & Es & _). rewrite Es in Ha. rewrite in_app_iff in Ha. cbn in Ha.
    destruct Ha as [Ha|[<-|Ha]]; [|lra|]; apply Nn; rewrite Eu; apply in_or_app; cbn; auto. }
  split; [congruence|]. split; auto. split; [congruence|]. split; auto. split; auto.
  split. { unfold consistent, enthalpy. rewrite Hr, Vr, V0, H0, Tr. ring. }
  split; [reflexivity|]. split; intros w. - rewrite Vr, V0. ring. - unfold weigh at 1. cbn. rewrite (proj1 (B w)). fold (weigh w p). ring.
Qed.
Lemma extract_pair_error db p c x : wf p -> In c (tm_compounds (tp_material p)) -> has p c < x -> extract db p (APair c x) = (p, Err PyException).
Proof.
  intros [N L] I X. cbn [extract]. unfold extract_compound_mass.
  assert (Im : member string_dec c (tm_compounds (tp_material p)) = true) by (now apply member_In). rewrite Im. cbn [negb]. unfold get_compound_index.
  destruct (index_total string_dec _ _ I) as [i E]. rewrite E. cbn [bind]. apply index_ok in E. destruct E as [E _].
  assert (Li : (i < length (tp_masses p))%nat) by (rewrite L; apply nth_error_Some; congruence).
  unfold get. destruct (nth_error (tp_masses p) i) as [y|] eqn:Y; [|apply nth_error_None in Y; lia]. cbn [bind].
  assert (Hy : has p c = y) by (unfold has, weigh; eapply has_nth; eauto). rewrite Hy in X. destruct (Rlt_dec y x); [auto|lra].
Qed.
Lemma extract_pair_absent db p c x : ~ In c (tm_compounds (tp_material p)) -> exists r, extract db p (APair c x) = (p, Ok r) /\ tp_material r = tp_material p /\ forall w, weigh w r = 0.
Proof.
  intros I. cbn [extract]. unfold extract_compound_mass. destruct (empty_ok db (tp_material p) 1 25) as (r0 & E0 & M0 & _ & _ & _ & _ & _ & _ & V0). rewrite E0.
  destruct (member string_dec c (tm_compounds (tp_material p))) eqn:Im; [apply member_In in Im; contradiction|]. cbn [negb]. exists r0. auto.
Qed.

Lemma extract_each_ok db cs : forall p r, known db (tp_material p) -> known db (tp_material r) -> wf p -> wf r -> tp_coal p = false -> tp_coal r = false -> NoDup cs -> incl cs (tm_compounds (tp_material r)) ->
  consistent db p ->
  exists p' r', extract_each db p r cs = (p', Ok r') /\ tp_material p' = tp_material p /\ tp_material r' = tp_material r /\ wf p' /\ wf r' /\ tp_T p' = tp_T p /\ tp_T r' = tp_T p /\ tp_P p' = tp_P p /\ tp_P r' = tp_P r /\
    (not_negative p -> not_negative r -> not_negative p' /\ not_negative r') /\ consistent db p' /\ consistent db r' /\
    (forall w, weigh w r' = weigh w r + over cs (fun c => w c * has p c)) /\ (forall w, weigh w p' = weigh w p - over cs (fun c => w c * has p c)).
Proof.
  induction cs as [|c cs IH]; intros p r Kp Kr Wp Wr Cp Cr N I Co; cbn [extract_each].
  - rewrite set_T_ok by auto. unfold finish. cbn [snd fst bind]. eexists. eexists. split; [reflexivity|]. cbn. repeat (split; [solve [auto|reflexivity]|]). split; intros w; rewrite ?weigh_set_TH; ring.
  - inversion N as [|? ? Nc N']; subst. rewrite get_compound_mass_has by auto. cbn [bind].
    assert (Ir : In c (tm_compounds (tp_material r))) by (apply I; cbn; auto).
    destruct (add_pair_ok db r c (has p c) Kr Wr Ir) as (r1 & E1 & M1 & W1 & P1 & T1 & C1 & _ & _ & V1 & N1). rewrite E1.
    assert (I' : incl cs (tm_compounds (tp_material r1))) by (rewrite M1; intros d Hd; apply I; cbn; auto).
    destruct (in_dec string_dec c (tm_compounds (tp_material p))) as [Ip|Ip].
    + destruct (extract_compound_in db p c Kp Wp Cp Ip) as (p1 & r2 & E2 & _ & M2 & _ & W2 & Nn2 & _ & P2 & _ & T2 & C2 & _ & Co2 & _ & V2). rewrite E2.
      destruct (IH p1 r1) as (p' & r' & E & A1 & A2 & A3 & A4 & A5 & A6 & A7 & A8 & A9 & A10 & A11 & A12 & A13); auto; try congruence; [now rewrite M2|now rewrite M1|]. exists p', r'. split; auto.
      assert (O : forall w, over cs (fun d => w d * has p1 d) = over cs (fun d => w d * has p d)).
      { intros w. apply over_ext. intros d Hd. f_equal. unfold has at 1. rewrite V2. destruct (string_dec c d); [subst; contradiction|]. unfold has. ring. }
      split; [congruence|]. split; [congruence|]. split; auto. split; auto. split; [congruence|]. split; [congruence|]. split; [congruence|]. split; [congruence|].
      split. { intros Np Nr. assert (0 <= has p c). { unfold has, weigh. destruct Wp as [Nd L]. destruct (index_total string_dec _ _ Ip) as [i Ei]. apply index_ok in Ei. destruct Ei as [Ei _].
          destruct (nth_error (tp_masses p) i) as [y|] eqn:Y. - rewrite (has_nth _ _ i c y) by auto. apply Np. eapply nth_error_In; eauto.
          - apply nth_error_None in Y. assert (i < length (tm_compounds (tp_material p)))%nat by (apply nth_error_Some; congruence). lia. }
        apply A9; [apply Nn2; auto|apply N1; auto]. }
      split; auto. split; auto. cbn [over]. split; intros w; rewrite ?A12, ?A13, O, ?V1, ?V2; ring.
    + destruct (extract_compound_absent db p c Ip) as (r2 & E2 & _ & _). rewrite E2.
      assert (Hz : has p c = 0). { unfold has, weigh. rewrite (weigh_ext _ (fun _ => 0 * 0)). - rewrite (weigh_mul 0). ring. - intros d Hd. destruct (string_dec d c); [subst; contradiction|ring]. }
      destruct (IH p r1) as (p' & r' & E & A1 & A2 & A3 & A4 & A5 & A6 & A7 & A8 & A9 & A10 & A11 & A12 & A13); auto; try congruence; [now rewrite M1|]. exists p', r'. split; auto.
      split; [congruence|]. split; [congruence|]. split; auto. split; auto. split; [congruence|]. split; [congruence|]. split; [congruence|]. split; [congruence|].
      split; [intros Np Nr; apply A9; auto; apply N1; auto; lra|]. split; auto. split; auto. cbn [over]. split; intros w; rewrite ?A12, ?A13, ?V1, Hz; ring.
Qed.
