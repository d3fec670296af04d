(** Proofs about thermo streams: what every successful operation does to the
    flow rates and enthalpy (coal or not), and that streams that are not coal
    compute what packages compute. *)
From Verif Require Import Prelude M_Stoichiometry M_Lists M_Thermochem M_Coals M_ThermoMat M_Streams Spec_Stoich Spec_Thermo Spec_ThermoMat P_ThermoApi P_Content P_ThermoMat.
From Verif Require P_Secant.
From Coq Require Import Reals Lra.
Local Open Scope list_scope.
Local Open Scope R_scope.

(** * Shapes *)
Lemma with_body_same s : with_body s (s_body s) = s. Proof. now destruct s. Qed.
Lemma with_with s a b : with_body (with_body s a) b = with_body s b. Proof. reflexivity. Qed.
Lemma body_with s b : s_body (with_body s b) = b. Proof. reflexivity. Qed.
Lemma set_TH_twice b T H T' H' : set_TH (set_TH b T H) T' H' = set_TH b T' H'. Proof. reflexivity. Qed.
Lemma calc_TH db s T H : calculate_Hfr db (with_body s (set_TH (s_body s) T H)) = calculate_Hfr db s. Proof. reflexivity. Qed.

Lemma put_Hfr_shape db s H r : done (put_Hfr db s H) = Ok r -> exists T, r = with_body s (set_TH (s_body s) T H) /\ find_T (calculate_Hfr db s) (tp_T (s_body s)) H = Ok T.
Proof.
  unfold done, put_Hfr. rewrite calc_TH. destruct (find_T _ _ _) as [T|e]; cbn [snd fst bind]; [|discriminate]. intros X. injection X as <-. eauto.
Qed.
Lemma put_T_shape db s T r : done (put_T db s T) = Ok r -> exists H, r = with_body s (set_TH (s_body s) T H) /\ calculate_Hfr db s T = Ok H.
Proof. unfold done, put_T. rewrite calc_TH. destruct (calculate_Hfr _ _ _) as [H|e]; cbn [snd fst bind]; [|discriminate]. intros X. injection X as <-. eauto. Qed.
Lemma put_HHV_shape db s h r : done (put_HHV db s h) = Ok r -> s_body r = set_HHV (s_body s) h /\ (tp_coal (s_body s) = false -> r = with_body s (set_HHV (s_body s) h)) /\
  (tp_coal (s_body s) = true -> exists d, s_DH298 r = Some d /\ DH298_coal db (set_HHV (s_body s) h) = Ok d).
Proof.
  unfold done, put_HHV. cbn [tp_coal set_HHV]. destruct (tp_coal (s_body s)); [destruct (DH298_coal _ _) as [d|e] eqn:E|]; cbn [snd fst bind]; try discriminate; intros X; injection X as <-.
  - split; [reflexivity|]. split; [discriminate|]. intros _. exists d. split; reflexivity || auto.
  - split; [reflexivity|]. split; [reflexivity|]. discriminate.
Qed.
Lemma new_stream_shape db m ms P T coal h s : new_stream db m ms P T coal h = Ok s -> exists H, s_body s = mktp m ms P T H coal h /\
  (0 < rsum ms -> calculate_Hfr db s T = Ok H) /\ (rsum ms <= 0 -> H = 0) /\ (coal = true -> exists d, s_DH298 s = Some d /\ DH298_coal db (mktp m ms P T 0 coal h) = Ok d) /\ (coal = false -> s_DH298 s = None).
Proof.
  unfold new_stream. destruct (done _) as [s0|e] eqn:D; cbn [bind]; [|discriminate]. apply put_HHV_shape in D. destruct D as (B & F & C). cbn in B, F, C.
  destruct (Rlt_dec 0 (rsum ms)) as [L|L].
  - destruct (calculate_Hfr db s0 T) as [H|e] eqn:E; cbn [bind]; [|discriminate]. intros X. injection X as <-. exists H. split; [cbn [s_body with_body]; rewrite B; reflexivity|].
    split; [intros _; rewrite calc_TH; exact E|]. split; [intros; lra|]. split; [intros Q; destruct (C Q) as (d & Ed & E2); exists d; auto|]. intros Q. rewrite (F Q). reflexivity.
  - intros X. injection X as <-. exists 0. rewrite B. split; [reflexivity|]. split; [intros; lra|]. split; [auto|]. split; [auto|]. intros Q. rewrite (F Q). reflexivity.
Qed.
Lemma update_shape db s c x r : done (update_HHV db s c x) = Ok r -> (exists h, s_body r = set_HHV (s_body s) h) /\ (tp_coal (s_body s) = false -> r = s).
Proof.
  unfold update_HHV. destruct (tp_coal (s_body s)) eqn:C.
  - destruct (match tp_HHV (s_body s) with Some _ => _ | None => _ end) as [h|e]; [|discriminate]. intros X. apply put_HHV_shape in X. destruct X as (B & _ & _). split; [eauto|discriminate].
  - cbn. intros X. injection X as <-. split; auto. exists (tp_HHV (s_body s)). clear. now destruct (s_body s).
Qed.
(** The changed stream itself when _update_HHV raises. *)
Lemma update_body db s c x : exists h, s_body (fst (update_HHV db s c x)) = set_HHV (s_body s) h.
Proof.
  unfold update_HHV. destruct (tp_coal (s_body s)) eqn:C; [|exists (tp_HHV (s_body s)); cbn; now destruct (s_body s)].
  destruct (match tp_HHV (s_body s) with Some _ => _ | None => _ end) as [h|e]; [|exists (tp_HHV (s_body s)); cbn; now destruct (s_body s)].
  exists (Some h). unfold put_HHV. cbn [tp_coal set_HHV]. rewrite C. destruct (DH298_coal _ _); reflexivity.
Qed.
Lemma weigh_HHV w b h : weigh w (set_HHV b h) = weigh w b. Proof. reflexivity. Qed.
Lemma mfr_mass s : wf (s_body s) -> mass_of (s_body s) = mfr s. Proof. intros W. now rewrite mass_rsum. Qed.

(** * Flow rates of every successful operation *)
Lemma sadd_pair_ok db s c x r : wf (s_body s) -> sadd_pair db s c x = Ok r ->
  In c (tm_compounds (tp_material (s_body s))) /\ tp_material (s_body r) = tp_material (s_body s) /\ wf (s_body r) /\ tp_P (s_body r) = tp_P (s_body s) /\ tp_T (s_body r) = tp_T (s_body s) /\
  tp_coal (s_body r) = tp_coal (s_body s) /\ (exists h, thermo_H db c (tp_T (s_body s)) x = Ok h /\ tp_H (s_body r) = tp_H (s_body s) + h) /\ (forall w, weigh w (s_body r) = weigh w (s_body s) + w c * x).
Proof.
  intros [N L] H. unfold sadd_pair in H. destruct (get_compound_index _ c) as [i|e] eqn:E; cbn [bind] in H; [|discriminate]. apply index_ok in E. destruct E as [E _].
  destruct (thermo_H db c _ x) as [h|e]; cbn [bind] in H; [|discriminate]. unfold get in H. destruct (nth_error (tp_masses (s_body s)) i) as [y|] eqn:Y; cbn [bind] in H; [|discriminate].
  destruct (set_nth _ i _) as [ms|] eqn:R; cbn [bind] in H; [|discriminate]. destruct (done _) as [r1|e] eqn:D in H; cbn [bind] in H; [|discriminate]. injection H as <-.
  apply update_shape in D. destruct D as ((hh & B) & _). cbn [s_body with_body] in B. cbn [s_body with_body]. rewrite B. cbn.
  assert (A := fun w => set_nth_weigh w _ c i _ y (y + x) ms (eq_sym L) E Y R). split; [eapply nth_error_In; eauto|]. split; auto.
  split; [split; cbn; [auto|]; rewrite (proj2 (A (fun _ => 1))); congruence|]. do 3 (split; auto). split; [eauto|]. intros w. unfold weigh at 1. cbn. rewrite (proj1 (A w)). unfold weigh. ring.
Qed.
Lemma sadd_each_ok db s o cs : wf (s_body o) -> forall r0 r, wf (s_body r0) -> tp_material (s_body r0) = tp_material (s_body s) ->
  foldM (fun r c => if negb (member string_dec c (tm_compounds (tp_material (s_body s)))) then Err PyException else
             do x <- get_compound_mfr o c; sadd_pair db r c x) cs r0 = Ok r ->
  wf (s_body r) /\ tp_material (s_body r) = tp_material (s_body s) /\ tp_P (s_body r) = tp_P (s_body r0) /\ tp_T (s_body r) = tp_T (s_body r0) /\ tp_coal (s_body r) = tp_coal (s_body r0) /\
  incl cs (tm_compounds (tp_material (s_body s))) /\ forall w, weigh w (s_body r) = weigh w (s_body r0) + over cs (fun c => w c * has (s_body o) c).
Proof.
  intros Wo. induction cs as [|c cs IH]; intros r0 r W M H; cbn [foldM] in H.
  - injection H as <-. do 5 (split; auto). split; [intros ? []|]. intros w. cbn. ring.
  - destruct (member string_dec c (tm_compounds (tp_material (s_body s)))) eqn:I; cbn [negb bind] in H; [|discriminate]. apply member_In in I.
    unfold get_compound_mfr at 1 in H. rewrite (get_compound_mass_has _ c Wo) in H. cbn [bind] in H. destruct (sadd_pair db r0 c _) as [r1|e] eqn:E; cbn [bind] in H; [|discriminate].
    destruct (sadd_pair_ok db r0 c _ r1 W E) as (_ & M1 & W1 & P1 & T1 & C1 & _ & V1).
    destruct (IH r1 r W1) as (A & B & C & D & F & G & Hw); [congruence|exact H|]. split; auto. split; auto. split; [congruence|]. split; [congruence|]. split; [congruence|].
    split; [intros d [<-|Hd]; auto|]. intros w. rewrite Hw, V1. cbn [over]. ring.
Qed.
Lemma sadd_stream_ok db s o r : wf (s_body s) -> wf (s_body o) -> (tm_id (tp_material (s_body s)) = tm_id (tp_material (s_body o)) -> tp_material (s_body o) = tp_material (s_body s)) ->
  sadd db s (SStream o) = Ok r ->
  tp_material (s_body r) = tp_material (s_body s) /\ wf (s_body r) /\ tp_P (s_body r) = tp_P (s_body s) /\ tp_H (s_body r) = tp_H (s_body s) + tp_H (s_body o) /\
  (forall w, weigh w (s_body r) = weigh w (s_body s) + weigh w (s_body o)) /\
  (tm_id (tp_material (s_body s)) = tm_id (tp_material (s_body o)) -> tp_coal (s_body r) = orb (tp_coal (s_body s)) (tp_coal (s_body o)) /\
     tp_HHV (s_body r) = if orb (tp_coal (s_body s)) (tp_coal (s_body o)) then Some ((heat_value s + heat_value o) / (mfr s + mfr o)) else None).
Proof.
  intros Ws Wo S H. unfold sadd in H. destruct (Z.eqb_spec (tm_id (tp_material (s_body s))) (tm_id (tp_material (s_body o)))) as [I|I].
  - specialize (S I). set (hh := if orb (tp_coal (s_body s)) (tp_coal (s_body o)) then Some ((heat_value s + heat_value o) / (mfr s + mfr o)) else None).
    match type of H with bind ?e _ = _ => assert (Eh : forall k, e = Ok k -> k = hh) end.
    { intros k. unfold hh. destruct (orb _ _); [|congruence]. unfold ndiv. destruct (Req_EM_T _ 0); cbn [bind]; [discriminate|]. intros X. injection X as <-. do 2 f_equal. ring. }
    match type of H with bind ?e _ = _ => destruct e as [k|e'] eqn:Ek; cbn [bind] in H; [|discriminate] end. specialize (Eh k eq_refl). subst k.
    destruct Ws as [N L], Wo as [N' L']. destruct (radd_ok (tp_masses (s_body s)) (tp_masses (s_body o))) as (ms & E & Lm); [congruence|]. rewrite E in H. cbn [bind] in H.
    destruct (new_stream _ _ _ _ _ _ _) as [r1|e] eqn:E1 in H; cbn [bind] in H; [|discriminate]. apply new_stream_shape in E1. destruct E1 as (H1 & B & _).
    destruct (done _) as [r2|e] eqn:F in H; cbn [bind] in H; [|discriminate]. injection H as <-. apply put_Hfr_shape in F. destruct F as (T & -> & _). rewrite B. cbn.
    split; auto. split; [split; cbn; congruence|]. split; auto. split; auto. split; [|auto]. intros w. unfold weigh. cbn. rewrite S. now apply weigh_radd.
  - destruct (foldM _ _ s) as [r1|e] eqn:F in H; cbn [bind] in H; [|discriminate]. destruct (sadd_each_ok db s o _ Wo s r1 Ws eq_refl F) as (W1 & M1 & P1 & _ & C1 & _ & V1).
    apply put_Hfr_shape in H. destruct H as (T & -> & _). cbn. split; auto. split; [exact W1|]. split; auto. split; auto. split; [|intros Q; contradiction]. intros w. rewrite weigh_set_TH, V1, over_has; auto.
Qed.
Lemma smul_ok db s k r : wf (s_body s) -> smul db s k = Ok r -> 0 <= k /\ tp_material (s_body r) = tp_material (s_body s) /\ wf (s_body r) /\ tp_P (s_body r) = tp_P (s_body s) /\ tp_T (s_body r) = tp_T (s_body s) /\
  tp_coal (s_body r) = tp_coal (s_body s) /\ tp_HHV (s_body r) = tp_HHV (s_body s) /\ (forall w, weigh w (s_body r) = k * weigh w (s_body s)).
Proof.
  intros [N L] H. unfold smul in H. destruct (Rlt_dec k 0); [discriminate|]. apply new_stream_shape in H. destruct H as (H0 & B & _). rewrite B. cbn. split; [lra|]. split; auto.
  split; [split; cbn; auto; unfold rscale; now rewrite map_length|]. do 4 (split; auto). intros w. unfold weigh. cbn. apply weigh_scale.
Qed.
Lemma sadd_triple_ok db s c x T r : wf (s_body s) -> sadd db s (STriple c x T) = Ok r ->
  In c (tm_compounds (tp_material (s_body s))) /\ tp_material (s_body r) = tp_material (s_body s) /\ wf (s_body r) /\ tp_P (s_body r) = tp_P (s_body s) /\
  (exists h, thermo_H db c T x = Ok h /\ tp_H (s_body r) = tp_H (s_body s) + h) /\ (forall w, weigh w (s_body r) = weigh w (s_body s) + w c * x).
Proof.
  intros W H. unfold sadd in H. destruct (get_compound_index _ c) as [i|e] eqn:E; cbn [bind] in H; [|discriminate]. apply index_ok in E. destruct E as [E _]. split; [eapply nth_error_In; eauto|].
  destruct (thermo_H db c T x) as [h|e]; cbn [bind] in H; [|discriminate]. destruct (smul db s 1) as [r1|e] eqn:E1; cbn [bind] in H; [|discriminate]. apply smul_ok in E1; auto.
  destruct E1 as (_ & M1 & W1 & P1 & _ & _ & _ & V1).
  unfold get in H. destruct (nth_error (tp_masses (s_body r1)) i) as [y|] eqn:Y; cbn [bind] in H; [|discriminate]. destruct (set_nth (tp_masses (s_body r1)) i (y + x)) as [ms|] eqn:R; cbn [bind] in H; [|discriminate].
  destruct (done _) as [r2|e] eqn:F in H; cbn [bind] in H; [|discriminate]. injection H as <-. apply put_Hfr_shape in F. destruct F as (T' & -> & _). cbn.
  destruct W1 as [N1 L1]. rewrite <- M1 in E. assert (A := fun w => set_nth_weigh w _ c i _ y (y + x) ms (eq_sym L1) E Y R).
  split; auto. split; [split; cbn; [congruence|]; rewrite (proj2 (A (fun _ => 1))); congruence|]. split; auto. split; [eauto|]. intros w. unfold weigh at 1. cbn. rewrite (proj1 (A w)). fold (weigh w (s_body r1)). rewrite V1. ring.
Qed.

(** * Extraction, coal or not *)
Definition same_state (b b' : package) : Prop := tp_material b' = tp_material b /\ tp_P b' = tp_P b /\ tp_T b' = tp_T b /\ tp_coal b' = tp_coal b.
Lemma skeep_ok db s r s' q : skeep_T db s r = (s', Ok q) -> r = Ok q /\ same_state (s_body s) (s_body s') /\ tp_masses (s_body s') = tp_masses (s_body s).
Proof.
  unfold skeep_T, put_T. rewrite calc_TH. destruct (calculate_Hfr _ _ _); cbn [fst snd bind]; intros X; injection X as <- X; [|discriminate]. split; auto. repeat split.
Qed.
Lemma supdate_ok db s c x f s' q : supdate db s c x f = (s', Ok q) -> f s' = Ok q /\ same_state (s_body s) (s_body s') /\ tp_masses (s_body s') = tp_masses (s_body s).
Proof.
  unfold supdate. destruct (update_HHV db s c x) as [s1 [u|e]] eqn:U; [|discriminate]. destruct (update_body db s c x) as (h & B). rewrite U in B. cbn in B.
  unfold put_T. rewrite calc_TH. destruct (calculate_Hfr _ _ _); cbn [fst snd bind]; intros X; injection X as <- X; [|discriminate]. split; auto. cbn. rewrite B. repeat split.
Qed.
Lemma semp db m P T r : create_stream db m None 0 P T true = Ok r -> tp_material (s_body r) = m /\ tp_masses (s_body r) = create_empty_assay m /\ tp_P (s_body r) = P /\ tp_T (s_body r) = T /\ tp_H (s_body r) = 0 /\
  tp_coal (s_body r) = false /\ s_DH298 r = None /\ length (tp_masses (s_body r)) = length (tm_compounds m) /\ forall w, weigh w (s_body r) = 0.
Proof.
  unfold create_stream. intros H. apply new_stream_shape in H. destruct H as (H0 & B & _ & Z & _ & D). rewrite B. cbn.
  assert (Zs : rsum (create_empty_assay m) = 0). { unfold create_empty_assay. generalize (length (tm_compounds m)). intros n. induction n as [|n IH]; cbn; auto. fold (rsum (repeat 0 n)). rewrite IH. ring. }
  do 4 (split; auto). split; [apply Z; lra|]. split; auto. split; auto. split; [unfold create_empty_assay; now rewrite repeat_length|]. intros w. unfold weigh. cbn. apply weigh_zero. intros x. apply repeat_spec.
Qed.
Lemma sextract_mfr_ok db s x s' r : wf (s_body s) -> sextract db s (SMfr x) = (s', Ok r) ->
  x <= mfr s /\ mass_of (s_body r) = x /\ tp_material (s_body r) = tp_material (s_body s) /\ same_state (s_body s) (s_body s') /\ wf (s_body r) /\ wf (s_body s') /\ tp_T (s_body r) = tp_T (s_body s) /\ tp_P (s_body r) = tp_P (s_body s) /\
  tp_coal (s_body r) = false /\
  (forall w, weigh w (s_body r) = x / mfr s * weigh w (s_body s)) /\ (forall w, weigh w (s_body r) + weigh w (s_body s') = weigh w (s_body s)).
Proof.
  intros W H. cbn [sextract] in H. unfold sextract_mfr in H. destruct (Rlt_dec (mfr s) x); [discriminate|]. unfold ndiv in H. destruct (Req_EM_T (mfr s) 0) as [|Z]; [discriminate|].
  destruct (new_stream _ _ _ _ _ _ _) as [r1|e] eqn:E in H; [|discriminate]. apply new_stream_shape in E. destruct E as (H0 & B & _). apply skeep_ok in H. destruct H as (Er & Ss & Sm). injection Er as <-.
  destruct W as [N L]. cbn in Ss, Sm. assert (V : forall w, weigh w (s_body r1) = x / mfr s * weigh w (s_body s)) by (intros w; rewrite B; unfold weigh; cbn; apply weigh_scale).
  split; [lra|]. split; [unfold mass_of; rewrite V; fold (mass_of (s_body s)); rewrite mfr_mass by (split; auto); field; auto|]. rewrite B. cbn. split; auto. split; [exact Ss|].
  destruct Ss as (S1 & S2 & S3 & S4). cbn in *.
  split; [split; cbn; auto; unfold rscale; now rewrite map_length|]. split; [split; [now rewrite S1|rewrite Sm, S1; unfold rscale; now rewrite map_length]|]. do 3 (split; auto). rewrite B in V. split; auto.
  intros w. rewrite V. unfold weigh at 2. rewrite S1, Sm. rewrite weigh_scale. fold (weigh w (s_body s)). ring.
Qed.
Lemma sextract_compound_ok db s c s' r : wf (s_body s) -> In c (tm_compounds (tp_material (s_body s))) -> sextract_compound db s c = (s', Ok r) ->
  tp_material (s_body r) = tp_material (s_body s) /\ same_state (s_body s) (s_body s') /\ wf (s_body r) /\ wf (s_body s') /\ tp_T (s_body r) = tp_T (s_body s) /\ tp_P (s_body r) = tp_P (s_body s) /\ tp_coal (s_body r) = false /\
  (forall w, weigh w (s_body r) = w c * has (s_body s) c) /\ (forall w, weigh w (s_body r) + weigh w (s_body s') = weigh w (s_body s)).
Proof.
  intros W I H. unfold sextract_compound in H. destruct (create_stream _ _ _ _ _ _ _) as [r0|e] eqn:E0 in H; [|discriminate]. apply semp in E0. destruct E0 as (M0 & X0 & P0 & T0 & H0 & C0 & D0 & L0 & V0).
  pose proof I as I'. apply (member_In string_dec) in I'. rewrite I' in H. cbn [negb] in H. destruct (get_compound_index _ c) as [i|e] eqn:E; cbn [bind] in H; [|discriminate]. apply index_ok in E. destruct E as [E _].
  unfold get in H. destruct (nth_error (tp_masses (s_body s)) i) as [x|] eqn:Y; cbn [bind] in H; [|discriminate]. destruct (set_nth (tp_masses (s_body r0)) i x) as [rs|] eqn:R; cbn [bind] in H; [|discriminate].
  destruct (done _) as [r1|e] eqn:D in H; cbn [bind] in H; [|discriminate]. apply put_T_shape in D. destruct D as (H1 & -> & _). cbn [s_body with_body] in H.
  destruct (set_nth (tp_masses (s_body s)) i 0) as [ms|] eqn:Rs; cbn [bind] in H; [|discriminate]. apply supdate_ok in H. destruct H as (Er & Ss & Sm). injection Er as <-. cbn in Ss, Sm.
  destruct W as [N L]. destruct Ss as (S1 & S2 & S3 & S4). cbn in S1, S2, S3, S4.
  assert (Y0 : exists z, nth_error (tp_masses (s_body r0)) i = Some z /\ z = 0). { rewrite X0. assert (Li : (i < length (tm_compounds (tp_material (s_body s))))%nat) by (apply nth_error_Some; congruence).
    unfold create_empty_assay. destruct (nth_error (repeat 0 (length (tm_compounds (tp_material (s_body s))))) i) as [z|] eqn:Ez; [|apply nth_error_None in Ez; rewrite repeat_length in Ez; lia]. exists z. split; auto. apply nth_error_In in Ez. now apply repeat_spec in Ez. }
  destruct Y0 as (z & Y0 & ->). assert (E' := E). rewrite <- M0 in E'. assert (L0' : length (tm_compounds (tp_material (s_body r0))) = length (tp_masses (s_body r0))) by congruence.
  assert (A := fun w => set_nth_weigh w _ c i _ 0 x rs L0' E' Y0 R). assert (B := fun w => set_nth_weigh w _ c i _ x 0 ms (eq_sym L) E Y Rs).
  assert (Hc : has (s_body s) c = x) by (unfold has, weigh; eapply has_nth; eauto).
  assert (V : forall w, weigh_list w (tm_compounds (tp_material (s_body r0))) rs = w c * has (s_body s) c). { intros w. rewrite (proj1 (A w)). fold (weigh w (s_body r0)). rewrite V0, Hc. ring. }
  cbn. split; auto. split; [repeat split; auto|]. split; [split; cbn; [rewrite M0; auto|rewrite (proj2 (A (fun _ => 1))); congruence]|].
  split; [split; [now rewrite S1|rewrite Sm, S1, (proj2 (B (fun _ => 1))); auto]|]. do 3 (split; auto). split; [intros w; apply V|].
  intros w. unfold weigh at 1 2. cbn. rewrite V, S1, Sm, (proj1 (B w)), Hc. unfold weigh. ring.
Qed.
Lemma sextract_pair_ok db s c x s' r : wf (s_body s) -> In c (tm_compounds (tp_material (s_body s))) -> sextract db s (SPair c x) = (s', Ok r) ->
  x <= has (s_body s) c /\ tp_material (s_body r) = tp_material (s_body s) /\ same_state (s_body s) (s_body s') /\ wf (s_body r) /\ wf (s_body s') /\ tp_T (s_body r) = tp_T (s_body s) /\ tp_P (s_body r) = tp_P (s_body s) /\ tp_coal (s_body r) = false /\
  (forall w, weigh w (s_body r) = w c * x) /\ (forall w, weigh w (s_body r) + weigh w (s_body s') = weigh w (s_body s)).
Proof.
  intros W I H. cbn [sextract] in H. unfold sextract_compound_mfr in H. pose proof I as I'. apply (member_In string_dec) in I'. rewrite I' in H. cbn [negb] in H.
  destruct (get_compound_index _ c) as [i|e] eqn:E; cbn [bind] in H; [|discriminate]. apply index_ok in E. destruct E as [E _].
  unfold get in H. destruct (nth_error (tp_masses (s_body s)) i) as [y|] eqn:Y; cbn [bind] in H; [|discriminate]. destruct (Rlt_dec y x) as [|Lx]; [discriminate|].
  destruct (set_nth (tp_masses (s_body s)) i (y - x)) as [ms|] eqn:Rs; [|discriminate]. apply supdate_ok in H. destruct H as (Er & Ss & Sm). cbn in Ss, Sm.
  destruct (create_stream _ _ _ _ _ _ _) as [r0|e] eqn:E0 in Er; cbn [bind] in Er; [|discriminate]. apply semp in E0. destruct E0 as (M0 & X0 & P0 & T0 & H0 & C0 & D0 & L0 & V0).
  destruct W as [N L]. assert (W0 : wf (s_body r0)) by (split; [now rewrite M0|rewrite L0; congruence]).
  destruct (sadd_pair_ok db r0 c x r W0 Er) as (_ & M1 & W1 & P1 & T1 & C1 & _ & V1). destruct Ss as (S1 & S2 & S3 & S4). cbn in S1, S2, S3, S4.
  assert (Hc : has (s_body s) c = y) by (unfold has, weigh; eapply has_nth; eauto).
  assert (B := fun w => set_nth_weigh w _ c i _ y (y - x) ms (eq_sym L) E Y Rs).
  split; [rewrite Hc; lra|]. split; [congruence|]. split; [repeat split; auto|]. split; auto. split; [split; [now rewrite S1|rewrite Sm, S1, (proj2 (B (fun _ => 1))); auto]|].
  split; [congruence|]. split; [congruence|]. split; [congruence|]. assert (V : forall w, weigh w (s_body r) = w c * x) by (intros w; rewrite V1, V0; ring). split; auto.
  intros w. rewrite V. unfold weigh at 1. rewrite S1, Sm, (proj1 (B w)). unfold weigh. ring.
Qed.

(** * Streams that are not coal compute what packages compute *)
Definition plain (s : stream) : Prop := tp_coal (s_body s) = false.
Definition bare (p : package) : stream := mks p None.
Definition lift (s : stream) (x : package * res package) : stream * res stream := (with_body s (fst x), do p <- snd x; Ok (bare p)).
Lemma sim_calc db s T : plain s -> calculate_Hfr db s T = calculate_H db (s_body s) T.
Proof. unfold plain, calculate_Hfr, calculate_H. now intros ->. Qed.
Lemma find_T_ext f g T H : (forall x, f x = g x) -> find_T f T H = find_T g T H.
Proof. intros E. destruct (P_Secant.find_T_points g T H) as (l & _ & Q). apply Q. auto. Qed.
Lemma sim_put_Hfr db s H : plain s -> put_Hfr db s H = (with_body s (fst (set_H db (s_body s) H)), snd (set_H db (s_body s) H)).
Proof.
  intros C. unfold put_Hfr, set_H, calculate_T. rewrite calc_TH. rewrite (find_T_ext _ (calculate_H db (s_body s))) by (intros; now apply sim_calc).
  change (calculate_H db (set_TH (s_body s) (tp_T (s_body s)) H)) with (calculate_H db (s_body s)). cbn [tp_T set_TH]. destruct (find_T _ _ _); reflexivity.
Qed.
Lemma sim_put_T db s T : plain s -> put_T db s T = (with_body s (fst (set_T db (s_body s) T)), snd (set_T db (s_body s) T)).
Proof.
  intros C. unfold put_T, set_T. rewrite calc_TH, sim_calc by auto. change (calculate_H db (set_TH (s_body s) T (tp_H (s_body s))) T) with (calculate_H db (s_body s) T). destruct (calculate_H _ _ _); reflexivity.
Qed.
Lemma sim_new db m ms P T h : new_stream db m ms P T false h = do p <- new_package db m ms P T false h; Ok (bare p).
Proof.
  unfold new_stream, new_package, done, put_HHV. cbn [s_body tp_coal set_HHV snd fst bind]. destruct (Rlt_dec 0 (rsum ms)); [|reflexivity].
  rewrite sim_calc by reflexivity. cbn [s_body with_body set_HHV tp_material tp_masses tp_P tp_T tp_H tp_coal tp_HHV]. destruct (calculate_H _ _ _); reflexivity.
Qed.
Lemma sim_create db m n f P T norm : (forall a, n = Some a -> is_coal m a = Ok false) -> create_stream db m n f P T norm = do p <- create_package db m n f P T norm; Ok (bare p).
Proof.
  unfold create_stream, create_package. destruct n as [a|]; intros C; [|apply sim_new]. rewrite (C a eq_refl).
  destruct (if norm then get_assay_total m a else Ok 1); cbn [bind]; [|reflexivity]. destruct (find_assay m a); cbn [bind]; [|reflexivity]. destruct (mapM _ _); cbn [bind]; [|reflexivity].
  destruct (get_HHV m a); cbn [bind]; [|reflexivity]. apply sim_new.
Qed.
Lemma sim_pair db s c x : plain s -> sadd_pair db s c x = do p <- add_pair db (s_body s) c x; Ok (with_body s p).
Proof.
  intros C. unfold sadd_pair, add_pair. destruct (get_compound_index _ c); cbn [bind]; [|reflexivity]. destruct (thermo_H _ _ _ _); cbn [bind]; [|reflexivity].
  destruct (get _ _); cbn [bind]; [|reflexivity]. destruct (set_nth _ _ _); cbn [bind]; [|reflexivity]. unfold update_HHV. cbn [s_body with_body set_masses tp_coal]. unfold plain in C. rewrite C. reflexivity.
Qed.
Lemma sim_each db s o cs : forall r0, plain r0 ->
  foldM (fun r c => if negb (member string_dec c (tm_compounds (tp_material (s_body s)))) then Err PyException else do x <- get_compound_mfr o c; sadd_pair db r c x) cs r0
  = do p <- foldM (fun r c => if negb (member string_dec c (tm_compounds (tp_material (s_body s)))) then Err PyException else do x <- get_compound_mass (s_body o) c; add_pair db r c x) cs (s_body r0); Ok (with_body r0 p).
Proof.
  induction cs as [|c cs IH]; intros r0 C; cbn [foldM]; [cbn; now rewrite with_body_same|]. destruct (negb _); [reflexivity|]. unfold get_compound_mfr at 1. destruct (get_compound_mass _ c); cbn [bind]; [|reflexivity].
  rewrite sim_pair by auto. destruct (add_pair db (s_body r0) c a) as [p|] eqn:E; cbn [bind]; [|reflexivity]. rewrite IH; [reflexivity|]. unfold plain in *. cbn.
  unfold add_pair in E. destruct (get_compound_index _ c); cbn [bind] in E; [|discriminate]. destruct (thermo_H _ _ _ _); cbn [bind] in E; [|discriminate]. destruct (get _ _); cbn [bind] in E; [|discriminate]. destruct (set_nth _ _ _); cbn [bind] in E; [|discriminate]. injection E as <-. exact C.
Qed.
Lemma foldM_plain db s o cs p0 p : foldM (fun r c => if negb (member string_dec c (tm_compounds (tp_material (s_body s)))) then Err PyException else do x <- get_compound_mass (s_body o) c; add_pair db r c x) cs p0 = Ok p -> tp_coal p = tp_coal p0.
Proof.
  revert p0. induction cs as [|c cs IH]; intros p0 H; cbn [foldM] in H; [now injection H as <-|]. destruct (negb _); cbn [bind] in H; [discriminate|]. destruct (get_compound_mass _ c); cbn [bind] in H; [|discriminate].
  destruct (add_pair db p0 c a) as [p1|] eqn:E; cbn [bind] in H; [|discriminate]. rewrite (IH p1 H).
  unfold add_pair in E. destruct (get_compound_index _ c); cbn [bind] in E; [|discriminate]. destruct (thermo_H _ _ _ _); cbn [bind] in E; [|discriminate]. destruct (get _ _); cbn [bind] in E; [|discriminate]. destruct (set_nth _ _ _); cbn [bind] in E; [|discriminate]. now injection E as <-.
Qed.
Definition on_body {A} (s : stream) (x : res A) (f : A -> package) : res stream := do a <- x; Ok (with_body s (f a)).
Lemma new_package_plain db m ms P T h p : new_package db m ms P T false h = Ok p -> tp_coal p = false.
Proof. unfold new_package. destruct (Rlt_dec _ _); [destruct (calculate_H _ _ _); cbn [bind]; [|discriminate]|]; intros X; now injection X as <-. Qed.
(** Adding streams that are not coal: the body is the sum of the bodies. *)
Lemma sim_add db s o : plain s -> plain o -> exists d, sadd db s (SStream o) = do p <- add db (s_body s) (APackage (s_body o)); Ok (mks p d).
Proof.
  intros Cs Co. unfold sadd, add. destruct (_ =? _)%Z.
  - exists None. unfold plain in *. rewrite Cs, Co. cbn [orb bind]. destruct (radd _ _) as [ms|]; cbn [bind]; [|reflexivity]. rewrite sim_new.
    destruct (new_package _ _ _ _ _ _ _) as [p|] eqn:E; cbn [bind]; [|reflexivity]. apply new_package_plain in E. unfold done. rewrite sim_put_Hfr by exact E. cbn [s_body bare fst snd]. unfold finish.
    destruct (set_H db p _) as [q [u|e]]; reflexivity.
  - exists (s_DH298 s). rewrite sim_each by auto. destruct (foldM _ _ (s_body s)) as [p|] eqn:E; cbn [bind]; [|reflexivity]. apply foldM_plain in E. unfold done. rewrite sim_put_Hfr by (unfold plain in *; cbn; congruence).
    cbn [s_body with_body fst snd]. unfold finish. destruct (set_H db p _) as [q [u|e]]; reflexivity.
Qed.
Lemma sim_keep db s r : plain s -> skeep_T db s (do p <- r; Ok (bare p)) = lift s (keep_T db (s_body s) r).
Proof. intros C. unfold skeep_T, keep_T, lift. rewrite sim_put_T by auto. cbn [fst snd]. destruct (snd (set_T _ _ _)); reflexivity. Qed.
Lemma set_T_coal db p T : tp_coal (fst (set_T db p T)) = tp_coal p /\ tp_T (fst (set_T db p T)) = T /\ tp_P (fst (set_T db p T)) = tp_P p /\ tp_material (fst (set_T db p T)) = tp_material p.
Proof. unfold set_T. destruct (calculate_H _ _ _); cbn; auto. Qed.
Lemma sim_extract_mfr db s x : plain s -> sextract db s (SMfr x) = lift s (extract db (s_body s) (AMass x)).
Proof.
  intros C. cbn [sextract extract]. unfold sextract_mfr, extract_mass, mfr, get_mass, lift. destruct (Rlt_dec _ x); [cbn; now rewrite with_body_same|].
  destruct (ndiv x _) as [f|]; [|cbn; now rewrite with_body_same]. rewrite sim_new. destruct (new_package _ _ _ _ _ _ _) as [p|]; cbn [bind]; [|cbn; now rewrite with_body_same].
  change (Ok (bare p)) with (do q <- Ok p; Ok (bare q)). rewrite sim_keep by exact C. reflexivity.
Qed.
Lemma sim_supdate db s c x (f : stream -> res stream) (g : package -> res package) : plain s -> (forall b, tp_T b = tp_T (s_body s) -> tp_P b = tp_P (s_body s) -> f (with_body s b) = do p <- g b; Ok (bare p)) ->
  supdate db s c x f = (with_body s (fst (set_T db (s_body s) (tp_T (s_body s)))), do p <- (do _ <- snd (set_T db (s_body s) (tp_T (s_body s))); g (fst (set_T db (s_body s) (tp_T (s_body s))))); Ok (bare p)).
Proof.
  intros C F. unfold supdate, update_HHV. unfold plain in C. rewrite C. rewrite sim_put_T by auto. cbn [fst snd]. destruct (set_T_coal db (s_body s) (tp_T (s_body s))) as (_ & A & B & _). rewrite F by auto. destruct (snd (set_T _ _ _)); reflexivity.
Qed.
Lemma sim_extract_compound db s c : plain s -> sextract_compound db s c = lift s (extract_compound db (s_body s) c).
Proof.
  intros C. unfold sextract_compound, extract_compound. rewrite sim_create by discriminate. destruct (create_package _ _ _ _ _ _ _) as [r|] eqn:E0; cbn [bind]; [|unfold lift; cbn; now rewrite with_body_same].
  cbn [create_package] in E0. apply new_package_plain in E0.
  destruct (negb _); [unfold lift; cbn; now rewrite with_body_same|]. destruct (get_compound_index _ c); cbn [bind]; [|unfold lift; cbn; now rewrite with_body_same].
  destruct (get _ _) as [x|]; cbn [bind]; [|unfold lift; cbn; now rewrite with_body_same]. cbn [s_body bare]. destruct (set_nth (tp_masses r) _ _) as [rs|]; cbn [bind]; [|unfold lift; cbn; now rewrite with_body_same].
  unfold done. rewrite sim_put_T by exact E0. cbn [s_body with_body bare fst snd]. unfold finish. destruct (set_T db (set_masses r rs) (tp_T (s_body s))) as [r1 [u|e]]; cbn [snd fst bind]; [|unfold lift; cbn; now rewrite with_body_same].
  destruct (set_nth (tp_masses (s_body s)) _ _) as [ms|]; cbn [bind]; [|unfold lift; cbn; now rewrite with_body_same].
  rewrite (sim_supdate db _ c (- x) _ (fun _ => Ok (set_P r1 (tp_P (s_body s))))); [|exact C|reflexivity]. reflexivity.
Qed.
Lemma sim_extract_pair db s c x : plain s -> sextract db s (SPair c x) = lift s (extract db (s_body s) (APair c x)).
Proof.
  intros C. cbn [sextract extract]. unfold sextract_compound_mfr, extract_compound_mass. destruct (negb _). { rewrite sim_create by discriminate. unfold lift. cbn [fst snd]. now rewrite with_body_same. }
  destruct (get_compound_index _ c); cbn [bind]; [|unfold lift; cbn; now rewrite with_body_same]. destruct (get _ _) as [y|]; cbn [bind]; [|unfold lift; cbn; now rewrite with_body_same].
  destruct (Rlt_dec y x); [unfold lift; cbn; now rewrite with_body_same|]. destruct (set_nth (tp_masses (s_body s)) _ _) as [ms|]; [|unfold lift; cbn; now rewrite with_body_same].
  rewrite (sim_supdate db _ c (- x) _ (fun b => do r <- create_package db (tp_material (s_body s)) None 0 (tp_P b) (tp_T b) true; add_pair db r c x)).
  - unfold lift, keep_T. cbn [s_body with_body fst snd]. destruct (set_T_coal db (set_masses (s_body s) ms) (tp_T (set_masses (s_body s) ms))) as (_ & A & B & _).
    change (tp_T (set_masses (s_body s) ms)) with (tp_T (s_body s)) in *. change (tp_P (set_masses (s_body s) ms)) with (tp_P (s_body s)) in *. rewrite A, B. destruct (snd (set_T _ _ _)); reflexivity.
  - exact C.
  - intros b Tb Pb. cbn [s_body with_body]. rewrite sim_create by discriminate. destruct (create_package _ _ _ _ _ _ _) as [r|] eqn:E0; cbn [bind]; [|reflexivity]. cbn [create_package] in E0. apply new_package_plain in E0. rewrite sim_pair by exact E0. reflexivity.
Qed.
Lemma extract_compound_plain db p c p' r : extract_compound db p c = (p', r) -> tp_coal p' = tp_coal p.
Proof.
  unfold extract_compound. destruct (create_package _ _ _ _ _ _ _); [|intros X; now injection X as <- _]. destruct (negb _); [intros X; now injection X as <- _|].
  match goal with |- match ?e with _ => _ end = _ -> _ => destruct e as [[q ms]|] end; [|intros X; now injection X as <- _]. unfold keep_T. intros X. injection X as <- _. apply (set_T_coal db (set_masses p ms) (tp_T p)).
Qed.
Lemma sim_extract_each db cs : forall s r, plain s -> tp_coal r = false -> sextract_each db s (bare r) cs = lift s (extract_each db (s_body s) r cs).
Proof.
  induction cs as [|c cs IH]; intros s r Cs Cr; cbn [sextract_each extract_each].
  - unfold lift. cbn [fst snd]. rewrite with_body_same. f_equal. unfold done, finish. rewrite sim_put_T by exact Cr. cbn [s_body bare fst snd]. destruct (set_T db r _) as [q [u|e]]; reflexivity.
  - unfold get_compound_mfr. destruct (get_compound_mass _ c) as [x|]; cbn [bind]; [|unfold lift; cbn; now rewrite with_body_same]. rewrite sim_pair by exact Cr. cbn [s_body bare].
    destruct (add_pair db r c x) as [r1|] eqn:E; cbn [bind]; [|unfold lift; cbn; now rewrite with_body_same]. rewrite sim_extract_compound by auto.
    destruct (extract_compound db (s_body s) c) as [p' [q|e]] eqn:X; unfold lift at 1; cbn [fst snd bind]; [|reflexivity]. apply extract_compound_plain in X.
    change (with_body (bare r) r1) with (bare r1). rewrite IH; [reflexivity|unfold plain in *; cbn; congruence|].
    unfold add_pair in E. destruct (get_compound_index _ c); cbn [bind] in E; [|discriminate]. destruct (thermo_H _ _ _ _); cbn [bind] in E; [|discriminate]. destruct (get _ _); cbn [bind] in E; [|discriminate]. destruct (set_nth _ _ _); cbn [bind] in E; [|discriminate]. injection E as <-. exact Cr.
Qed.
Lemma sim_extract_material db s m : plain s -> sextract db s (SMaterial m) = lift s (extract db (s_body s) (AMaterial m)).
Proof.
  intros C. cbn [sextract extract]. unfold sextract_material, extract_material. rewrite sim_create by discriminate. destruct (create_package _ _ _ _ _ _ _) as [r|] eqn:E0; cbn [bind]; [|unfold lift; cbn; now rewrite with_body_same].
  cbn [create_package] in E0. apply new_package_plain in E0. now apply sim_extract_each.
Qed.
