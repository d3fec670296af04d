(** Proofs about format(x, "g"). *)
From Verif Require Import Prelude M_Stoichiometry M_Text M_Csv M_Tables M_Print M_Tabulate Spec_Text Spec_Tables Spec_Print Spec_Tabulate P_Tables P_Print P_Print3.
From Coq Require Import Reals Lra Lia.
From Flocq Require Generic_fmt Raux.
Local Open Scope string_scope.
Local Open Scope list_scope.
Local Open Scope R_scope.

Lemma value_app2 a b : value (a ++ b) = (value a * 10 ^ Z.of_nat (length b) + value b)%Z.
Proof. unfold value at 1. rewrite fold_left_app. apply value_from. Qed.
Lemma value_zeros k : value (repeat "0"%char k) = 0%Z.
Proof. induction k; cbn [repeat]; auto. Qed.
Lemma drop_zeros_spec t : exists k, t = drop_zeros t ++ repeat "0"%char k.
Proof.
  induction t as [|c t [k IH]]; [exists 0%nat; reflexivity|]. cbn [drop_zeros]. destruct (drop_zeros t) as [|d u].
  - destruct (Ascii.eqb_spec c "0") as [->|N]; [exists (S k)|exists k]; cbn [app repeat]; rewrite IH at 1; reflexivity.
  - exists k. rewrite IH at 1. reflexivity.
Qed.
(** Digits [ip] and [fp], of which the zeros at the end are dropped. *)
Lemma denotes_fixed neg ip fp z ex : ip <> [] -> Forall (fun c => is_digit c = true) (ip ++ fp) ->
  (ex = [] /\ z = 0%Z \/ exists s k, ex = "e"%char :: s :: k /\ s = (if (z <? 0)%Z then "-"%char else "+"%char) /\ k <> [] /\ Forall (fun c => is_digit c = true) k /\ value k = Z.abs z) ->
  denotes (minus neg ++ ip ++ after_point fp ++ ex) neg (IZR (value (ip ++ fp)) * powerRZ 10 (z - Z.of_nat (length fp))).
Proof.
  intros N F E. destruct (drop_zeros_spec fp) as [k K]. exists ip, (drop_zeros fp), ex, z. split; [unfold after_point; destruct (drop_zeros fp); reflexivity|]. split; auto. split; [|split; auto].
  - rewrite K in F. rewrite app_assoc in F. apply Forall_app in F. tauto.
  - rewrite K at 1 2. rewrite app_assoc, value_app2, value_zeros, repeat_length, Z.add_0_r, app_length, repeat_length, Nat2Z.inj_add, mult_IZR.
    replace (IZR (10 ^ Z.of_nat k)) with (powerRZ 10 (Z.of_nat k)). 2:{ rewrite <- pow_powerRZ. now rewrite <- pow_IZR. }
    rewrite Rmult_assoc, <- ten_add. do 2 f_equal. lia.
Qed.
Lemma firstn_skipn_value n (ds : text) : firstn n ds ++ skipn n ds = ds. Proof. apply firstn_skipn. Qed.
Lemma general_denotes neg m e : (10 ^ 5 <= m < 10 ^ 6)%Z -> denotes (minus neg ++ general (m, e)) neg (IZR m * powerRZ 10 (e - 5)).
Proof.
  intros M. unfold general. cbn [fst snd]. pose proof (padded_length 6 m) as L. pose proof (padded_value 6 m ltac:(lia)) as V. rewrite Z.mod_small in V by (change (10 ^ Z.of_nat 6)%Z with (10 ^ 6)%Z; lia). pose proof (padded_digits 6 m) as D. set (ds := padded 6 m) in *. clearbody ds.
  destruct (Z.leb_spec (-4) e), (Z.ltb_spec e 0); cbn [andb].
  - assert (Z0 : Forall (fun c => is_digit c = true) (repeat "0"%char (Z.to_nat (- e - 1)))) by (apply Forall_forall; intros c I; apply repeat_spec in I; now subst).
    pose proof (denotes_fixed neg ["0"%char] (repeat "0"%char (Z.to_nat (- e - 1)) ++ ds) 0 []) as H1. rewrite app_nil_r in H1. cbn [app] in H1 |- *.
    match type of H1 with _ -> _ -> _ -> denotes _ _ ?v => replace (IZR m * powerRZ 10 (e - 5)) with v end; [apply H1; auto; [discriminate|constructor; auto; now apply Forall_app]|].
    rewrite value_zero, value_app2, value_zeros, app_length, repeat_length, L, V, Z.mul_0_l, Z.add_0_l. do 2 f_equal. lia.
  - destruct (Z.leb_spec 0 e); [|lia]. destruct (Z.ltb_spec e 6); cbn [andb].
    + pose proof (denotes_fixed neg (firstn (Z.to_nat (e + 1)) ds) (skipn (Z.to_nat (e + 1)) ds) 0 []) as H3. rewrite app_nil_r, firstn_skipn, V in H3.
      match type of H3 with _ -> _ -> _ -> denotes _ _ ?v => replace (IZR m * powerRZ 10 (e - 5)) with v end; [apply H3; auto|].
      * intros X. apply (f_equal (@length ascii)) in X. rewrite firstn_length, L in X. cbn [length] in X. lia.
      * rewrite skipn_length, L. do 2 f_equal. lia.
    + destruct (exponent_str_spec e) as (s & k & -> & S & K1 & K2 & K3). pose proof (denotes_fixed neg (firstn 1 ds) (skipn 1 ds) e ("e"%char :: s :: k)) as H3. rewrite firstn_skipn, V in H3.
      match type of H3 with _ -> _ -> _ -> denotes _ _ ?v => replace (IZR m * powerRZ 10 (e - 5)) with v end; [apply H3; auto|].
      * intros X. apply (f_equal (@length ascii)) in X. rewrite firstn_length, L in X. cbn [length] in X. lia.
      * right. exists s, k. split; auto. split; auto. split; auto. destruct k; [cbn in K1; lia|discriminate].
      * rewrite skipn_length, L. do 2 f_equal; lia.
  - destruct (Z.leb_spec 0 e); [lia|]. cbn [andb].
    destruct (exponent_str_spec e) as (s & k & -> & S & K1 & K2 & K3). pose proof (denotes_fixed neg (firstn 1 ds) (skipn 1 ds) e ("e"%char :: s :: k)) as H3. rewrite firstn_skipn, V in H3.
      match type of H3 with _ -> _ -> _ -> denotes _ _ ?v => replace (IZR m * powerRZ 10 (e - 5)) with v end; [apply H3; auto|].
      * intros X. apply (f_equal (@length ascii)) in X. rewrite firstn_length, L in X. cbn [length] in X. lia.
      * right. exists s, k. split; auto. split; auto. split; auto. destruct k; [cbn in K1; lia|discriminate].
      * rewrite skipn_length, L. do 2 f_equal; lia.
  - lia.
Qed.
Lemma six_spec x : 0 < x -> (10 ^ 5 <= fst (six x) < 10 ^ 6)%Z /\ Rabs (x - IZR (fst (six x)) * powerRZ 10 (snd (six x) - 5)) <= / 2 * powerRZ 10 (snd (six x) - 5).
Proof.
  intros P. unfold six. destruct (exponent_spec x P) as [A B]. set (e := exponent x) in *. set (k := powerRZ 10 (5 - e)). set (j := powerRZ 10 (e - 5)).
  assert (K : k * j = 1). { unfold k, j. rewrite <- ten_add. replace (5 - e + (e - 5))%Z with 0%Z by lia. reflexivity. }
  assert (PK : 0 < k) by apply ten_pos. assert (PJ : 0 < j) by apply ten_pos.
  assert (Y1 : IZR (10 ^ 5) <= x * k). { replace (IZR (10 ^ 5)) with (powerRZ 10 e * k). - apply Rmult_le_compat_r; lra. - unfold k. rewrite <- ten_add. replace (e + (5 - e))%Z with 5%Z by lia. change (powerRZ 10 5) with (10 ^ 5). cbn [pow]. change (10 ^ 5)%Z with 100000%Z. lra. }
  assert (Y2 : x * k < IZR (10 ^ 6)). { replace (IZR (10 ^ 6)) with (powerRZ 10 (e + 1) * k). - apply Rmult_lt_compat_r; lra. - unfold k. rewrite <- ten_add. replace (e + 1 + (5 - e))%Z with 6%Z by lia. change (powerRZ 10 6) with (10 ^ 6). cbn [pow]. change (10 ^ 6)%Z with 1000000%Z. lra. }
  pose proof (Generic_fmt.Znearest_half (fun n => negb (Z.even n)) (x * k)) as H. set (m := Generic_fmt.Znearest (fun n => negb (Z.even n)) (x * k)) in *.
  assert (M1 : (10 ^ 5 <= m)%Z). { apply Raux.Rabs_le_inv in H. destruct (Z_lt_le_dec m (10 ^ 5)) as [N|N]; auto. assert (X : IZR m <= IZR (10 ^ 5 - 1)) by (apply IZR_le; lia). rewrite minus_IZR in X. lra. }
  assert (M2 : (m <= 10 ^ 6)%Z). { apply Raux.Rabs_le_inv in H. destruct (Z_lt_le_dec (10 ^ 6) m) as [N|N]; auto. assert (X : IZR (10 ^ 6 + 1) <= IZR m) by (apply IZR_le; lia). rewrite plus_IZR in X. lra. }
  assert (D : Rabs (x - IZR m * j) <= / 2 * j). { replace (x - IZR m * j) with ((x * k - IZR m) * j) by (transitivity (x * (k * j) - IZR m * j); [ring|rewrite K; ring]). rewrite Rabs_mult, (Rabs_pos_eq j) by lra. apply Rmult_le_compat_r; lra. }
  cbv zeta. destruct (Z.eqb_spec m (10 ^ 6)) as [E|E]; cbn [fst snd]; [|split; [lia|exact D]].
  split; [lia|]. replace (e + 1 - 5)%Z with (e - 5 + 1)%Z by lia. rewrite ten_add. fold j. change (powerRZ 10 1) with (10 * 1).
  replace (IZR (10 ^ 5) * (j * (10 * 1))) with (IZR m * j). - lra. - rewrite E. change (10 ^ 6)%Z with (10 * 10 ^ 5)%Z. rewrite mult_IZR. ring.
Qed.
(** Close to a number with six digits, these six digits are found. *)
Lemma six_near x n k : (10 ^ 5 <= n < 10 ^ 6)%Z -> Rabs (x - IZR n * powerRZ 10 k) <= / 100 * powerRZ 10 k -> six x = (n, (k + 5)%Z).
Proof.
  intros N H. set (j := powerRZ 10 k) in *. assert (PJ : 0 < j) by apply ten_pos. apply Raux.Rabs_le_inv in H.
  assert (N1 : IZR (10 ^ 5) <= IZR n) by (apply IZR_le; lia). assert (N2 : IZR n <= IZR (10 ^ 6 - 1)) by (apply IZR_le; lia). rewrite minus_IZR in N2. change (IZR (10 ^ 5)) with 100000 in N1. change (IZR (10 ^ 6)) with 1000000 in N2.
  assert (J1 : 100000 * j <= IZR n * j) by (apply Rmult_le_compat_r; lra). assert (J2 : IZR n * j <= (1000000 - 1) * j) by (apply Rmult_le_compat_r; lra).
  assert (P : 0 < x) by lra. unfold six. destruct (exponent_spec x P) as [A B].
  (* the exponent is k + 5, or k + 4 just below a power of ten *)
  assert (U : forall z, (z <= k + 4)%Z -> powerRZ 10 z <= 10000 * j).
  { intros z Hz. apply Rle_trans with (powerRZ 10 (k + 4)). - replace (k + 4)%Z with (z + Z.of_nat (Z.to_nat (k + 4 - z)))%Z by lia. rewrite ten_add, <- pow_powerRZ. rewrite <- (Rmult_1_r (powerRZ 10 z)) at 1. apply Rmult_le_compat_l; [left; apply ten_pos|]. apply pow_R1_Rle. lra.
    - rewrite ten_add. fold j. change (powerRZ 10 4) with (10 ^ 4). cbn [pow]. lra. }
  assert (W : forall z, (k + 6 <= z)%Z -> 1000000 * j <= powerRZ 10 z).
  { intros z Hz. apply Rle_trans with (powerRZ 10 (k + 6)). - rewrite ten_add. fold j. change (powerRZ 10 6) with (10 ^ 6). cbn [pow]. lra.
    - replace z with (k + 6 + Z.of_nat (Z.to_nat (z - (k + 6))))%Z by lia. rewrite (ten_add (k + 6)), <- pow_powerRZ. rewrite <- (Rmult_1_r (powerRZ 10 (k + 6))) at 1. apply Rmult_le_compat_l; [left; apply ten_pos|]. apply pow_R1_Rle. lra. }
  set (e := exponent x) in *. assert (E : e = (k + 5)%Z \/ e = (k + 4)%Z).
  { destruct (Z_lt_le_dec e (k + 4)) as [L|L]; [pose proof (U (e + 1)%Z ltac:(lia)); lra|]. destruct (Z_lt_le_dec (k + 5) e) as [L'|L']; [pose proof (W e ltac:(lia)); lra|lia]. }
  assert (K : powerRZ 10 (- k) * j = 1). { unfold j. rewrite <- ten_add. replace (- k + k)%Z with 0%Z by lia. reflexivity. } pose proof (ten_pos (- k)) as PI. set (i := powerRZ 10 (- k)) in *.
  assert (NB : Rabs (x * i - IZR n) <= / 100). { replace (x * i - IZR n) with ((x - IZR n * j) * i) by (transitivity (x * i - IZR n * (i * j)); [ring|rewrite K; ring]). rewrite Rabs_mult, (Rabs_pos_eq i) by lra.
    apply Rle_trans with (/ 100 * j * i); [apply Rmult_le_compat_r; [lra|apply Rabs_le; lra]|]. rewrite Rmult_assoc, (Rmult_comm j), K. lra. }
  destruct E as [E|E].
  - rewrite E. replace (5 - (k + 5))%Z with (- k)%Z by lia. fold i. rewrite (Generic_fmt.Znearest_imp _ _ n) by (lra). cbv zeta. destruct (Z.eqb_spec n (10 ^ 6)); [lia|reflexivity].
  - rewrite E in B. replace (k + 4 + 1)%Z with (k + 5)%Z in B by lia. rewrite ten_add in B. fold j in B. change (powerRZ 10 5) with (10 ^ 5) in B. cbn [pow] in B.
    assert (B' : x * i < 100000). { replace 100000 with (j * (10 * (10 * (10 * (10 * (10 * 1))))) * i). - apply Rmult_lt_compat_r; lra. - replace (j * (10 * (10 * (10 * (10 * (10 * 1))))) * i) with (100000 * (i * j)) by ring. rewrite K. ring. }
    apply Raux.Rabs_le_inv in NB. assert (Nn : n = (10 ^ 5)%Z). { assert (X : IZR n < IZR (10 ^ 5 + 1)) by (rewrite plus_IZR; change (IZR (10 ^ 5)) with 100000; lra). apply lt_IZR in X. lia. }
    rewrite E. replace (5 - (k + 4))%Z with (- k + 1)%Z by lia. rewrite ten_add. fold i. change (powerRZ 10 1) with (10 * 1).
    rewrite (Generic_fmt.Znearest_imp _ _ (10 ^ 6)). + cbv zeta. rewrite Z.eqb_refl, Nn. f_equal. lia.
    + rewrite Nn in NB. change (IZR (10 ^ 5)) with 100000 in NB. change (IZR (10 ^ 6)) with 1000000. apply Rabs_def1; lra.
Qed.
Lemma format_g_shows neg s : 0 <= s -> shows6 neg s (format_g (GFin neg s)).
Proof.
  intros P. unfold shows6, format_g. destruct (Req_EM_T s 0) as [E|E].
  - left. split; auto. pose proof (denotes_fixed neg ["0"%char] [] 0 []) as H. cbn [app] in H. change (after_point []) with (@nil ascii) in H. cbn [app] in H.
    replace 0 with (IZR (value ["0"%char]) * powerRZ 10 (0 - Z.of_nat (length (@nil ascii)))) by (change (value ["0"%char]) with 0%Z; ring). apply H; auto. discriminate.
  - right. assert (Q : 0 < s) by lra. split; auto. destruct (six_spec s Q) as [M H]. destruct (six s) as [m e]. cbn [fst snd] in *. exists m, e. split; auto. split; auto. now apply general_denotes.
Qed.
(** A number with an exponent [k + 5]. *)
Lemma six_round x n k : (10 ^ 5 <= n < 10 ^ 6)%Z -> IZR (10 ^ 5) * powerRZ 10 k <= x < IZR (10 ^ 6) * powerRZ 10 k -> Rabs (x * powerRZ 10 (- k) - IZR n) < / 2 -> six x = (n, (k + 5)%Z).
Proof.
  intros N [X1 X2] H. change (IZR (10 ^ 5)) with 100000 in X1. change (IZR (10 ^ 6)) with 1000000 in X2.
  assert (PJ : 0 < powerRZ 10 k) by apply ten_pos. assert (P : 0 < x) by lra. unfold six. destruct (exponent_spec x P) as [A B].
  assert (E : exponent x = (k + 5)%Z).
  { assert (T5 : powerRZ 10 (k + 5) = 100000 * powerRZ 10 k) by (rewrite ten_add; change (powerRZ 10 5) with (10 ^ 5); cbn [pow]; ring).
    assert (T6 : powerRZ 10 (k + 6) = 1000000 * powerRZ 10 k) by (rewrite ten_add; change (powerRZ 10 6) with (10 ^ 6); cbn [pow]; ring).
    assert (U : forall a b, (a <= b)%Z -> powerRZ 10 a <= powerRZ 10 b).
    { intros a b L. replace b with (a + Z.of_nat (Z.to_nat (b - a)))%Z by lia. rewrite ten_add, <- pow_powerRZ. rewrite <- (Rmult_1_r (powerRZ 10 a)) at 1. apply Rmult_le_compat_l; [left; apply ten_pos|]. apply pow_R1_Rle. lra. }
    destruct (Z_lt_le_dec (exponent x) (k + 5)) as [L|L]; [pose proof (U (exponent x + 1)%Z (k + 5)%Z ltac:(lia)); lra|]. destruct (Z_lt_le_dec (k + 5) (exponent x)) as [L'|L']; [pose proof (U (k + 6)%Z (exponent x) ltac:(lia)); lra|lia]. }
  rewrite E. replace (5 - (k + 5))%Z with (- k)%Z by lia. rewrite (Generic_fmt.Znearest_imp _ _ n) by exact H. cbv zeta. destruct (Z.eqb_spec n (10 ^ 6)); [lia|reflexivity].
Qed.
(** Its characters. *)
Definition no_space (t : text) : Prop := forall c, In c t -> is_space c = false.
Lemma digits_no_space t : Forall (fun c => is_digit c = true) t -> no_space t.
Proof. intros F c I. rewrite Forall_forall in F. specialize (F c I). unfold is_digit in F. apply andb_prop in F. destruct F as [F1 F2]. apply Z.leb_le in F1, F2. unfold is_space. repeat rewrite Bool.orb_false_iff. rewrite !Bool.andb_false_iff, !Z.leb_gt, !Z.eqb_neq. unfold code in *. cbn in *. lia. Qed.
Lemma no_space_app a b : no_space a -> no_space b -> no_space (a ++ b).
Proof. intros A B c I. apply in_app_or in I. destruct I; auto. Qed.
Lemma drop_zeros_in t c : In c (drop_zeros t) -> In c t.
Proof. destruct (drop_zeros_spec t) as [k E]. intros I. rewrite E. apply in_or_app. auto. Qed.
Lemma after_point_no_space t : no_space t -> no_space (after_point t).
Proof. intros N. unfold after_point. pose proof (drop_zeros_in t) as D. destruct (drop_zeros t) as [|d u]; [intros c []|]. intros c [<-|I]; auto. Qed.
Lemma exponent_str_no_space e : no_space (exponent_str e).
Proof. destruct (exponent_str_spec e) as (s & k & -> & -> & _ & D & _). intros c [<-|I]; [now destruct (e <? 0)%Z|]. now apply (digits_no_space k). Qed.
Lemma part_no_space (t u : text) : no_space t -> (forall c, In c u -> In c t) -> no_space u.
Proof. intros N S c I. auto. Qed.
Lemma firstn_in {X} n (l : list X) c : In c (firstn n l) -> In c l.
Proof. intros I. rewrite <- (firstn_skipn n l). apply in_or_app. auto. Qed.
Lemma skipn_in {X} n (l : list X) c : In c (skipn n l) -> In c l.
Proof. intros I. rewrite <- (firstn_skipn n l). apply in_or_app. auto. Qed.
Lemma general_no_space me : no_space (general me).
Proof.
  unfold general. pose proof (digits_no_space _ (padded_digits 6 (fst me))) as D. destruct ((-4 <=? snd me)%Z && (snd me <? 0)%Z)%bool; [|destruct ((0 <=? snd me)%Z && (snd me <? 6)%Z)%bool].
  - intros c [<-|I]; auto. revert I. apply after_point_no_space. apply no_space_app; auto. intros d J. apply repeat_spec in J. now subst.
  - apply no_space_app; [|apply after_point_no_space]; eapply part_no_space; eauto using firstn_in, skipn_in.
  - apply no_space_app; [|apply no_space_app]; [eapply part_no_space; eauto using firstn_in| |]. + apply after_point_no_space. eapply part_no_space; eauto using skipn_in. + intros c [<-|I]; auto. revert I. apply exponent_str_no_space.
Qed.
Lemma format_g_no_space x : no_space (format_g x).
Proof.
  assert (M : forall neg, no_space (minus neg)). { intros []; intros c I; cbn in I; [destruct I as [<-|[]]; reflexivity|destruct I]. }
  destruct x as [neg s|neg|]; cbn [format_g]. - apply no_space_app; auto. destruct (Req_EM_T s 0); [|apply general_no_space]. intros c [<-|[]]. reflexivity.
  - apply no_space_app; auto. intros c I. cbn in I. repeat (destruct I as [<-|I]; [reflexivity|]). destruct I. - intros c I. cbn in I. repeat (destruct I as [<-|I]; [reflexivity|]). destruct I.
Qed.
