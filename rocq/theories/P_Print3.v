(** Proofs about numbers in scientific notation. *)
From Verif Require Import Prelude M_Stoichiometry M_Text M_Csv M_Tables M_Print Spec_Text Spec_File Spec_Tables Spec_Print P_Tables P_Print.
From Coq Require Import Reals Lra.
From Flocq Require Generic_fmt Raux.
Local Open Scope string_scope.
Local Open Scope list_scope.
Local Open Scope R_scope.

Lemma ten_pos z : 0 < powerRZ 10 z. Proof. apply powerRZ_lt. lra. Qed.
Lemma ten_add a b : powerRZ 10 (a + b) = powerRZ 10 a * powerRZ 10 b. Proof. apply powerRZ_add. lra. Qed.
Lemma exponent_spec x : 0 < x -> powerRZ 10 (exponent x) <= x < powerRZ 10 (exponent x + 1).
Proof.
  intros P. rewrite !powerRZ_Rpower by lra. unfold Rpower, exponent. set (r := ln x / ln 10). destruct (base_Int_part r) as [A B].
  assert (L : 0 < ln 10) by (rewrite <- ln_1; apply ln_increasing; lra). assert (E : ln x = r * ln 10) by (unfold r; field; lra).
  rewrite <- (exp_ln x P) at 1 2. rewrite E, plus_IZR. split.
  - destruct (Req_dec (IZR (Int_part r)) r) as [->|N]; [right; reflexivity|]. left. apply exp_increasing. apply Rmult_lt_compat_r; lra.
  - apply exp_increasing. apply Rmult_lt_compat_r; lra.
Qed.
Lemma nine_spec x : 0 < x -> (10 ^ 8 <= fst (nine x) < 10 ^ 9)%Z /\ Rabs (x - IZR (fst (nine x)) * powerRZ 10 (snd (nine x) - 8)) <= / 2 * powerRZ 10 (snd (nine x) - 8).
Proof.
  intros P. unfold nine. destruct (exponent_spec x P) as [A B]. set (e := exponent x) in *. set (k := powerRZ 10 (8 - e)). set (j := powerRZ 10 (e - 8)).
  assert (K : k * j = 1). { unfold k, j. rewrite <- ten_add. replace (8 - e + (e - 8))%Z with 0%Z by lia. reflexivity. }
  assert (PK : 0 < k) by apply ten_pos. assert (PJ : 0 < j) by apply ten_pos.
  assert (Y1 : IZR (10 ^ 8) <= x * k). { replace (IZR (10 ^ 8)) with (powerRZ 10 e * k). - apply Rmult_le_compat_r; lra. - unfold k. rewrite <- ten_add. replace (e + (8 - e))%Z with 8%Z by lia. change (powerRZ 10 8) with (10 ^ 8). cbn [pow]. change (10 ^ 8)%Z with 100000000%Z. lra. }
  assert (Y2 : x * k < IZR (10 ^ 9)). { replace (IZR (10 ^ 9)) with (powerRZ 10 (e + 1) * k). - apply Rmult_lt_compat_r; lra. - unfold k. rewrite <- ten_add. replace (e + 1 + (8 - e))%Z with 9%Z by lia. change (powerRZ 10 9) with (10 ^ 9). cbn [pow]. change (10 ^ 9)%Z with 1000000000%Z. lra. }
  pose proof (Generic_fmt.Znearest_half (fun n => negb (Z.even n)) (x * k)) as H. set (m := Generic_fmt.Znearest (fun n => negb (Z.even n)) (x * k)) in *.
  assert (M1 : (10 ^ 8 <= m)%Z). { apply Raux.Rabs_le_inv in H. destruct (Z_lt_le_dec m (10 ^ 8)) as [N|N]; auto. assert (X : IZR m <= IZR (10 ^ 8 - 1)) by (apply IZR_le; lia). rewrite minus_IZR in X. lra. }
  assert (M2 : (m <= 10 ^ 9)%Z). { apply Raux.Rabs_le_inv in H. destruct (Z_lt_le_dec (10 ^ 9) m) as [N|N]; auto. assert (X : IZR (10 ^ 9 + 1) <= IZR m) by (apply IZR_le; lia). rewrite plus_IZR in X. lra. }
  assert (D : Rabs (x - IZR m * j) <= / 2 * j). { replace (x - IZR m * j) with ((x * k - IZR m) * j) by (transitivity (x * (k * j) - IZR m * j); [ring|rewrite K; ring]). rewrite Rabs_mult, (Rabs_pos_eq j) by lra. apply Rmult_le_compat_r; lra. }
  cbv zeta. destruct (Z.eqb_spec m (10 ^ 9)) as [E|E]; cbn [fst snd]; [|split; [lia|exact D]].
  split; [lia|]. replace (e + 1 - 8)%Z with (e - 8 + 1)%Z by lia. rewrite ten_add. fold j. change (powerRZ 10 1) with (10 * 1).
  replace (IZR (10 ^ 8) * (j * (10 * 1))) with (IZR m * j). - lra. - rewrite E. change (10 ^ 9)%Z with (10 * 10 ^ 8)%Z. rewrite mult_IZR. ring.
Qed.

Lemma digits9_spec m : (0 <= m < 10 ^ 9)%Z -> exists d ds, digits9 m = d :: "."%char :: ds /\ length ds = 8%nat /\ Forall (fun c => is_digit c = true) (d :: ds) /\ value (d :: ds) = m.
Proof.
  intros M. unfold digits9. pose proof (padded_length 9 m) as L. pose proof (padded_value 9 m (proj1 M)) as V. pose proof (padded_digits 9 m) as D. destruct (padded 9 m) as [|d ds]; [discriminate|].
  exists d, ds. split; auto. split; [cbn in L; lia|]. split; auto. rewrite V. apply Z.mod_small. exact M.
Qed.
Lemma value_zero t : value ("0"%char :: t) = value t.
Proof. reflexivity. Qed.
Lemma decimal_two n : (10 <= n)%Z -> (2 <= length (decimal n))%nat.
Proof.
  intros N. destruct (decimal_spec n) as (A & B & V & _); [lia|]. destruct (decimal n) as [|c [|d t]]; [congruence| |cbn; lia]. exfalso.
  assert (H1 : is_digit c = true) by (inversion B; auto). cbn in V. unfold is_digit in H1. apply andb_true_iff in H1. destruct H1 as [X Y]. apply Z.leb_le in X, Y. lia.
Qed.
Lemma exponent_str_spec e : exists s k, exponent_str e = s :: k /\ s = (if (e <? 0)%Z then "-"%char else "+"%char) /\ (2 <= length k)%nat /\ Forall (fun c => is_digit c = true) k /\ value k = Z.abs e.
Proof.
  unfold exponent_str. destruct (decimal_spec (Z.abs e)) as (A & B & V & _); [lia|]. eexists _, _. split; [reflexivity|]. split; [reflexivity|].
  destruct (Z.ltb_spec (Z.abs e) 10) as [L|L]; cbn [app].
  - split; [|split; [constructor; auto|now rewrite value_zero]]. destruct (decimal (Z.abs e)); [congruence|cbn; lia].
  - split; [now apply decimal_two|]. auto.
Qed.
Lemma scientific_intro (neg : bool) m e : (0 <= m < 10 ^ 9)%Z -> scientific neg m e ((if neg then ["-"%char] else []) ++ digits9 m ++ "e"%char :: exponent_str e).
Proof.
  intros M. destruct (digits9_spec m M) as (d & ds & E & A & B & C). destruct (exponent_str_spec e) as (s & k & E' & A' & B' & C' & D'). exists d, ds, s, k. rewrite E, E'. cbn [app]. repeat split; auto.
Qed.
Lemma sci_shows x : shows9 x (sci x).
Proof.
  unfold shows9, sci. destruct (Req_EM_T x 0) as [E|E].
  - left. split; auto. apply (scientific_intro false). lia.
  - right. split; auto. assert (P : 0 < Rabs x) by now apply Rabs_pos_lt. destruct (nine_spec _ P) as [M H]. exists (fst (nine (Rabs x))), (snd (nine (Rabs x))). split; [|split; auto].
    cbv zeta. destruct (Rlt_dec x 0); [apply (scientific_intro true)|apply (scientific_intro false)]; lia.
Qed.

(** * The text tells the number *)
Lemma digit_chars c : is_digit c = true -> is_space c = false /\ c <> "-"%char /\ c <> "e"%char.
Proof.
  intros H. split; [|split; intros ->; discriminate]. unfold is_digit, is_space in *. apply andb_true_iff in H. destruct H as [A B]. apply Z.leb_le in A, B.
  rewrite !orb_false_iff, !andb_false_iff, !Z.leb_gt, !Z.eqb_neq. lia.
Qed.
Lemma scientific_unique n m e t n' m' e' : scientific n m e t -> scientific n' m' e' t -> n = n' /\ m = m' /\ e = e'.
Proof.
  intros (d & ds & s & k & E & L & F & V & S & _ & _ & W) (d' & ds' & s' & k' & E' & L' & F' & V' & S' & _ & _ & W').
  assert (N : n = n').
  { rewrite E in E'. inversion F as [|? ? X _]; subst. inversion F' as [|? ? X' _]; subst. apply digit_chars in X, X'. destruct n, n'; auto; cbn [app] in E'; injection E' as E1 _; exfalso; firstorder congruence. }
  subst n'. rewrite E in E'. apply app_inv_head in E'. injection E' as E1 E2. apply app_inj_len in E2; [|congruence]. destruct E2 as [E2 E3]. injection E3 as E3 E4. split; auto. split; [congruence|].
  assert (Z.abs e = Z.abs e') by congruence. rewrite S, S' in E3. destruct (Z.ltb_spec e 0), (Z.ltb_spec e' 0); try discriminate; lia.
Qed.
Lemma scientific_solid n m e t : scientific n m e t -> solid t.
Proof.
  intros (d & ds & s & k & -> & L & F & _ & S & _ & K & _). split; [destruct n; discriminate|]. rewrite Forall_forall in F, K.
  intros c I. apply in_app_or in I. destruct I as [I|[<-|[<-|I]]].
  - destruct n; [destruct I as [<-|[]]; reflexivity|destruct I]. - apply digit_chars, F. cbn. auto. - reflexivity.
  - apply in_app_or in I. destruct I as [I|[<-|[<-|I]]]; [apply digit_chars, F; cbn; auto|reflexivity|subst s; destruct (e <? 0)%Z; reflexivity|apply digit_chars, K; auto].
Qed.
Lemma shows9_solid x t : shows9 x t -> solid t.
Proof. intros [[_ H]|(_ & m & e & H & _)]; eapply scientific_solid; eauto. Qed.
Lemma sci_solid x : solid (sci x). Proof. eapply shows9_solid, sci_shows. Qed.
(** Numbers with one text differ by less than one part in 99999999. *)
Lemma shows9_near x y t : shows9 x t -> shows9 y t -> 99999999 * Rabs (x - y) <= Rabs x.
Proof.
  intros [[-> A]|(X & m & e & A & M & H)] [[-> B]|(Y & m' & e' & B & M' & H')].
  - rewrite Rminus_0_r, Rabs_R0. lra.
  - destruct (scientific_unique _ _ _ _ _ _ _ A B) as (_ & <- & _). lia.
  - destruct (scientific_unique _ _ _ _ _ _ _ A B) as (_ & -> & _). lia.
  - destruct (scientific_unique _ _ _ _ _ _ _ A B) as (N & <- & <-). set (u := powerRZ 10 (e - 8)) in *. assert (U : 0 < u) by apply ten_pos.
    assert (IZR (10 ^ 8) <= IZR m) by (apply IZR_le; lia). assert (Q : IZR (10 ^ 8) * u <= IZR m * u) by (apply Rmult_le_compat_r; lra). change (IZR (10 ^ 8)) with 100000000 in Q.
    assert (Z : Rabs (x - y) = Rabs (Rabs x - Rabs y)). { destruct (Rlt_dec x 0), (Rlt_dec y 0); try discriminate. - rewrite (Rabs_left x), (Rabs_left y) by lra. rewrite <- Rabs_Ropp. f_equal. ring. - rewrite (Rabs_pos_eq x), (Rabs_pos_eq y) by lra. reflexivity. }
    rewrite Z. apply Raux.Rabs_le_inv in H, H'. assert (Rabs (Rabs x - Rabs y) <= u) by (apply Rabs_le; lra). lra.
Qed.
