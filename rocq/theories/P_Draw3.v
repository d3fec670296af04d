(** Numerals say one number only; a reader of numbers; tables that are drawn alike. *)
From Verif Require Import Prelude M_Stoichiometry M_Text M_Dates M_Accounts M_Ledger M_Csv M_Tables M_Print M_Json M_Tabulate M_Render Spec_Ledger Spec_Text Spec_Tables Spec_Print Spec_Tabulate P_Text P_File P_Tables P_Print P_Print3 P_General P_Tabulate P_Draw P_Draw2.
From Coq Require Import Qabs Reals Lra Lia.
From Flocq Require Raux Generic_fmt Round_NE FLT Relative Defs.
Local Open Scope string_scope.
Local Open Scope list_scope.

(** * Numerals *)
Definition digits (t : text) : Prop := Forall (fun c => is_digit c = true) t.
Definition stops (t : text) : Prop := match t with [] => True | c :: _ => is_digit c = false end.
Lemma digits_unique a : forall b a' b', digits a -> digits a' -> stops b -> stops b' -> a ++ b = a' ++ b' -> a = a' /\ b = b'.
Proof.
  induction a as [|c a IH]; intros b [|c' a'] b' A A' B B' E; cbn [app] in E; auto.
  - subst b. inversion A'; subst. cbn in B. congruence. - subst b'. inversion A; subst. cbn in B'. congruence.
  - injection E as -> E. inversion A; inversion A'; subst. destruct (IH b a' b') as [-> ->]; auto.
Qed.
Lemma denotes_unique t neg v neg' v' : denotes t neg v -> denotes t neg' v' -> neg = neg' /\ v = v'.
Proof.
  intros (ip & fp & ex & z & E & NI & D & -> & X) (ip' & fp' & ex' & z' & E' & NI' & D' & -> & X').
  assert (SE : forall z (ex : text), (ex = [] /\ z = 0%Z \/ exists s k, ex = "e"%char :: s :: k /\ s = (if (z <? 0)%Z then "-"%char else "+"%char) /\ k <> [] /\ Forall (fun c => is_digit c = true) k /\ value k = Z.abs z) -> stops ex /\ (forall u, ex <> "."%char :: u)) by (intros zz ee [[-> _]|(s & k & -> & _)]; split; cbn; auto; discriminate).
  apply Forall_app in D, D'. destruct D as [D1 D2], D' as [D1' D2']. destruct (SE _ _ X) as [SX PX], (SE _ _ X') as [SX' PX']. clear SE.
  assert (NG : neg = neg' /\ ip ++ match fp with [] => [] | _ => "."%char :: fp end ++ ex = ip' ++ match fp' with [] => [] | _ => "."%char :: fp' end ++ ex').
  { subst t. destruct ip as [|c ip]; [congruence|]. destruct ip' as [|c' ip']; [congruence|]. inversion D1; inversion D1'; subst. destruct neg, neg'; cbn [app] in E'; [split; [reflexivity|exact (f_equal (@tl ascii) E')]|exfalso; injection E'; intros; subst; discriminate|exfalso; injection E'; intros; subst; discriminate|split; [reflexivity|exact E']]. }
  destruct NG as [<- EQ]. split; auto. apply digits_unique in EQ; auto; [|destruct fp; cbn; auto|destruct fp'; cbn; auto]. destruct EQ as [<- EQ].
  assert (EQ2 : fp = fp' /\ ex = ex').
  { destruct fp as [|f fp], fp' as [|f' fp']; cbn [app] in EQ; auto. - subst ex. exfalso. eapply PX. reflexivity. - subst ex'. exfalso. eapply PX'. reflexivity.
    - injection EQ as -> EQ. inversion D2; inversion D2'; subst. apply digits_unique in EQ; auto. destruct EQ as [-> ->]. auto. }
  destruct EQ2 as [<- <-]. destruct X as [[-> ->]|(s & k & -> & S & K1 & K2 & K3)], X' as [[E1 ->]|(s' & k' & E1 & S' & K1' & K2' & K3')]; try discriminate; auto.
  injection E1 as <- <-. assert (z = z'). { destruct (Z.ltb_spec z 0), (Z.ltb_spec z' 0); subst s; try discriminate; lia. } now subst.
Qed.

(** * A reader of amounts: rounds to the nearest double *)
Definition double (x : R) : R := Generic_fmt.round Zaux.radix2 (FLT.FLT_exp (-1074) 53) (Generic_fmt.Znearest (fun n => negb (Z.even n))) x.
Fixpoint span (t : text) : text * text := match t with c :: t' => if is_digit c then (c :: fst (span t'), snd (span t')) else ([], t) | [] => ([], []) end.
Definition read_size (neg : bool) (t : text) : option pyfloat :=
  match span t with
  | (c0 :: ip, ["."%char; c; d]) => if (is_digit c && is_digit d)%bool then Some (GFin neg (double (IZR (value ((c0 :: ip) ++ [c; d])) / 100))) else None
  | _ => None
  end.
Definition read_amount (t : text) : option pyfloat := match t with "-"%char :: t' => read_size true t' | _ => read_size false t end.
Definition no_int (t : text) : bool := false.
Lemma span_app a b : digits a -> stops b -> span (a ++ b) = (a, b).
Proof. induction 1 as [|c a H F IH]; intros S; cbn [app]; [destruct b as [|c b]; cbn in *; [auto|now rewrite S]|]. cbn [span]. rewrite H, IH; auto. Qed.
Lemma span_eq t : t = fst (span t) ++ snd (span t) /\ digits (fst (span t)).
Proof. induction t as [|c t [IH1 IH2]]; cbn [span]; [split; [auto|constructor]|]. destruct (is_digit c) eqn:E; cbn [fst snd app]; [|split; auto; constructor]. split; [now rewrite <- IH1|now constructor]. Qed.
Lemma read_size_digit neg t : read_size neg t <> None -> exists c, In c t /\ is_digit c = true.
Proof.
  unfold read_size. destruct (span_eq t) as [E D]. destruct (span t) as [[|c0 ip] r]; cbn [fst snd] in *; [congruence|]. intros _. exists c0. rewrite E. inversion D. split; auto. now left.
Qed.
Lemma double_near x : (/ 100 <= x)%R -> (0 <= double x)%R /\ (Rabs (double x - x) <= powerRZ 2 (-53) * x)%R.
Proof.
  intros P. split.
  - unfold double. apply Generic_fmt.round_ge_generic; [apply FLT.FLT_exp_valid; reflexivity|apply Generic_fmt.valid_rnd_N|apply Generic_fmt.generic_format_0|lra].
  - unfold double. pose proof (Relative.relative_error_N_FLT Zaux.radix2 (-1074) 53 ltac:(reflexivity) (fun n => negb (Z.even n)) x) as H. rewrite (Rabs_pos_eq x) in H by lra. refine (Rle_trans _ _ _ (H _) _).
    + apply Rle_trans with (2 := P). change (Raux.bpow Zaux.radix2 (-1074 + 53 - 1)) with (/ IZR (2 ^ 1022))%R. apply Rinv_le_contravar; [lra|]. apply IZR_le. apply Z.leb_le. vm_compute. reflexivity.
    + apply Rmult_le_compat_r; [lra|]. change (Raux.bpow Zaux.radix2 (- (53) + 1)) with (/ IZR (2 ^ 52))%R. change (powerRZ 2 (-53)) with (/ 2 ^ 53)%R. rewrite (pow_IZR 2 53). rewrite <- Rinv_mult_distr; [|lra|apply IZR_neq; discriminate]. rewrite <- mult_IZR. apply Req_le. f_equal.
Qed.
Lemma amount_value whole c d n : (0 <= n)%Z -> numeral (n / 100) whole -> value [c; d] = (n mod 100)%Z -> value (whole ++ [c; d]) = n.
Proof. intros P (_ & _ & V & _) W. rewrite value_app2, V, W. change (10 ^ Z.of_nat (length [c; d]))%Z with 100%Z. pose proof (Z.div_mod n 100 ltac:(lia)). lia. Qed.
Lemma reader_ok : reads_numbers no_int read_amount.
Proof.
  split; [|split; [discriminate|]].
  - intros t H. assert (G : exists c, In c t /\ is_digit c = true).
    { destruct t as [|c t]; [cbn in H; unfold read_size in H; cbn in H; congruence|]. unfold read_amount in H. 
      destruct (ascii_dec c "-"%char) as [->|NE]; [destruct (read_size_digit true t H) as (d & I & D); exists d; split; auto; now right|].
      assert (E : match c with "-"%char => read_size true t | _ => read_size false (c :: t) end = read_size false (c :: t)). { destruct c as [[] [] [] [] [] [] [] []]; try reflexivity. congruence. }
      rewrite E in H. now apply (read_size_digit false). }
    destruct G as (c & I & D). exists c. auto.
  - intros t neg n N (whole & c & d & -> & W & C & D & V). split; auto. pose proof W as W0. destruct W0 as (NW & DW & VW & _).
    assert (RS : read_size neg (whole ++ ["."%char; c; d]) = Some (GFin neg (double (IZR n / 100)))).
    { unfold read_size. rewrite span_app; [|exact DW|reflexivity]. destruct whole as [|c0 whole]; [congruence|]. rewrite C, D. cbn [andb]. rewrite (amount_value (c0 :: whole) c d n); auto. lia. }
    assert (RA : read_amount ((if neg then ["-"%char] else []) ++ whole ++ ["."%char; c; d]) = Some (GFin neg (double (IZR n / 100)))).
    { destruct neg; cbn [app]; [exact RS|]. rewrite <- RS. destruct whole as [|c0 whole]; [congruence|]. inversion DW as [|? ? D0 ?]; subst. cbn [app]. unfold read_amount. destruct c0 as [[] [] [] [] [] [] [] []]; try reflexivity. discriminate D0. }
    exists (double (IZR n / 100)). split; auto. destruct (Z.eq_dec n 0) as [->|Z0].
    + replace (0 / 100)%R with 0%R by lra. unfold double. rewrite Generic_fmt.round_0 by apply Generic_fmt.valid_rnd_N. split; [lra|]. rewrite Rminus_0_r, Rabs_R0. lra.
    + apply double_near. assert (X : (1 <= IZR n)%R) by (apply IZR_le; lia). lra.
Qed.

(** * Tables drawn alike *)
Section S.
Variable int_of : text -> bool.
Variable float_of : text -> option pyfloat.
Lemma printed_alike h col col' : length col = length col' -> column_type int_of float_of col = column_type int_of float_of col' ->
  map (format_cell float_of (column_type int_of float_of col)) col = map (format_cell float_of (column_type int_of float_of col)) col' -> printed_column int_of float_of h col = printed_column int_of float_of h col'.
Proof. intros L T E. unfold printed_column. destruct col as [|c col], col' as [|c' col']; try discriminate; auto. cbv zeta. rewrite <- T, <- E. reflexivity. Qed.
Lemma tabulate_alike h rows rows' : length rows = length rows' -> (forall j x, (j < length h)%nat -> printed_column int_of float_of x (column rows j) = printed_column int_of float_of x (column rows' j)) -> tabulate int_of float_of (h :: rows) = tabulate int_of float_of (h :: rows').
Proof.
  intros L H. unfold tabulate. rewrite <- L.
  replace (map (fun jh : nat * text => printed_column int_of float_of (snd jh) (column rows' (fst jh))) (combine (seq 0 (length h)) h)) with (map (fun jh : nat * text => printed_column int_of float_of (snd jh) (column rows (fst jh))) (combine (seq 0 (length h)) h)); auto.
  apply map_ext_in. intros [j x] I. cbn [fst snd]. apply H. apply in_combine_l, in_seq in I. lia.
Qed.
Hypothesis RN : reads_numbers int_of float_of.
(** Amounts of more than a million, in whole units. *)
Lemma large_amount t n m : (0 <= n < 10 ^ 300)%Z -> amount_text false n t -> (10 ^ 5 <= m < 10 ^ 6)%Z -> (10 ^ 8 < n < 10 ^ 9 - 1)%Z -> (Z.abs (n - m * 1000) <= 499)%Z -> format_cell float_of 2 t = general (m, 6%Z).
Proof.
  intros N A M B C. destruct RN as (_ & _ & R3). destruct (R3 t false n N A) as (_ & s & F & P & E). unfold format_cell. cbn [Z.eqb Pos.eqb]. rewrite F. cbn [format_g minus app].
  assert (B1 : (IZR (10 ^ 8 + 1) <= IZR n)%R) by (apply IZR_le; lia). assert (B2 : (IZR n <= IZR (10 ^ 9 - 2))%R) by (apply IZR_le; lia). change (10 ^ 8 + 1)%Z with 100000001%Z in B1. change (10 ^ 9 - 2)%Z with 999999998%Z in B2.
  assert (EB : (powerRZ 2 (-53) * (IZR n / 100) <= / 1000)%R).
  { apply Rle_trans with (powerRZ 2 (-53) * 10000000)%R; [apply Rmult_le_compat_l; [left; apply powerRZ_lt; lra|lra]|]. change (powerRZ 2 (-53)) with (/ 2 ^ 53)%R. replace (2 ^ 53)%R with (9007199254740992)%R by (cbn [pow]; lra). lra. }
  assert (E2 : (Rabs (s - IZR n / 100) <= / 1000)%R) by lra. apply Raux.Rabs_le_inv in E2.
  assert (S : six s = (m, 1 + 5)%Z).
  { apply six_round; auto; change (powerRZ 10 1) with (10 * 1)%R. - change (10 ^ 5)%Z with 100000%Z. change (10 ^ 6)%Z with 1000000%Z. lra.
    - change (powerRZ 10 (- (1)))%R with (/ (10 * 1))%R. assert (C1 : (IZR (n - m * 1000) <= 499)%R) by (apply IZR_le; lia). assert (C2 : (-499 <= IZR (n - m * 1000))%R) by (apply IZR_le; lia). rewrite minus_IZR, mult_IZR in C1, C2. apply Rabs_def1; lra. }
  destruct (Req_EM_T s 0) as [->|]; [lra|]. rewrite S. reflexivity.
Qed.
End S.
