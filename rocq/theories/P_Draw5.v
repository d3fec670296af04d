(** A reader of all numerals, to the nearest double. *)
From Verif Require Import Prelude M_Stoichiometry M_Text M_Csv M_Tables M_Print M_Json M_Tabulate Spec_Text Spec_Tables Spec_Print Spec_Tabulate P_Text P_File P_Tables P_Print P_Print3 P_General P_Tabulate P_Draw P_Draw2 P_Draw3.
From Coq Require Import Reals Lra Lia ClassicalEpsilon.
From Flocq Require Generic_fmt FLT.
Local Open Scope string_scope.
Local Open Scope list_scope.

Definition numeral_of (t : text) (nv : bool * R) : Prop := denotes t (fst nv) (snd nv).
Definition read_numeral (t : text) : option pyfloat :=
  match excluded_middle_informative (exists nv, numeral_of t nv) with
  | left H => let nv := proj1_sig (constructive_indefinite_description _ H) in Some (GFin (fst nv) (P_Draw3.double (snd nv)))
  | right _ => None
  end.
Definition read_int (t : text) : bool := match t with "-"%char :: d :: t' => forallb is_digit (d :: t') | d :: t' => forallb is_digit (d :: t') | [] => false end.
Lemma read_numeral_eq t neg v : denotes t neg v -> read_numeral t = Some (GFin neg (P_Draw3.double v)).
Proof.
  intros D. unfold read_numeral. destruct (excluded_middle_informative _) as [H|H].
  - destruct (constructive_indefinite_description _ H) as [[n w] E]. cbn [proj1_sig fst snd] in *. destruct (denotes_unique _ _ _ _ _ D E) as [-> ->]. reflexivity.
  - exfalso. apply H. now exists (neg, v).
Qed.
Lemma read_numeral_some t : read_numeral t <> None -> exists neg v, denotes t neg v.
Proof. unfold read_numeral. destruct (excluded_middle_informative _) as [[[n w] E]|H]; [|congruence]. intros _. now exists n, w. Qed.
Lemma value_pos t : digits t -> (0 <= value t)%Z.
Proof.
  intros D. assert (G : forall u a, digits u -> (0 <= a)%Z -> (0 <= fold_left (fun a c => 10 * a + (code c - 48))%Z u a)%Z).
  { induction u as [|c u IH]; intros a F P; cbn [fold_left]; auto. inversion F as [|? ? C F']; subst. apply IH; auto. unfold is_digit in C. cbn beta zeta in C. apply andb_prop in C. destruct C as [C _]. apply Z.leb_le in C. lia. }
  apply (G t 0%Z D). lia.
Qed.
Lemma denotes_pos t neg v : denotes t neg v -> (0 <= v)%R.
Proof.
  intros (ip & fp & ex & z & _ & _ & D & -> & _). apply Rmult_le_pos; [apply IZR_le; now apply value_pos|left; apply powerRZ_lt; lra].
Qed.
Lemma double_pos v : (0 <= v)%R -> (0 <= P_Draw3.double v)%R.
Proof. intros P. unfold P_Draw3.double. apply Generic_fmt.round_ge_generic; [apply FLT.FLT_exp_valid; reflexivity|apply Generic_fmt.valid_rnd_N|apply Generic_fmt.generic_format_0|lra]. Qed.
Lemma read_int_digits t : read_int t = true -> exists (neg : bool) (ip : text), t = (if neg then ["-"%char] else []) ++ ip /\ ip <> [] /\ digits ip.
Proof.
  intros H. assert (G : forall u, forallb is_digit u = true -> digits u) by (intros u E; apply Forall_forall; intros c I; rewrite forallb_forall in E; now apply E).
  destruct t as [|c t]; [discriminate|]. destruct (ascii_dec c "-"%char) as [->|N].
  - destruct t as [|d t]; [discriminate|]. exists true, (d :: t). split; auto. split; [discriminate|]. apply G, H.
  - exists false, (c :: t). split; auto. split; [discriminate|]. apply G. unfold read_int in H. destruct c as [[] [] [] [] [] [] [] []]; try exact H; congruence.
Qed.
Lemma int_denotes (neg : bool) (ip : text) : ip <> [] -> digits ip -> denotes ((if neg then ["-"%char] else []) ++ ip) neg (IZR (value ip)).
Proof.
  intros N D. exists ip, [], [], 0%Z. cbn [length]. rewrite !app_nil_r. repeat (split; [auto|]); [cbn; now rewrite Rmult_1_r|]. left. auto.
Qed.
Lemma numerals_ok : reads_numerals read_int read_numeral.
Proof.
  split; [|split].
  - intros t neg v D. rewrite (read_numeral_eq _ _ _ D). discriminate.
  - intros t neg s E. destruct (read_numeral_some t) as (n & v & D); [congruence|]. rewrite (read_numeral_eq _ _ _ D) in E. injection E as <- <-. eapply double_pos, denotes_pos, D.
  - intros t H. destruct (read_int_digits t H) as (neg & ip & -> & _ & D). unfold digits in D. rewrite Forall_forall in D.
    split; intros I; apply in_app_iff in I; destruct I as [I|I]; try (specialize (D _ I); discriminate); destruct neg; cbn [In] in I; try (destruct I as [I|I]; [discriminate|]); destruct I.
Qed.
Lemma numbers_ok : reads_numbers read_int read_numeral.
Proof.
  split; [|split].
  - intros t H. destruct (read_numeral_some t H) as (neg & v & ip & fp & ex & z & -> & NI & D & _). destruct ip as [|c ip]; [congruence|]. exists c. split; [apply in_app_iff; right; now left|left; now inversion D].
  - intros t H. destruct (read_int_digits t H) as (neg & ip & -> & NI & D). rewrite (read_numeral_eq _ _ _ (int_denotes neg ip NI D)). discriminate.
  - intros t neg n N A. pose proof A as (whole & c & d & -> & W & C & D & V). pose proof W as (NW & DW & VW & _). split.
    + destruct (read_int ((if neg then ["-"%char] else []) ++ whole ++ ["."%char; c; d])) eqn:E; auto. destruct numerals_ok as (_ & _ & H). destruct (H _ E) as [X _]. exfalso. apply X. apply in_app_iff. right. apply in_app_iff. right. now left.
    + assert (DN : denotes ((if neg then ["-"%char] else []) ++ whole ++ ["."%char; c; d]) neg (IZR n / 100)).
      { exists whole, [c; d], [], 0%Z. rewrite app_nil_r. split; auto. split; auto. split; [apply Forall_app; split; auto|]. split; [|left; auto]. rewrite (amount_value whole c d n); auto; [|lia]. cbn [length Z.of_nat Pos.of_succ_nat Pos.succ Z.sub Z.add Z.opp]. change (powerRZ 10 (-2)) with (/ (10 * (10 * 1)))%R. field. }
      rewrite (read_numeral_eq _ _ _ DN). exists (P_Draw3.double (IZR n / 100)). split; auto. destruct (Z.eq_dec n 0) as [->|Z0].
      * replace (0 / 100)%R with 0%R by lra. unfold P_Draw3.double. rewrite Generic_fmt.round_0 by apply Generic_fmt.valid_rnd_N. split; [lra|]. rewrite Rminus_0_r, Rabs_R0. lra.
      * apply double_near. assert (X : (1 <= IZR n)%R) by (apply IZR_le; lia). lra.
Qed.
