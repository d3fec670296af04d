(** Proofs about transport phenomena. *)
From Verif Require Import Prelude M_Lists M_Thermochem M_ThermoMat M_Coals M_Stoichiometry M_Physical M_Transport Spec_Transport P_Physical.
From Coq Require Import Reals Lra Lia Psatz.
Local Open Scope list_scope.
Local Open Scope R_scope.

(** * Regions *)
Lemma filter_find {A} (f : A -> bool) l : match filter f l with [] => None | a :: _ => Some a end = find f l.
Proof. induction l as [|a l IH]; cbn; auto. destruct (f a); auto. Qed.
Lemma select_find theta Ra : select theta Ra = match find (fun rc => contains_point (fst rc) theta Ra) regions with Some rc => Ok (snd rc) | None => Err IndexError end.
Proof. unfold select. rewrite <- filter_find. now destruct (filter _ _). Qed.
Ltac decide_regions :=
  repeat (match goal with
  | |- context [if Rle_dec ?a ?b then _ else _] => destruct (Rle_dec a b); try (exfalso; lra)
  | |- context [if Rlt_dec ?a ?b then _ else _] => destruct (Rlt_dec a b); try (exfalso; lra)
  end; cbn [andb]).
Lemma select_chart theta Ra : -90 <= theta <= 90 -> (theta = 0 -> Ra <> 11) -> (theta = 88 -> 6 <= Ra) -> select theta Ra = Ok (chart theta Ra).
Proof.
  intros T A B. rewrite select_find. unfold chart, regions, contains_point, above, below. cbn [find fst snd rg_tmin rg_tmin_incl rg_tmax rg_tmax_incl rg_rmin rg_rmin_incl rg_rmax rg_rmax_incl].
  destruct (Req_dec theta 0) as [E|E]; [specialize (A E)|clear A].
  - assert (N : Ra < 11 \/ 11 < Ra) by (apply Rdichotomy; auto). destruct N; decide_regions; reflexivity.
  - destruct (Req_dec theta 88) as [F|F]; [specialize (B F)|clear B]; assert (M : theta < 0 \/ 0 < theta) by (apply Rdichotomy; auto).
    + decide_regions; reflexivity.
    + assert (N : theta < 88 \/ 88 < theta) by (apply Rdichotomy; auto). destruct M, N; decide_regions; reflexivity.
Qed.
Lemma select_0_11 : select 0 11 = Ok Nu_8_27.
Proof.
  rewrite select_find. unfold regions, contains_point, above, below. cbn [find fst snd rg_tmin rg_tmin_incl rg_tmax rg_tmax_incl rg_rmin rg_rmin_incl rg_rmax rg_rmax_incl]. decide_regions; reflexivity.
Qed.
Lemma select_88 Ra : Ra < 6 -> select 88 Ra = Err IndexError.
Proof.
  intros H. rewrite select_find. unfold regions, contains_point, above, below. cbn [find fst snd rg_tmin rg_tmin_incl rg_tmax rg_tmax_incl rg_rmin rg_rmin_incl rg_rmax rg_rmax_incl]. decide_regions; reflexivity.
Qed.
Lemma select_outside theta Ra : theta < -90 \/ 90 < theta -> select theta Ra = Err IndexError.
Proof.
  intros [H|H]; rewrite select_find; unfold regions, contains_point, above, below; cbn [find fst snd rg_tmin rg_tmin_incl rg_tmax rg_tmax_incl rg_rmin rg_rmin_incl rg_rmax rg_rmax_incl]; decide_regions; reflexivity.
Qed.
