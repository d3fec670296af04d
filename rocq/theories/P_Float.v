(** Proofs about [M_Float] arrays of finite numbers. *)
From Verif Require Import Prelude M_Lists M_Float Spec_Material P_Convert P_Content.
From Coq Require Import Field.
Local Open Scope list_scope.

Lemma fsum_fin ms : fsum (map Fin ms) = Fin (Qcsum ms).
Proof.
  unfold fsum. assert (H : forall a, fold_left fadd (map Fin ms) (Fin a) = Fin (a + Qcsum ms)%Qc).
  { induction ms as [|x ms IH]; intros a; cbn [map fold_left]. - f_equal. unfold Qcsum; cbn; ring.
    - cbn [fadd]. rewrite IH. f_equal. rewrite sum_cons. ring. }
  rewrite H. f_equal. ring.
Qed.
Lemma array_mul_fin ms k : array_mul (map Fin ms) (Fin k) = map Fin (scaled k ms).
Proof. unfold array_mul, scaled. rewrite !map_map. apply map_ext. intros x. cbn [fmul]. f_equal. ring. Qed.
Lemma is_zero_false q : q <> 0%Qc -> is_zero q = false.
Proof. intros H. unfold is_zero. destruct (Qc_eq_bool q 0) eqn:E; auto. apply Qc_eq_bool_correct in E. congruence. Qed.
Lemma fdiv_fin x y : y <> 0%Qc -> fdiv (Fin x) (Fin y) = Fin (x / y)%Qc.
Proof. intros H. cbn [fdiv]. now rewrite is_zero_false. Qed.
Lemma fdiv_one x : fdiv (Fin x) (Fin 1) = Fin x.
Proof. rewrite fdiv_fin by discriminate. f_equal. field. discriminate. Qed.
Lemma array_div_fin ms k : k <> 0%Qc -> array_div (map Fin ms) (Fin k) = map Fin (scaled (/ k) ms).
Proof. intros H. unfold array_div, scaled. rewrite !map_map. apply map_ext. intros x. rewrite fdiv_fin by auto. f_equal. field. auto. Qed.
Lemma zip_add_fin a b : length a = length b -> zip_add (map Fin a) (map Fin b) = map Fin (plus_lists a b).
Proof. revert b. induction a as [|x a IH]; intros [|y b] H; try discriminate; auto. cbn [map zip_add plus_lists fadd]. rewrite IH; auto. Qed.
Lemma array_add_fin a b : length a = length b -> array_add (map Fin a) (map Fin b) = Ok (map Fin (plus_lists a b)).
Proof. intros H. unfold array_add. rewrite !map_length, H, Nat.eqb_refl, zip_add_fin by auto. reflexivity. Qed.
Lemma qlt_iff a b : qlt a b = true <-> (a < b)%Qc.
Proof. unfold qlt. destruct (Qclt_le_dec a b) as [H|H]; split; auto; try discriminate. intros K. exfalso. exact (Qclt_not_le _ _ K H). Qed.
Lemma qlt_false a b : qlt a b = false <-> (b <= a)%Qc.
Proof. unfold qlt. destruct (Qclt_le_dec a b) as [H|H]; split; auto; try discriminate. intros K. exfalso. exact (Qclt_not_le _ _ H K). Qed.

(** * Changing one entry *)
Definition put {A} (i : nat) (z : A) (l : list A) : list A := firstn i l ++ z :: skipn (S i) l.
Lemma put_at {A} (u : list A) x v z : put (length u) z (u ++ x :: v) = u ++ z :: v.
Proof.
  unfold put. rewrite firstn_app, Nat.sub_diag, firstn_all. cbn [firstn]. rewrite app_nil_r. f_equal. f_equal.
  induction u as [|y u IH]; [reflexivity|]. cbn [length app]. exact IH.
Qed.
Lemma set_nth_put {A} (l : list A) i z : (i < length l)%nat -> set_nth l i z = Ok (put i z l).
Proof.
  intros H. destruct (nth_error l i) as [x|] eqn:E; [|apply nth_error_None in E; lia]. destruct (nth_error_split _ _ E) as (u & v & -> & <-). rewrite set_nth_at, put_at. reflexivity.
Qed.
Lemma map_put {A B} (f : A -> B) i z l : map f (put i z l) = put i (f z) (map f l).
Proof. unfold put. rewrite map_app. cbn [map]. now rewrite firstn_map, skipn_map. Qed.
Lemma put_length {A} (l : list A) i z : (i < length l)%nat -> length (put i z l) = length l.
Proof. intros H. unfold put. rewrite app_length. cbn [length]. rewrite firstn_length, skipn_length. lia. Qed.
Lemma put_same {A} (l : list A) i x : nth_error l i = Some x -> put i x l = l.
Proof. intros E. destruct (nth_error_split _ _ E) as (u & v & -> & <-). apply put_at. Qed.
Lemma put_zero l i x : (i < length l)%nat -> put i x (scaled 0 l) = only (length l) i x.
Proof.
  intros H. unfold put, only, scaled. rewrite (map_ext _ (fun _ => 0%Qc)) by (intros; ring). rewrite map_zero.
  rewrite (repeat_split 0%Qc i (length l)) by auto. pose proof (put_at (repeat 0%Qc i) 0%Qc (repeat 0%Qc (length l - i - 1)) x) as P. rewrite repeat_length in P. exact P.
Qed.
Lemma plus_only ms i x z : (i < length ms)%nat -> plus_lists (only (length ms) i x) (put i z ms) = put i (x + z)%Qc ms.
Proof.
  intros H. destruct (nth_error ms i) as [y|] eqn:E; [|apply nth_error_None in E; lia]. destruct (nth_error_split _ _ E) as (u & v & -> & L). subst i. rewrite !put_at. unfold only.
  rewrite plus_app by now rewrite repeat_length. cbn [plus_lists]. rewrite plus_zero_l. replace (length (u ++ y :: v) - length u - 1)%nat with (length v) by (rewrite app_length; cbn; lia). rewrite plus_zero_l. reflexivity.
Qed.
Lemma only_length n i x : (i < n)%nat -> length (only n i x) = n.
Proof. intros H. unfold only. rewrite app_length. cbn [length]. rewrite !repeat_length. lia. Qed.

Section Put.
Context {C : Type} (dec : forall a b : C, {a = b} + {a <> b}).
Lemma put_spec ns ms i c : length ms = length ns -> index_of dec c ns = Ok i ->
  exists y, nth_error ms i = Some y /\ (i < length ms)%nat /\ nth_error ns i = Some c /\
    (NoDup ns -> content dec ns ms c = y) /\
    (forall z, Qcsum (put i z ms) = (Qcsum ms - y + z)%Qc) /\
    (forall z d, content dec ns (put i z ms) d = (content dec ns ms d + if dec c d then z - y else 0)%Qc).
Proof.
  intros L H. apply index_ok in H. destruct H as [H _]. destruct (nth_split_both _ _ _ _ (eq_sym L) H) as (u & v & y & u' & v' & E1 & E2 & L1 & L2 & L3). exists y.
  assert (Y : nth_error ms i = Some y) by (rewrite E2, <- L2; apply nth_at). split; auto. split; [apply nth_error_Some; congruence|]. split; auto. split.
  - intros N. eapply content_nth; eauto.
  - split.
    + intros z. rewrite E2, <- L2, put_at, !sum_app, !sum_cons. ring.
    + intros z d. rewrite E1, E2, <- L2, put_at, !content_app, !content_cons by lia. destruct (dec c d); ring.
Qed.
End Put.
