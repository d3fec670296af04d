From Verif Require Import Prelude M_Elements M_Stoichiometry Spec_Stoich P_Stoich P_Count P_Convert M_Ieee Spec_Ieee M_FloatMix M_FloatLoan M_FloatStoich Spec_FloatStoich P_Ieee P_FloatReports P_FloatReports2 P_FloatMix P_FloatLoan P_FloatLoan2 P_Within.
From Coq Require Import Reals List Lra Lia ZArith.
From Flocq Require Import Core BinarySingleNaN.
Import ListNotations.
Local Open Scope list_scope.
Local Open Scope Z_scope.

(** * Whole numbers up to 2^53 are exact *)
Notation B53 := (2 ^ 53).
Lemma whole_fmt z : 0 <= z <= B53 -> rnd (IZR z) = IZR z.
Proof.
  intros H. apply round_generic; [apply valid_rnd_N|]. replace (IZR z) with (IZR z * bpow radix2 0)%R by (cbn; ring). apply multiple_format; lia.
Qed.
Lemma whole_small z : 0 <= z <= B53 -> (Rabs (IZR z) < bpow radix2 1024)%R.
Proof.
  intros H. rewrite Rabs_pos_eq by (apply IZR_le; lia). apply Rle_lt_trans with (IZR B53); [apply IZR_le; lia|]. change (IZR B53) with (bpow radix2 53). apply bpow_lt. lia.
Qed.
Lemma normal_whole z : 0 <= z <= B53 -> let x := binary_normalize 53 1024 _ _ mode_NE z 0 false in finite x /\ value x = IZR z.
Proof.
  intros H x. pose proof (binary_normalize_correct 53 1024 _ _ mode_NE z 0 false) as C. change (round_mode mode_NE) with ZnearestE in C. fold x in C. cbv zeta in C.
  assert (V : F2R (Float radix2 z 0) = IZR z) by (unfold F2R; cbn [Fnum Fexp bpow]; ring). rewrite V, (whole_fmt z H) in C.
  rewrite Rlt_bool_true in C by now apply whole_small. destruct C as (C1 & C2 & _). auto.
Qed.
Lemma int_exact z : 0 <= z <= B53 -> exists x, float_of_int z = Ok x /\ finite x /\ value x = IZR z.
Proof.
  intros H. destruct (normal_whole z H) as [F V]. unfold float_of_int. set (x := binary_normalize 53 1024 _ _ mode_NE z 0 false) in *. exists x. unfold finite in F. rewrite F. auto.
Qed.
Lemma qZ_le_inv a b : (q_of_Z a <= q_of_Z b)%Qc -> a <= b.
Proof. unfold Qcle, q_of_Z. cbn [this Q2Qc]. rewrite !Qred_correct. unfold Qle, inject_Z. cbn. lia. Qed.
Lemma qZ_nonneg z : 0 <= z -> (0 <= q_of_Z z)%Qc. Proof. intros H. rewrite <- qZ_0. now apply qZ_le. Qed.

Definition is_count (x : float64) (v : Qc) : Prop := exists z, 0 <= z <= B53 /\ v = q_of_Z z /\ finite x /\ value x = IZR z.
Definition cnt (fd : fcounts) (d : counts) : Prop := Forall2 (fun a b => fst a = fst b /\ is_count (snd a) (snd b)) fd d.
Definition is_num (x : number) (v : Qc) : Prop := match x with NInt z => 0 <= z <= B53 /\ v = q_of_Z z | NFloat f => is_count f v end.
Definition reps (c' : list (string * number)) (c : counts) : Prop := Forall2 (fun a b => fst a = fst b /\ is_num (snd a) (snd b)) c' c.
Lemma num_nonneg x v : is_num x v -> (0 <= v)%Qc.
Proof. destruct x as [z|f]; [intros [H ->]|intros (z & H & -> & _)]; apply qZ_nonneg; lia. Qed.
Lemma zero_count : is_count zero64 0%Qc. Proof. exists 0. split; [lia|]. split; [now rewrite qZ_0|]. split; reflexivity. Qed.

Lemma add_whole x y a b : finite x -> finite y -> value x = IZR a -> value y = IZR b -> 0 <= a + b <= B53 -> finite (add64 x y) /\ value (add64 x y) = IZR (a + b).
Proof.
  intros Fx Fy Vx Vy H. assert (E : (value x + value y)%R = IZR (a + b)) by (rewrite Vx, Vy, plus_IZR; reflexivity).
  destruct (add_ok x y Fx Fy) as [F V]; [rewrite E, (whole_fmt _ H); now apply whole_small|]. split; auto. now rewrite V, E, whole_fmt.
Qed.
Lemma num_add_ok d v x w : is_count d v -> is_num x w -> (v + w <= q_of_Z B53)%Qc -> exists y, num_add d x = Ok y /\ is_count y (v + w)%Qc.
Proof.
  intros (a & A & -> & F & V) X L. destruct x as [z|f].
  - destruct X as [Z ->]. rewrite <- qZ_plus in *. apply qZ_le_inv in L. destruct (int_exact z Z) as (g & G & Fg & Vg). cbn [num_add]. rewrite G. cbn [bind].
    destruct (add_whole d g a z F Fg V Vg ltac:(lia)) as [F' V']. exists (add64 d g). split; auto. exists (a + z). split; [lia|]. auto.
  - destruct X as (z & Z & -> & Fg & Vg). rewrite <- qZ_plus in *. apply qZ_le_inv in L. cbn [num_add].
    destruct (add_whole d f a z F Fg V Vg ltac:(lia)) as [F' V']. exists (add64 d f). split; auto. exists (a + z). split; [lia|]. auto.
Qed.
Lemma num_mul_ok x v m : is_num x v -> 0 <= m <= B53 -> (v * q_of_Z m <= q_of_Z B53)%Qc -> exists y, num_mul x m = Ok y /\ is_num y (v * q_of_Z m)%Qc.
Proof.
  intros X M L. destruct x as [z|f].
  - destruct X as [Z ->]. rewrite <- qZ_mult in *. apply qZ_le_inv in L. exists (NInt (z * m)). split; auto. cbn. split; [nia|auto].
  - destruct X as (z & Z & -> & F & V). rewrite <- qZ_mult in *. apply qZ_le_inv in L. destruct (int_exact m M) as (g & G & Fg & Vg). cbn [num_mul]. rewrite G. cbn [bind].
    assert (ZM : 0 <= z * m <= B53) by nia. assert (E : (value f * value g)%R = IZR (z * m)) by (rewrite V, Vg, mult_IZR; reflexivity).
    destruct (P_FloatMix.mul_ok f g F Fg) as [F' V']; [rewrite E, (whole_fmt _ ZM); now apply whole_small|].
    exists (NFloat (mul64 f g)). split; auto. exists (z * m). split; [lia|]. split; auto. split; auto. now rewrite V', E, whole_fmt.
Qed.

Lemma get_add k k' x d : get_count k (add_count k' x d) = (get_count k d + (if String.eqb k k' then x else 0))%Qc.
Proof.
  induction d as [|[j v] d IH]; cbn [add_count get_count].
  - destruct (String.eqb k k'); ring.
  - destruct (String.eqb_spec k' j) as [->|N]; cbn [get_count].
    + destruct (String.eqb k j); ring.
    + rewrite IH. destruct (String.eqb_spec k j) as [->|N']; [|reflexivity]. destruct (String.eqb_spec j k'); [congruence|ring].
Qed.
Lemma get_adds k m c : forall d, get_count k (add_counts m c d) = (get_count k d + q_of_Z m * lin (indicator k) c)%Qc.
Proof.
  unfold add_counts. induction c as [|[j v] c IH]; intros d; cbn [fold_left fst snd].
  - unfold lin, Qcsum. cbn. ring.
  - rewrite IH, get_add, lin_cons. unfold indicator at 2. destruct (String.eqb k j); ring.
Qed.
Lemma lin_nonneg k c : (forall j v, In (j, v) c -> 0 <= v)%Qc -> (0 <= lin (indicator k) c)%Qc.
Proof.
  induction c as [|[j v] c IH]; intros H; [unfold lin, Qcsum; cbn; apply Qcle_refl|]. rewrite lin_cons. rewrite <- (Qcplus_0_r 0). apply Qcplus_le_compat.
  - unfold indicator. destruct (String.eqb k j); [rewrite Qcmult_1_l; apply (H j); now left|rewrite Qcmult_0_l; apply Qcle_refl].
  - apply IH. intros i w I. apply (H i). now right.
Qed.
Lemma reps_nonneg c' c : reps c' c -> forall j v, In (j, v) c -> (0 <= v)%Qc.
Proof.
  induction 1 as [|a [i w] c' c [_ N] _ IH]; intros j v I; [destruct I|]. destruct I as [I|I]; [|eauto]. injection I as <- <-. cbn in N. now apply num_nonneg in N.
Qed.
Lemma fadd_ok k x w fd d : cnt fd d -> is_num x w -> (get_count k d + w <= q_of_Z B53)%Qc -> exists fd', fadd_count k x fd = Ok fd' /\ cnt fd' (add_count k w d).
Proof.
  intros C N. induction C as [|[i a] [j v] fd d [E V] C IH]; intros L; cbn [fadd_count add_count get_count] in *.
  - destruct (num_add_ok zero64 0%Qc x w zero_count N L) as (y & Y & K). rewrite Y. cbn [bind]. eexists. split; [reflexivity|]. constructor; [|constructor]. cbn. auto.
  - cbn in E, V. subst j. destruct (String.eqb k i).
    + destruct (num_add_ok a v x w V N L) as (y & Y & K). rewrite Y. cbn [bind]. eexists. split; [reflexivity|]. constructor; auto.
    + destruct (IH L) as (fd' & Y & K). rewrite Y. cbn [bind]. eexists. split; [reflexivity|]. constructor; auto.
Qed.
Lemma qc_grow a b c : (a + b <= c -> 0 <= b -> a <= c)%Qc.
Proof. intros H B. eapply Qcle_trans; [|exact H]. rewrite <- (Qcplus_0_r a) at 1. apply Qcplus_le_compat; [apply Qcle_refl|exact B]. Qed.
Lemma qc_mul_nonneg a b : (0 <= a -> 0 <= b -> 0 <= a * b)%Qc.
Proof. intros A B. rewrite <- (Qcmult_0_l b). now apply Qcmult_le_compat_r. Qed.
Lemma cnt_nonneg fd d k : cnt fd d -> (0 <= get_count k d)%Qc.
Proof.
  induction 1 as [|[i a] [j v] fd d [_ V] _ IH]; cbn [get_count]; [apply Qcle_refl|]. destruct (String.eqb k j); auto. destruct V as (z & Z & E & _). cbn in E. rewrite E. apply qZ_nonneg. lia.
Qed.
Lemma fadds_ok m c' c : reps c' c -> 0 <= m <= B53 -> forall fd d, cnt fd d -> (forall k, (get_count k (add_counts m c d) <= q_of_Z B53)%Qc) ->
  exists fd', fadd_counts m c' fd = Ok fd' /\ cnt fd' (add_counts m c d).
Proof.
  intros R M. induction R as [|[i x] [j v] c' c [E N] R IH]; intros fd d C L.
  - exists fd. split; auto.
  - cbn in E, N. subst j. unfold fadd_counts in *. unfold add_counts in *. cbn [foldM fold_left fst snd] in *. change (fold_left (fun d kv => add_count (fst kv) (snd kv * q_of_Z m)%Qc d) c ?d) with (add_counts m c d) in *.
    assert (K : (get_count i d + v * q_of_Z m <= q_of_Z B53)%Qc).
    { specialize (L i). rewrite get_adds, get_add, String.eqb_refl in L. eapply qc_grow; [exact L|]. apply qc_mul_nonneg; [apply qZ_nonneg; lia|]. apply lin_nonneg, (reps_nonneg _ _ R). }
    destruct (num_mul_ok x v m N M) as (y & Y & Ny). { rewrite Qcplus_comm in K. eapply qc_grow; [exact K|]. eapply cnt_nonneg, C. }
    rewrite Y. cbn [bind]. destruct (fadd_ok i y _ fd d C Ny K) as (fd' & Z & C'). rewrite Z. cbn [bind]. apply IH; auto.
Qed.

(** * Parts *)
Fixpoint wfp (p : part) : Prop :=
  match p with
  | PElement _ => True
  | PGroup g m => 0 <= m <= B53 /\ (1 <= m \/ exists e, g = [PElement e]) /\ (fix all l := match l with [] => True | x :: l' => wfp x /\ all l' end) g
  end.
Lemma wfp_group g m : wfp (PGroup g m) <-> 0 <= m <= B53 /\ (1 <= m \/ exists e, g = [PElement e]) /\ Forall wfp g.
Proof.
  cbn [wfp]. enough (X : (fix all l := match l with [] => True | x :: l' => wfp x /\ all l' end) g <-> Forall wfp g) by tauto.
  induction g as [|x g IH]; [split; auto|]. rewrite Forall_cons_iff, <- IH. tauto.
Qed.
Lemma indicator_nonneg k s : (0 <= indicator k s)%Qc.
Proof. unfold indicator. destruct (String.eqb k s); discriminate. Qed.
Lemma part_nonneg k p : wfp p -> (0 <= lin (indicator k) (part_count p))%Qc.
Proof.
  rewrite lin_part. induction p as [e|g m IH] using part_rect'; intros W; cbn [part_lin]; [apply indicator_nonneg|].
  apply wfp_group in W as (M & _ & W). apply qc_mul_nonneg; [apply qZ_nonneg; lia|]. clear M. induction W as [|x g Wx W IHg]; cbn [fold_right]; [apply Qcle_refl|].
  inversion IH as [|? ? Hx Hg]; subst. rewrite <- (Qcplus_0_r 0). apply Qcplus_le_compat; auto.
Qed.
Definition fgroup (m : Z) (g : list part) (d : fcounts) : res fcounts := foldM (fun d x => do n <- fpart_count x; fadd_counts m n d) g d.
Lemma fpart_group g m : fpart_count (PGroup g m) = do d <- fgroup m g []; Ok (map (fun kv => (fst kv, NFloat (snd kv))) d).
Proof.
  cbn [fpart_count]. f_equal. generalize (@nil (string * float64)). unfold fgroup. induction g as [|x g IH]; intros d; cbn [foldM]; [reflexivity|].
  destruct (fpart_count x); cbn [bind]; auto. destruct (fadd_counts m a d); cbn [bind]; auto.
Qed.
Definition small (p : part) : Prop := forall k, (get_count k (part_count p) <= q_of_Z B53)%Qc.
Lemma get_part k p : get_count k (part_count p) = lin (indicator k) (part_count p). Proof. apply get_count_lin, nodup_part. Qed.
Lemma group_lin_ge k g : Forall wfp g -> (0 <= fold_right (fun x a => part_lin (indicator k) x + a) 0 g)%Qc.
Proof.
  induction 1 as [|x g W _ IH]; cbn [fold_right]; [apply Qcle_refl|]. rewrite <- (Qcplus_0_r 0). apply Qcplus_le_compat; auto. rewrite <- lin_part. now apply part_nonneg.
Qed.
Lemma qc_one_le m v : 1 <= m -> (0 <= v)%Qc -> (v <= q_of_Z m * v)%Qc.
Proof. intros M V. rewrite <- (Qcmult_1_l v) at 1. apply Qcmult_le_compat_r; auto. rewrite <- qZ_1. now apply qZ_le. Qed.
Lemma fold_counts k m g : forall d, get_count k (fold_left (fun d x => add_counts m (part_count x) d) g d) = (get_count k d + q_of_Z m * fold_right (fun x a => part_lin (indicator k) x + a) 0 g)%Qc.
Proof. induction g as [|x g IH]; intros d; cbn [fold_left fold_right]; [ring|]. rewrite IH, get_adds, lin_part. ring. Qed.
Lemma fgroup_ok m : 0 <= m <= B53 -> forall g, Forall (fun p => small p -> exists c, fpart_count p = Ok c /\ reps c (part_count p)) g -> Forall wfp g -> (1 <= m \/ exists e, g = [PElement e]) ->
  forall fd d, cnt fd d -> (forall k, (get_count k (fold_left (fun d x => add_counts m (part_count x) d) g d) <= q_of_Z B53)%Qc) ->
  exists fd', fgroup m g fd = Ok fd' /\ cnt fd' (fold_left (fun d x => add_counts m (part_count x) d) g d).
Proof.
  intros M g H W. revert H. induction W as [|x g Wx W IH]; intros H O fd d C L.
  - exists fd. split; auto.
  - apply Forall_cons_iff in H as [Hx H]. unfold fgroup in *. cbn [foldM fold_left] in *.
    assert (L1 : forall k, (get_count k d + q_of_Z m * lin (indicator k) (part_count x) <= q_of_Z B53)%Qc).
    { intros k. specialize (L k). rewrite fold_counts, get_adds in L. eapply qc_grow; [exact L|]. apply qc_mul_nonneg; [apply qZ_nonneg; lia|]. now apply group_lin_ge. }
    assert (S : small x).
    { destruct O as [O|[e O]].
      - intros k. rewrite get_part. specialize (L1 k). rewrite Qcplus_comm in L1. apply qc_grow in L1; [|eapply cnt_nonneg, C]. eapply Qcle_trans; [|exact L1]. apply qc_one_le; auto. now apply part_nonneg.
      - injection O as -> _. intros k. cbn [part_count get_count]. destruct (String.eqb k (el_symbol e)); [rewrite <- qZ_1|rewrite <- qZ_0]; apply qZ_le; lia. }
    destruct (Hx S) as (c & -> & R). cbn [bind]. destruct (fadds_ok m c (part_count x) R M fd d C) as (fd' & -> & C'). { intros k. rewrite get_adds. apply L1. }
    cbn [bind]. destruct O as [O|[e O]]; [|injection O as _ ->; exists fd'; split; auto]. now apply IH; auto.
Qed.
Lemma part_ok p : wfp p -> small p -> exists c, fpart_count p = Ok c /\ reps c (part_count p).
Proof.
  induction p as [e|g m IH] using part_rect'; intros W S.
  - eexists. split; [reflexivity|]. constructor; [|constructor]. cbn. split; auto. split; [lia|now rewrite qZ_1].
  - apply wfp_group in W as (M & O & W). rewrite fpart_group, part_count_group.
    assert (IH' : Forall (fun p => small p -> exists c, fpart_count p = Ok c /\ reps c (part_count p)) g).
    { apply Forall_forall. intros x I. rewrite Forall_forall in IH, W. auto. }
    destruct (fgroup_ok m M g IH' W O [] [] ltac:(constructor)) as (fd & -> & C). { unfold small in S. now rewrite part_count_group in S. }
    cbn [bind]. eexists. split; [reflexivity|]. clear -C. induction C as [|[i a] [j v] fd d [E V] C IH]; cbn [map]; constructor; auto.
Qed.
Lemma compound_ok c : Forall wfp (c_group c) -> (forall k, (get_count k (compound_count c) <= q_of_Z B53)%Qc) -> exists fd, fcompound_count c = Ok fd /\ cnt fd (compound_count c).
Proof.
  intros W S. unfold compound_count in *. rewrite part_count_group in *. unfold fcompound_count.
  apply (fgroup_ok 1 ltac:(lia) (c_group c)); auto; [|left; lia|constructor]. apply Forall_forall. intros x I. rewrite Forall_forall in W. intros Sx. apply part_ok; auto.
Qed.

(** * What the visitor builds *)
Lemma wf_visit i p : visit_item i = Ok p -> (forall n, In n (item_numbers i) -> 0 <= n <= B53) -> wfp p.
Proof.
  revert p. induction i as [t|t n|g n IH] using item_rect'; intros p V N.
  - cbn [visit_item] in V. destruct (visit_element t); cbn [bind] in V; [|discriminate]. injection V as <-. exact I.
  - cbn [visit_item] in V. destruct (visit_element t); cbn [bind] in V; [|discriminate]. injection V as <-. apply wfp_group. rewrite int_decimal. split; [apply N; now left|]. split; [right; eauto|]. repeat constructor.
  - rewrite visit_subgroup in V. destruct (mapM visit_item g) as [l|] eqn:E; cbn [bind] in V; [|discriminate]. injection V as <-.
    assert (W : Forall wfp l).
    { assert (N' : forall n, In n (flat_map item_numbers g) -> 0 <= n <= B53) by (intros m I; apply N; cbn [item_numbers]; apply in_or_app; auto). clear N. revert l E. induction IH as [|x g Hx _ IHg]; intros l E; cbn [mapM] in E.
      - injection E as <-. constructor.
      - destruct (visit_item x) as [y|] eqn:Y; cbn [bind] in E; [|discriminate]. destruct (mapM visit_item g) as [l'|]; cbn [bind] in E; [|discriminate]. injection E as <-.
        constructor; [apply Hx; auto; intros m I; apply N'; cbn [flat_map]; apply in_or_app; auto|]. apply IHg; auto. intros m I. apply N'. cbn [flat_map]. apply in_or_app. auto. }
    apply wfp_group. rewrite number_multiplier.
    assert (M : 1 <= group_multiplier n <= B53).
    { unfold group_multiplier. destruct n as [t|]; [|lia]. destruct (Z.eqb_spec (decimal t) 0); [lia|]. specialize (N (decimal t)). cbn [item_numbers opt_numbers app] in N. specialize (N (or_introl eq_refl)). lia. }
    split; [lia|]. split; [left; lia|]. constructor; [|constructor]. apply wfp_group. split; [lia|]. split; [left; lia|exact W].
Qed.
Lemma wf_group g p : visit_group g = Ok p -> (forall n, In n (flat_map item_numbers g) -> 0 <= n <= B53) -> wfp p.
Proof.
  unfold visit_group. destruct (mapM visit_item g) as [l|] eqn:E; cbn [bind]; [|discriminate]. intros V N. injection V as <-. apply wfp_group. split; [lia|]. split; [left; lia|].
  revert l E. induction g as [|x g IHg]; intros l E; cbn [mapM] in E.
  - injection E as <-. constructor.
  - destruct (visit_item x) as [y|] eqn:Y; cbn [bind] in E; [|discriminate]. destruct (mapM visit_item g) as [l'|]; cbn [bind] in E; [|discriminate]. injection E as <-.
    constructor; [eapply wf_visit; [exact Y|]; intros m I; apply N; cbn [flat_map]; apply in_or_app; auto|]. apply IHg; auto. intros m I. apply N. cbn [flat_map]. apply in_or_app. auto.
Qed.
Lemma wf_compound f c : visit_compound f = Ok c -> (forall n, In n (numbers f) -> 0 <= n <= B53) -> Forall wfp (c_group c).
Proof.
  unfold visit_compound, numbers. intros V N. destruct (visit_group (f_group f)) as [p|] eqn:E; cbn [bind] in V; [|discriminate].
  assert (W : wfp p) by (eapply wf_group; [exact E|]; intros m I; apply N, in_or_app; auto).
  destruct (f_dotted f) as [[n g]|]; [|injection V as <-; constructor; auto]. destruct (visit_group g) as [q|] eqn:G; cbn [bind] in V; [|discriminate]. injection V as <-.
  assert (W' : wfp q) by (eapply wf_group; [exact G|]; intros m I; apply N, in_or_app; right; apply in_or_app; auto).
  constructor; auto. constructor; [|constructor]. apply wfp_group. rewrite number_multiplier.
  assert (M : 1 <= group_multiplier n <= B53).
  { unfold group_multiplier. destruct n as [t|]; [|lia]. destruct (Z.eqb_spec (decimal t) 0); [lia|]. specialize (N (decimal t)). assert (0 <= decimal t <= B53); [|lia]. apply N, in_or_app. right. now left. }
  split; [lia|]. split; [left; lia|]. constructor; auto.
Qed.
Lemma gen_numbers : (forall t i, gen_item t i -> forall n, In n (item_numbers i) -> 0 <= n) /\ (forall t g, gen_group t g -> forall n, In n (flat_map item_numbers g) -> 0 <= n).
Proof.
  assert (O : forall n m, opt_number n -> In m (opt_numbers n) -> 0 <= m).
  { intros [t|] m H I; [|destruct I]. destruct I as [<-|[]]. now apply decimal_nonneg, H. }
  apply (gen_mut (fun t i _ => forall n, In n (item_numbers i) -> 0 <= n) (fun t g _ => forall n, In n (flat_map item_numbers g) -> 0 <= n)).
  - intros t H n [].
  - intros t n H [_ N] m [<-|[]]. now apply decimal_nonneg.
  - intros t g n H IH N m I. cbn [item_numbers] in I. apply in_app_or in I as [I|I]; eauto.
  - intros t i H IH n I. cbn [flat_map] in I. rewrite app_nil_r in I. auto.
  - intros t i u g H IH H' IH' n I. cbn [flat_map] in I. apply in_app_or in I as [I|I]; auto.
Qed.
Lemma numbers_nonneg s f : written s f -> forall n, In n (numbers f) -> 0 <= n.
Proof.
  intros (l & t & r & _ & _ & _ & (a & b & c & _ & G & D & _)) n I. unfold numbers in I. apply in_app_or in I as [I|I]; [eapply (proj2 gen_numbers); eauto|].
  destruct (f_dotted f) as [[m g]|]; [|destruct I]. destruct D as (u & _ & O & Hg). apply in_app_or in I as [I|I]; [|eapply (proj2 gen_numbers); eauto].
  destruct m as [x|]; [|destruct I]. destruct I as [<-|[]]. now apply decimal_nonneg, O.
Qed.

(** * Counts *)
Lemma counts_ok s f : proper s f -> fits f -> exists c fd, parse_compound (strip (text_of s)) = Ok c /\ fcompound_count c = Ok fd /\ cnt fd (compound_count c) /\
  (forall w, lin w (compound_count c) = formula_lin w f) /\ compound_syms c = symbols f.
Proof.
  intros P [N A]. destruct (parse_proper _ _ P) as (c & E & L & S). exists c.
  assert (W : Forall wfp (c_group c)).
  { destruct P as [W K]. pose proof (numbers_nonneg _ _ W) as Z. apply written_strip, grammar_parse_iff in W. unfold parse_compound in E. rewrite W in E. cbn [bind] in E.
    eapply wf_compound; [exact E|]. intros n I. split; auto. }
  destruct (compound_ok c W) as (fd & F & C).
  { intros k. unfold compound_count. rewrite get_part. fold (compound_count c). rewrite L, indicator_formula. apply qZ_le, A. }
  exists fd. auto.
Qed.
Lemma cnt_get k fd d : cnt fd d -> is_count (fget_count k fd) (get_count k d).
Proof. induction 1 as [|[i a] [j v] fd d [E V] _ IH]; cbn [fget_count get_count]; [apply zero_count|]. cbn in E. subst j. destruct (String.eqb k i); auto. Qed.
Lemma is_count_value x z : is_count x (q_of_Z z) -> finite x /\ value x = IZR z.
Proof. intros (y & _ & E & F & V). apply qZ_inj in E. subst. auto. Qed.
Theorem coefficient_ok s f el : proper s f -> fits f -> exists x, fcoefficient s el = Ok x /\ finite x /\ value x = IZR (atoms el f).
Proof.
  intros P T. destruct (counts_ok s f P T) as (c & fd & E & F & C & L & _). unfold fcoefficient. rewrite E. cbn [bind]. rewrite F. cbn [bind]. eexists. split; [reflexivity|].
  apply is_count_value. rewrite <- indicator_formula, <- L. unfold compound_count. rewrite <- get_part. now apply cnt_get.
Qed.
