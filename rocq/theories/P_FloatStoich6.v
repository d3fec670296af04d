From Coq Require Import Qabs Qreals.
From Verif Require Import Prelude M_Elements M_Stoichiometry Spec_Stoich P_Stoich P_Count P_Convert M_Ieee Spec_Ieee M_FloatMix M_FloatLoan M_FloatStoich Spec_FloatStoich P_Ieee P_FloatReports P_FloatReports2 P_FloatMix P_FloatStoich P_FloatStoich2.
From Coq Require Import Reals List Lra Lia ZArith.
From Flocq Require Import Core BinarySingleNaN.
Import ListNotations.
Local Open Scope list_scope.
Local Open Scope Z_scope.

(** * Counts that are too large for a float *)
Definition big (z : Z) : Prop := 2 ^ 1024 - 2 ^ 970 <= z.
Lemma normal_iff z : 0 <= z -> is_finite (binary_normalize 53 1024 eq_refl eq_refl mode_NE z 0 false) = true <-> (rnd (IZR z) < bpow radix2 1024)%R.
Proof.
  intros Z0. pose proof (binary_normalize_correct 53 1024 eq_refl eq_refl mode_NE z 0 false) as C. cbv zeta in C. change (round_mode mode_NE) with ZnearestE in C.
  assert (V : F2R (Float radix2 z 0) = IZR z) by (unfold F2R; cbn [Fnum Fexp bpow]; ring). rewrite V in C. change (round radix2 (SpecFloat.fexp 53 1024) ZnearestE (IZR z)) with (rnd (IZR z)) in C.
  assert (P : (0 <= rnd (IZR z))%R) by (apply rnd_pos, IZR_le, Z0). rewrite (Rabs_pos_eq _ P) in C.
  destruct (Rlt_bool_spec (rnd (IZR z)) (bpow radix2 1024)) as [L|L].
  - destruct C as (_ & F & _). tauto.
  - split; [|lra]. intros F. rewrite <- is_finite_SF_B2SF, C in F. destruct (Rlt_bool _ _); discriminate F.
Qed.
Lemma at_limit : is_finite (binary_normalize 53 1024 eq_refl eq_refl mode_NE (2 ^ 1024 - 2 ^ 970) 0 false) = false. Proof. vm_compute. reflexivity. Qed.
Lemma below_limit : is_finite (binary_normalize 53 1024 eq_refl eq_refl mode_NE (2 ^ 1024 - 2 ^ 970 - 1) 0 false) = true. Proof. vm_compute. reflexivity. Qed.
Lemma limit_nonneg : 0 <= 2 ^ 1024 - 2 ^ 970 - 1. Proof. vm_compute. discriminate. Qed.
Lemma int_big z : big z -> float_of_int z = Err OverflowError.
Proof.
  unfold big. pose proof limit_nonneg as L. pose proof at_limit as A. revert L A. generalize (2 ^ 1024 - 2 ^ 970) as t. intros t L A H. unfold float_of_int.
  destruct (is_finite (binary_normalize 53 1024 _ _ mode_NE z 0 false)) eqn:F; auto. exfalso. apply (normal_iff z) in F; [|lia]. assert (X : (rnd (IZR t) < bpow radix2 1024)%R). { eapply Rle_lt_trans; [|exact F]. apply rnd_le, IZR_le, H. }
  apply normal_iff in X; [|lia]. congruence.
Qed.
Lemma int_small z : 0 <= z -> ~ big z -> exists x, float_of_int z = Ok x.
Proof.
  unfold big. pose proof limit_nonneg as L. pose proof below_limit as A. revert L A. generalize (2 ^ 1024 - 2 ^ 970) as t. intros t L A Z H. unfold float_of_int.
  assert (F : is_finite (binary_normalize 53 1024 eq_refl eq_refl mode_NE z 0 false) = true).
  { apply normal_iff; auto. apply normal_iff in A; auto. eapply Rle_lt_trans; [|exact A]. apply rnd_le, IZR_le. lia. }
  eexists. change (binary_normalize 53 1024 _ _ mode_NE z 0 false) with (binary_normalize 53 1024 eq_refl eq_refl mode_NE z 0 false). now rewrite F.
Qed.
Lemma big_dec z : {big z} + {~ big z}. Proof. apply Z_le_dec. Qed.
Lemma one_small : ~ big 1. Proof. unfold big. vm_compute. auto. Qed.
Lemma zero_small : ~ big 0. Proof. unfold big. vm_compute. auto. Qed.
Global Opaque big.

Definition good (c : list (string * number)) : Prop := c <> [] /\ Forall (fun kv => match snd kv with NInt a => a = 1 | NFloat _ => True end) c.
Lemma num_add_small d z : 0 <= z -> ~ big z -> exists y, num_add d (NInt z) = Ok y. Proof. intros Z H. destruct (int_small z Z H) as [x E]. cbn [num_add]. rewrite E. cbn [bind]. eauto. Qed.
Lemma fadd_some k x d : (forall v, exists y, num_add v x = Ok y) -> exists d', fadd_count k x d = Ok d' /\ d' <> [].
Proof.
  intros H. induction d as [|[j v] d (d' & E & N)]; cbn [fadd_count].
  - destruct (H zero64) as [y ->]. cbn [bind]. eexists. split; [reflexivity|discriminate].
  - destruct (String.eqb k j); [destruct (H v) as [y ->]|rewrite E]; cbn [bind]; (eexists; split; [reflexivity|discriminate]).
Qed.
Lemma fadd_none k z d : big z -> fadd_count k (NInt z) d = Err OverflowError.
Proof.
  intros H. induction d as [|[j v] d IH]; cbn [fadd_count num_add]; [|destruct (String.eqb k j); [|rewrite IH; reflexivity]]; rewrite (int_big z H); reflexivity.
Qed.
Lemma step_ok k x m d : 0 <= m -> ~ big m -> (match x with NInt a => a = 1 | NFloat _ => True end) -> exists d', (do y <- num_mul x m; fadd_count k y d) = Ok d' /\ d' <> [].
Proof.
  intros M B G. destruct x as [a|f]; cbn [num_mul].
  - subst a. rewrite Z.mul_1_l. cbn [bind]. apply fadd_some. intros v. now apply num_add_small.
  - destruct (int_small m M B) as [g ->]. cbn [bind]. apply fadd_some. intros v. eexists. reflexivity.
Qed.
Lemma fadds_some m c : 0 <= m -> ~ big m -> Forall (fun kv : string * number => match snd kv with NInt a => a = 1 | NFloat _ => True end) c -> forall d, exists d', fadd_counts m c d = Ok d' /\ (d <> [] \/ c <> [] -> d' <> []).
Proof.
  intros M B G. unfold fadd_counts. induction G as [|[k x] c Gx G IH]; intros d; cbn [foldM fst snd] in *.
  - exists d. split; auto. intros [H|H]; congruence.
  - destruct (step_ok k x m d M B Gx) as (d1 & -> & N). cbn [bind]. destruct (IH d1) as (d' & E & N'). exists d'. split; auto.
Qed.
Lemma fadds_none m c d : big m -> good c -> fadd_counts m c d = Err OverflowError.
Proof.
  intros B [N G]. unfold fadd_counts. destruct c as [|[k x] c]; [congruence|]. inversion G as [|? ? Gx _]; subst. cbn [foldM fst snd] in *. destruct x as [a|f]; cbn [num_mul].
  - subst a. rewrite Z.mul_1_l. cbn [bind]. rewrite (fadd_none k m d B). reflexivity.
  - rewrite (int_big m B). reflexivity.
Qed.
(** What a part does: it raises, or it gives a good dictionary. *)
Definition outcome (P : Prop) (p : part) : Prop := (P -> fpart_count p = Err OverflowError) /\ (~ P -> exists c, fpart_count p = Ok c /\ good c).
Definition some_big (l : list Z) : Prop := exists z, In z l /\ big z.
Lemma some_big_dec l : {some_big l} + {~ some_big l}.
Proof.
  induction l as [|z l [H|H]]; [right; intros (z & [] & _)|left; destruct H as (y & I & B); exists y; split; [now right|auto]|].
  destruct (big_dec z) as [B|B]; [left; exists z; split; [now left|auto]|right; intros (y & [<-|I] & B'); [auto|]; apply H; exists y; auto].
Defined.
Lemma some_big_app a b : some_big (a ++ b) <-> some_big a \/ some_big b.
Proof. unfold some_big. split; [intros (z & I & B); apply in_app_or in I as [I|I]; [left|right]; eauto|intros [(z & I & B)|(z & I & B)]; exists z; split; auto; apply in_or_app; auto]. Qed.
Lemma some_big_cons z l : some_big (z :: l) <-> big z \/ some_big l.
Proof. change (z :: l) with ([z] ++ l). rewrite some_big_app. unfold some_big at 1. split; intros [H|H]; auto; [destruct H as (y & [<-|[]] & B); auto|left; exists z; split; [now left|auto]]. Qed.
Lemma fgroup_err m l nss : Forall2 (fun p ns => outcome (some_big ns) p) l nss -> 0 <= m -> forall d, (some_big (concat nss) \/ (big m /\ l <> []) -> fgroup m l d = Err OverflowError).
Proof.
  intros H M. unfold fgroup. induction H as [|p ns l nss [Ob Oo] H IH]; intros d B; cbn [foldM concat] in *; [destruct B as [(z & [] & _)|[_ B]]; congruence|].
  destruct (some_big_dec ns) as [S|S]; [rewrite (Ob S); reflexivity|]. destruct (Oo S) as (c & -> & G). cbn [bind].
  destruct (big_dec m) as [Bm|Bm]; [rewrite (fadds_none m c d Bm G); reflexivity|]. destruct (fadds_some m c M Bm (proj2 G) d) as (d' & -> & _). cbn [bind]. apply IH.
  rewrite some_big_app in B. tauto.
Qed.
Lemma fgroup_fine m l nss : Forall2 (fun p ns => outcome (some_big ns) p) l nss -> 0 <= m -> ~ big m -> ~ some_big (concat nss) -> forall d, exists d', fgroup m l d = Ok d' /\ (d <> [] \/ l <> [] -> d' <> []).
Proof.
  intros H M Bm. unfold fgroup. induction H as [|p ns l nss [Ob Oo] H IH]; intros B d; cbn [foldM concat] in *; [exists d; split; auto; intros [X|X]; congruence|].
  rewrite some_big_app in B. destruct Oo as (c & -> & G); [tauto|]. cbn [bind]. destruct (fadds_some m c M Bm (proj2 G) d) as (d1 & -> & N). cbn [bind]. destruct (IH ltac:(tauto) d1) as (d' & E & N'). exists d'. split; auto. intros _. apply N'. left. apply N. right. apply G.
Qed.
Lemma group_outcome m l nss : Forall2 (fun p ns => outcome (some_big ns) p) l nss -> 0 <= m -> l <> [] -> outcome (some_big (m :: concat nss)) (PGroup l m).
Proof.
  intros H M N. split.
  - intros B. rewrite fpart_group. rewrite (fgroup_err m l nss H M []); [reflexivity|]. apply some_big_cons in B as [B|B]; auto.
  - intros B. rewrite fpart_group. rewrite some_big_cons in B. destruct (fgroup_fine m l nss H M) with (d := @nil (string * float64)) as (d & -> & X); [|tauto|].
    { tauto. }
    cbn [bind]. eexists. split; [reflexivity|]. split; [intros E; apply map_eq_nil in E; apply X; auto|]. clear. induction d; constructor; cbn; auto.
Qed.
Lemma outcome_iff P Q p : (P <-> Q) -> outcome P p -> outcome Q p. Proof. unfold outcome. tauto. Qed.
Lemma nonneg_multiplier n : opt_number n -> 0 <= group_multiplier n.
Proof. destruct n as [t|]; cbn; [|lia]. intros [_ H]. apply decimal_nonneg in H. destruct (decimal t =? 0); lia. Qed.
Lemma big_multiplier n : big (group_multiplier n) <-> some_big (opt_numbers n).
Proof.
  pose proof one_small as O. pose proof zero_small as Z0. unfold group_multiplier, some_big, opt_numbers. destruct n as [t|]; [|split; [tauto|intros (z & [] & _)]].
  destruct (Z.eqb_spec (decimal t) 0) as [E|E]; split; try tauto.
  - intros (z & [<-|[]] & B). rewrite E in B. tauto.
  - intros B. exists (decimal t). split; [now left|auto].
  - intros (z & [<-|[]] & B). auto.
Qed.
Lemma one_outcome p ns : outcome (some_big ns) p -> Forall2 (fun p ns => outcome (some_big ns) p) [p] [ns]. Proof. intros H. constructor; [exact H|constructor]. Qed.
Lemma items_outcome : (forall t i, gen_item t i -> forall p, visit_item i = Ok p -> outcome (some_big (item_numbers i)) p) /\
  (forall t g, gen_group t g -> forall l, mapM visit_item g = Ok l -> l <> [] /\ exists nss, Forall2 (fun p ns => outcome (some_big ns) p) l nss /\ concat nss = flat_map item_numbers g).
Proof.
  apply (gen_mut (fun t i _ => forall p, visit_item i = Ok p -> outcome (some_big (item_numbers i)) p)
    (fun t g _ => forall l, mapM visit_item g = Ok l -> l <> [] /\ exists nss, Forall2 (fun p ns => outcome (some_big ns) p) l nss /\ concat nss = flat_map item_numbers g)).
  - intros t H p V. cbn [visit_item] in V. destruct (visit_element t); cbn [bind] in V; [|discriminate]. injection V as <-. split; [intros (z & [] & _)|]. intros _. eexists. split; [reflexivity|]. split; [discriminate|]. repeat constructor.
  - intros t n H [_ N] p V. cbn [visit_item] in V. destruct (visit_element t) as [e|]; cbn [bind] in V; [|discriminate]. injection V as <-. rewrite int_decimal. apply (group_outcome (decimal n) [PElement e] [[]]); [|now apply decimal_nonneg|discriminate].
    constructor; [|constructor]. split; [intros (z & [] & _)|]. intros _. eexists. split; [reflexivity|]. split; [discriminate|]. repeat constructor.
  - intros t g n H IH N p V. rewrite visit_subgroup in V. destruct (mapM visit_item g) as [l|] eqn:E; cbn [bind] in V; [|discriminate]. injection V as <-. destruct (IH l eq_refl) as (L & nss & F & C). rewrite number_multiplier.
    pose proof (group_outcome 1 l nss F ltac:(lia) L) as O1. pose proof (group_outcome (group_multiplier n) [PGroup l 1] [1 :: concat nss] (one_outcome _ _ O1) (nonneg_multiplier n N) ltac:(discriminate)) as O2.
    eapply outcome_iff; [|exact O2]. cbn [item_numbers concat]. rewrite app_nil_r, some_big_app, <- big_multiplier, !some_big_cons, C. pose proof one_small. tauto.
  - intros t i H IH l V. cbn [mapM] in V. destruct (visit_item i) as [p|]; cbn [bind] in V; [|discriminate]. injection V as <-. split; [discriminate|]. exists [item_numbers i]. split; [constructor; auto|]. reflexivity.
  - intros t i u g H IH H' IH' l V. cbn [mapM] in V. destruct (visit_item i) as [p|]; cbn [bind] in V; [|discriminate]. destruct (mapM visit_item g) as [l'|]; cbn [bind] in V; [|discriminate]. injection V as <-. split; [discriminate|].
    destruct (IH' l' eq_refl) as (_ & nss & F & C). exists (item_numbers i :: nss). split; [constructor; auto|]. cbn [concat flat_map]. now rewrite C.
Qed.
Lemma compound_outcome s f c : proper s f -> parse_compound (strip (text_of s)) = Ok c -> (some_big (numbers f) -> fcompound_count c = Err OverflowError) /\ (~ some_big (numbers f) -> exists d, fcompound_count c = Ok d).
Proof.
  intros P E. destruct P as [W K]. assert (W0 := W). destruct W0 as (l & t & r & _ & _ & _ & (a & b & e & _ & G & D & _)).
  apply written_strip, grammar_parse_iff in W. unfold parse_compound in E. rewrite W in E. cbn [bind] in E. unfold visit_compound, visit_group in E.
  destruct (mapM visit_item (f_group f)) as [l1|] eqn:E1; cbn [bind] in E; [|discriminate]. destruct (proj2 items_outcome _ _ G l1 E1) as (L1 & n1 & F1 & C1). pose proof (group_outcome 1 l1 n1 F1 ltac:(lia) L1) as O1.
  assert (X : exists nss, Forall2 (fun p ns => outcome (some_big ns) p) (c_group c) nss /\ (some_big (concat nss) <-> some_big (numbers f))).
  { unfold numbers. destruct (f_dotted f) as [[n g]|].
    - destruct D as (u & _ & N & Hg). destruct (mapM visit_item g) as [l2|] eqn:E2; cbn [bind] in E; [|discriminate]. injection E as <-. cbn [c_group]. destruct (proj2 items_outcome _ _ Hg l2 E2) as (L2 & n2 & F2 & C2). rewrite number_multiplier.
      pose proof (group_outcome 1 l2 n2 F2 ltac:(lia) L2) as O2. pose proof (group_outcome (group_multiplier n) [PGroup l2 1] [1 :: concat n2] (one_outcome _ _ O2) (nonneg_multiplier n N) ltac:(discriminate)) as O3.
      eexists. split; [constructor; [exact O1|constructor; [exact O3|constructor]]|]. cbn [concat]. rewrite !app_nil_r. repeat first [rewrite some_big_app|rewrite some_big_cons]. rewrite <- big_multiplier, C1, C2. pose proof one_small. tauto.
    - injection E as <-. cbn [c_group]. eexists. split; [constructor; [exact O1|constructor]|]. cbn [concat]. rewrite !app_nil_r, some_big_cons, C1. pose proof one_small. tauto. }
  destruct X as (nss & F & X). unfold fcompound_count. change (foldM (fun d x => do n <- fpart_count x; fadd_counts 1 n d) (c_group c) []) with (fgroup 1 (c_group c) []). split.
  - intros B. apply (fgroup_err 1 _ nss F ltac:(lia)). left. now apply X.
  - intros B. destruct (fgroup_fine 1 _ nss F ltac:(lia) one_small) with (d := @nil (string * float64)) as (d & E' & _); [tauto|]. eauto.
Qed.
Theorem overflow_iff s f : proper s f -> (fmolar_mass (Some s) = Err OverflowError <-> some_big (numbers f)) /\ forall el, (fcoefficient s el = Err OverflowError <-> some_big (numbers f)).
Proof.
  intros P. destruct (parse_proper _ _ P) as (c & E & _). destruct (compound_outcome s f c P E) as [B G]. rewrite fmolar_unfold by (eapply written_nonempty, P). unfold fcoefficient. rewrite E. cbn [bind]. unfold fcompound_molar_mass. destruct (some_big_dec (numbers f)) as [S|S].
  - rewrite (B S). cbn [bind]. tauto.
  - destruct (G S) as [d ->]. cbn [bind]. split; [|intros el; split; [discriminate|tauto]]. split; [|tauto]. intros X. exfalso. revert X. clear. set (h := fun kv => _).
    assert (H : forall l, (exists y, mapM h l = Ok y) \/ mapM h l = Err KeyError). { induction l as [|kv l [[y IH]|IH]]; cbn [mapM]; [eauto| |]; unfold h at 1 3; (destruct (find_element (fst kv)); cbn [bind]; [rewrite IH; cbn [bind]; eauto|auto]). }
    destruct (H d) as [[y ->]| ->]; cbn [bind]; discriminate.
Qed.
