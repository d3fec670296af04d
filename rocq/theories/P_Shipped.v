(** Proofs about the drawings of C97. *)
From Verif Require Import Prelude M_Thermochem M_Stoichiometry M_Csv M_Physical M_Polyfit M_Shipped Spec_Shipped P_Polyfit Properties_Polyfit.
From Coq Require Import Reals Lra Lia.
Local Open Scope list_scope.
Local Open Scope R_scope.

Lemma mapM_law {A B} (f : A -> res B) l : (forall x, In x l -> exists y, f x = Ok y) -> exists r, mapM f l = Ok r /\ Forall2 (fun x y => f x = Ok y) l r.
Proof.
  induction l as [|x l IH]; intros H; [exists []; split; [reflexivity|constructor]|]. destruct (H x (or_introl eq_refl)) as [y E]. destruct IH as (r & R & F); [intros z Z; apply H; now right|].
  exists (y :: r). cbn [mapM]. rewrite E. cbn [bind]. rewrite R. cbn [bind]. split; [reflexivity|now constructor].
Qed.
Lemma forall2_nth {A B} (P : A -> B -> Prop) l r : Forall2 P l r -> length l = length r /\ forall i x, nth_error l i = Some x -> exists y, nth_error r i = Some y /\ P x y.
Proof.
  induction 1 as [|a b l r H F [L N]]; [split; [reflexivity|intros [|i] x; discriminate]|]. split; [cbn; congruence|]. intros [|i] x; cbn [nth_error]; [intros E; injection E as <-; eauto|apply N].
Qed.
Lemma linspace_nth a b i : (i < 80)%nat -> nth_error (linspace80 a b) i = Some (a + INR i / 79 * (b - a)).
Proof.
  intros H. unfold linspace80. rewrite nth_error_map. assert (E : nth_error (seq 0 80) i = Some i) by (rewrite (nth_error_nth' _ 0%nat) by (rewrite seq_length; lia); now rewrite seq_nth by lia). rewrite E. cbn [option_map]. f_equal. field.
Qed.
Lemma linspace_between a b x : In x (linspace80 a b) -> Rmin a b <= x <= Rmax a b.
Proof.
  intros I. unfold linspace80 in I. apply in_map_iff in I. destruct I as (i & <- & I). apply in_seq in I.
  assert (J : 0 <= INR i <= 79) by (split; [apply pos_INR|replace 79 with (INR 79) by (cbn; lra); apply le_INR; lia]).
  unfold Rmin, Rmax. destruct (Rle_dec a b) as [L|L]; [assert (0 <= (b - a) / 79) by lra|assert ((b - a) / 79 <= 0) by lra]; nra.
Qed.
Lemma line_drawn (calc : R -> res R) a b : (forall T, Rmin a b <= T <= Rmax a b -> exists y, calc T = Ok y) ->
  exists line, mapM (fun T => do y <- calc T; Ok (T, y)) (linspace80 a b) = Ok line /\ evenly_drawn a b (fun T y => calc T = Ok y) line.
Proof.
  intros H. destruct (mapM_law (fun T => do y <- calc T; Ok (T, y)) (linspace80 a b)) as (line & E & F).
  { intros x I. apply linspace_between in I. destruct (H x I) as [y Y]. rewrite Y. cbn [bind]. eauto. }
  exists line. split; auto. apply forall2_nth in F. destruct F as [L F]. split; [rewrite <- L; unfold linspace80; now rewrite map_length, seq_length|]. intros i Hi. specialize (F i _ (linspace_nth a b i Hi)). destruct F as ([t y] & N & F).
  cbv beta in F. destruct (calc _) as [z|] eqn:Z in F; [|discriminate]. cbn [bind] in F. injection F as <- <-. eauto.
Qed.

(** The least of u and of ts. *)
Definition low_of (u : R) (ts : list R) (lo : R) : Prop := (lo = u \/ In lo ts) /\ lo <= u /\ forall t, In t ts -> lo <= t.
Lemma low_step u ts lo0 rest lo : list_min ts = Ok lo0 -> low_of (if Rlt_dec u lo0 then u else lo0) rest lo <-> low_of u (ts ++ rest) lo.
Proof.
  intros M. apply list_min_ok in M. destruct M as [I M]. unfold low_of. setoid_rewrite in_app_iff. destruct (Rlt_dec u lo0) as [L|L]; split.
  - intros ([-> | A] & B & C); (split; [tauto|]; split; [lra|]; intros t [T|T]; auto; specialize (M t T); lra).
  - intros (A & B & C). split; [|split; [auto|intros t T; auto]]. destruct A as [-> | [A|A]]; auto. specialize (M lo A). specialize (C lo0 (or_introl I)). lra.
  - intros ([-> | A] & B & C); (split; [tauto|]; split; [lra|]; intros t [T|T]; auto; specialize (M t T); lra).
  - intros (A & B & C). assert (lo <= lo0) by auto. split; [|split; [auto|intros t T; auto]]. destruct A as [-> | [A|A]]; auto; [left; lra|]. specialize (M lo A). left; lra.
Qed.
Lemma low_least u ts lo : ts <> [] -> (forall t, In t ts -> t <= u) -> low_of u ts lo <-> least ts lo.
Proof.
  intros N B. unfold low_of, least. split.
  - intros ([-> | A] & C & D); [|auto]. split; auto. destruct ts as [|t ts]; [congruence|]. assert (t = u) by (apply Rle_antisym; [apply B|apply D]; now left). left. auto.
  - intros [A C]. auto.
Qed.
Lemma mix_acc calc symbol xs datasets measured : Forall2 (fun (ds : string * frame) xy => measured_at symbol (text_of (fst ds), snd ds) xy) datasets measured -> forall u pts,
  (forall k ds lo, nth_error datasets k = Some ds -> low_of u (concat (firstn (S k) (map fst measured))) lo ->
     exists x, lookup (fst ds) xs = Some x /\ forall T, Rmin lo 1000 <= T <= Rmax lo 1000 -> exists y, calc T x = Ok y) ->
  exists u' drawn, foldM (mix_step calc symbol xs) datasets (u, pts) = Ok (u', pts ++ drawn) /\ length drawn = length datasets /\
    forall k ds xy lo, nth_error datasets k = Some ds -> nth_error measured k = Some xy -> low_of u (concat (firstn (S k) (map fst measured))) lo ->
      exists line, nth_error drawn k = Some (combine (fst xy) (snd xy), line) /\ evenly_drawn lo 1000 (fun T y => exists x, lookup (fst ds) xs = Some x /\ calc T x = Ok y) line.
Proof.
  induction 1 as [|ds xy datasets measured (A & B & C) F IH]; intros u pts H.
  - exists u, []. cbn [foldM length]. rewrite app_nil_r. split; [reflexivity|]. split; [reflexivity|]. intros [|k]; discriminate.
  - cbn [fst snd] in A, B, C. destruct (list_min_some _ C) as [lo0 LO]. destruct (list_max_some _ C) as [hi0 HI]. set (u1 := if Rlt_dec u lo0 then u else lo0).
    assert (L1 : low_of u (concat (firstn 1 (map fst (xy :: measured)))) u1).
    { cbn [map firstn concat]. apply (low_step u _ lo0 [] u1 LO). unfold low_of. fold u1. cbn. split; [auto|split; [lra|tauto]]. }
    destruct (H 0%nat ds u1 eq_refl L1) as (x & X & K). destruct (line_drawn (fun T => calc T x) u1 1000 K) as (line & E & D).
    destruct (IH u1 (pts ++ [(combine (fst xy) (snd xy), line)])) as (u' & drawn & E' & L' & D').
    { intros k d lo N L. apply (H (S k) d lo N). cbn [map firstn concat]. apply (low_step u _ lo0); auto. }
    exists u', ((combine (fst xy) (snd xy), line) :: drawn). cbn [foldM]. unfold mix_step at 1. rewrite A, B. cbn [bind]. rewrite LO, HI. cbn [bind fst snd]. fold u1. rewrite X.
    match goal with |- context[mapM ?f _] => change f with (fun T => do y <- calc T x; Ok (T, y)) end. rewrite E. cbn [bind]. rewrite E', <- app_assoc. split; [reflexivity|]. split; [cbn; congruence|].
    intros [|k] d xy' lo N1 N2 L.
    + cbn [nth_error] in N1, N2. injection N1 as <-. injection N2 as <-. exists line. split; [reflexivity|].
      assert (lo = u1) as -> by (destruct L as (P1 & P2 & P3), L1 as (Q1 & Q2 & Q3); apply Rle_antisym; [destruct Q1 as [-> | Q1]; auto|destruct P1 as [-> | P1]; auto]).
      destruct D as [D1 D2]. split; auto. intros i Hi. destruct (D2 i Hi) as (y & Y1 & Y2). exists y. split; auto. exists x. auto.
    + cbn [nth_error] in N1, N2 |- *. apply (D' k d xy' lo N1 N2). cbn [map firstn concat] in L. now apply (low_step u _ lo0) in L.
Qed.
