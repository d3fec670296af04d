From Verif Require Import Prelude M_Dates Spec_Dates.
From Coq Require Import ZifyBool.
Ltac Zify.zify_post_hook ::= Z.div_mod_to_equations.

Lemma dim_bounds y m : 28 <= days_in_month y m <= 31.
Proof. unfold days_in_month; destruct (m =? 2), (is_leap y), ((m =? 4) || (m =? 6) || (m =? 9) || (m =? 11)); lia. Qed.

Lemma month_cases m : 1 <= m <= 12 ->
  m = 1 \/ m = 2 \/ m = 3 \/ m = 4 \/ m = 5 \/ m = 6 \/ m = 7 \/ m = 8 \/ m = 9 \/ m = 10 \/ m = 11 \/ m = 12.
Proof. lia. Qed.

Ltac months H := destruct (month_cases _ H) as [->|[->|[->|[->|[->|[->|[->|[->|[->|[->|[->| ->]]]]]]]]]]].

Definition leap_days (y : Z) : Z := if is_leap y then 1 else 0.

Lemma leap_days_spec y : days_before_year (y + 1) = days_before_year y + 365 + leap_days y.
Proof.
  unfold days_before_year, leap_days, is_leap.
  replace (y + 1 - 1) with y by lia.
  destruct (y mod 4 =? 0) eqn:E4, (y mod 100 =? 0) eqn:E100, (y mod 400 =? 0) eqn:E400; cbn; lia.
Qed.

Lemma dbm_next y m : 1 <= m < 12 -> days_before_month y (m + 1) = days_before_month y m + days_in_month y m.
Proof.
  intros H. assert (H' : 1 <= m <= 12) by lia. months H'; try lia;
  unfold days_before_month, days_in_month; destruct (is_leap y); reflexivity.
Qed.

Lemma dbm_dec y : days_before_month y 12 + 31 = 365 + leap_days y.
Proof. unfold days_before_month, leap_days; destruct (is_leap y); reflexivity. Qed.

Lemma dbm_mono y m m' : 1 <= m -> m < m' -> m' <= 12 ->
  days_before_month y m + days_in_month y m <= days_before_month y m'.
Proof.
  intros H1 H2 H3. assert (Ha : 1 <= m <= 12) by lia. assert (Hb : 1 <= m' <= 12) by lia.
  months Ha; months Hb; try lia; unfold days_before_month, days_in_month; destruct (is_leap y); cbn; lia.
Qed.

Lemma dbm_nonneg y m : 1 <= m <= 12 -> 0 <= days_before_month y m.
Proof. intros Ha; months Ha; unfold days_before_month; destruct (is_leap y); cbn; lia. Qed.

Lemma dbm_total y m : 1 <= m <= 12 -> days_before_month y m + days_in_month y m <= 365 + leap_days y.
Proof. intros Ha; months Ha; unfold days_before_month, days_in_month, leap_days; destruct (is_leap y); cbn; lia. Qed.

Lemma dby_mono y y' : y < y' -> days_before_year y + 365 + leap_days y <= days_before_year y'.
Proof.
  intros H. rewrite <- leap_days_spec. unfold days_before_year. 
  replace (y + 1 - 1) with y by lia. lia.
Qed.

Definition valid_ymd (y m d : Z) : Prop := 1 <= m <= 12 /\ 1 <= d <= days_in_month y m.

Lemma ymd2ord_lt y m d y' m' d' :
  valid_ymd y m d -> valid_ymd y' m' d' ->
  (y < y' \/ y = y' /\ (m < m' \/ m = m' /\ d < d')) -> ymd2ord y m d < ymd2ord y' m' d'.
Proof.
  unfold valid_ymd, ymd2ord. intros [Hm Hd] [Hm' Hd'] [H|[-> [H|[-> H]]]].
  - pose proof (dby_mono _ _ H). pose proof (dbm_total y m Hm). pose proof (dbm_nonneg y' m' Hm'). lia.
  - pose proof (dbm_mono y' m m'). lia.
  - lia.
Qed.

Lemma ymd2ord_inj y m d y' m' d' :
  valid_ymd y m d -> valid_ymd y' m' d' -> ymd2ord y m d = ymd2ord y' m' d' -> y = y' /\ m = m' /\ d = d'.
Proof.
  intros V V' E.
  destruct (Z.lt_trichotomy y y') as [H|[H|H]].
  1: pose proof (ymd2ord_lt _ _ _ _ _ _ V V' (or_introl H)); lia.
  2: pose proof (ymd2ord_lt _ _ _ _ _ _ V' V (or_introl H)); lia.
  destruct (Z.lt_trichotomy m m') as [H1|[H1|H1]].
  1: pose proof (ymd2ord_lt _ _ _ _ _ _ V V' (or_intror (conj H (or_introl H1)))); lia.
  2: pose proof (ymd2ord_lt _ _ _ _ _ _ V' V (or_intror (conj (eq_sym H) (or_introl H1)))); lia.
  destruct (Z.lt_trichotomy d d') as [H2|[H2|H2]].
  1: pose proof (ymd2ord_lt _ _ _ _ _ _ V V' (or_intror (conj H (or_intror (conj H1 H2))))); lia.
  2: pose proof (ymd2ord_lt _ _ _ _ _ _ V' V (or_intror (conj (eq_sym H) (or_intror (conj (eq_sym H1) H2))))); lia.
  auto.
Qed.

(** ** month/day of a day in the year: a finite sweep over 366 days *)
Definition mdo_ok (leap : bool) (n : Z) : bool :=
  let '(m, d) := month_day_of leap n in
  let dim := if m =? 2 then (if leap then 29 else 28)
               else if (m =? 4) || (m =? 6) || (m =? 9) || (m =? 11) then 30 else 31 in
  (1 <=? m) && (m <=? 12) && (1 <=? d) && (d <=? dim) &&
  (days_before_month_tbl m + (if (2 <? m) && leap then 1 else 0) + d =? n + 1).

Lemma mdo_sweep leap : forallb (fun i => mdo_ok leap (Z.of_nat i)) (seq 0 (if leap then 366 else 365)) = true.
Proof. destruct leap; vm_compute; reflexivity. Qed.

Lemma month_day_ok y n m d :
  0 <= n < 365 + leap_days y -> month_day_of (is_leap y) n = (m, d) ->
  valid_ymd y m d /\ days_before_month y m + d = n + 1.
Proof.
  intros Hn E. unfold leap_days in Hn.
  pose proof (mdo_sweep (is_leap y)) as S. rewrite forallb_forall in S.
  specialize (S (Z.to_nat n)). rewrite Z2Nat.id in S by lia.
  unfold mdo_ok in S. rewrite E in S.
  assert (I : In (Z.to_nat n) (seq 0 (if is_leap y then 366 else 365))).
  { apply in_seq. destruct (is_leap y); lia. }
  specialize (S I). rewrite !andb_true_iff, !Z.leb_le, Z.eqb_eq in S.
  unfold valid_ymd, days_before_month, days_in_month. lia.
Qed.

Lemma is_leap_decomp a b c e : 0 <= b <= 3 -> 0 <= c <= 24 -> 0 <= e <= 3 ->
  is_leap (400 * a + 100 * b + 4 * c + e + 1) = (e =? 3) && (negb (c =? 24) || (b =? 3)).
Proof.
  intros Hb Hc He. unfold is_leap.
  set (y := 400 * a + 100 * b + 4 * c + e + 1).
  assert (E4 : (y mod 4 =? 0) = (e =? 3)) by (unfold y; lia).
  assert (E100 : (y mod 100 =? 0) = (e =? 3) && (c =? 24)) by (unfold y; lia).
  assert (E400 : (y mod 400 =? 0) = (e =? 3) && (c =? 24) && (b =? 3)) by (unfold y; lia).
  rewrite E4, E100, E400.
  destruct (e =? 3), (c =? 24), (b =? 3); reflexivity.
Qed.

Lemma dby_decomp a b c e : 0 <= b <= 3 -> 0 <= c <= 24 -> 0 <= e <= 3 ->
  days_before_year (400 * a + 100 * b + 4 * c + e + 1) = 146097 * a + 36524 * b + 1461 * c + 365 * e.
Proof.
  intros Hb Hc He. unfold days_before_year.
  set (y := 400 * a + 100 * b + 4 * c + e + 1 - 1).
  assert (E4 : y / 4 = 100 * a + 25 * b + c) by (unfold y; lia).
  assert (E100 : y / 100 = 4 * a + b) by (unfold y; lia).
  assert (E400 : y / 400 = a) by (unfold y; lia).
  rewrite E4, E100, E400. unfold y. lia.
Qed.

Lemma ord2ymd_ok n y m d : ord2ymd n = (y, m, d) -> valid_ymd y m d /\ ymd2ord y m d = n.
Proof.
  unfold ord2ymd.
  set (a := (n - 1) / 146097). set (r := (n - 1) mod 146097).
  set (b := r / 36524). set (r1 := r mod 36524).
  set (c := r1 / 1461). set (r2 := r1 mod 1461).
  set (e := r2 / 365). set (r3 := r2 mod 365).
  assert (Hr : n - 1 = 146097 * a + r /\ 0 <= r < 146097).
  { unfold a, r. split; [apply Z.div_mod; lia|apply Z.mod_pos_bound; lia]. }
  assert (Hr1 : r = 36524 * b + r1 /\ 0 <= r1 < 36524).
  { unfold b, r1. split; [apply Z.div_mod; lia|apply Z.mod_pos_bound; lia]. }
  assert (Hr2 : r1 = 1461 * c + r2 /\ 0 <= r2 < 1461).
  { unfold c, r2. split; [apply Z.div_mod; lia|apply Z.mod_pos_bound; lia]. }
  assert (Hr3 : r2 = 365 * e + r3 /\ 0 <= r3 < 365).
  { unfold e, r3. split; [apply Z.div_mod; lia|apply Z.mod_pos_bound; lia]. }
  clearbody a b c e r r1 r2 r3.
  assert (Hb : 0 <= b <= 4) by lia. assert (Hc : 0 <= c <= 24) by lia. assert (He : 0 <= e <= 4) by lia.
  destruct (e =? 4) eqn:E4.
  { (* last day of a four-year cycle *)
    cbn [orb]. intros E; inversion E; subst y m d; clear E.
    assert (b <= 3) by lia. assert (e = 4) by lia. assert (r3 = 0) by lia. subst e.
    replace (a * 400 + 1 + b * 100 + c * 4 + 4 - 1) with (400 * a + 100 * b + 4 * c + 3 + 1) by lia.
    assert (L : is_leap (400 * a + 100 * b + 4 * c + 3 + 1) = true).
    { rewrite is_leap_decomp by lia. assert (c <= 23 \/ b = 3) by lia.
      destruct (c =? 24) eqn:?, (b =? 3) eqn:?; try reflexivity; lia. }
    split.
    - unfold valid_ymd, days_in_month; rewrite L; cbn; lia.
    - unfold ymd2ord, days_before_month. rewrite dby_decomp, L by lia.
      change (days_before_month_tbl 12) with 334; change (2 <? 12) with true; cbn [andb]; lia. }
  destruct (b =? 4) eqn:B4.
  { cbn [orb]. intros E; inversion E; subst y m d; clear E.
    assert (b = 4) by lia. assert (r1 = 0) by lia. assert (c = 0) by lia. assert (e = 0) by lia. subst b c e.
    replace (a * 400 + 1 + 4 * 100 + 0 * 4 + 0 - 1) with (400 * a + 100 * 3 + 4 * 24 + 3 + 1) by lia.
    assert (L : is_leap (400 * a + 100 * 3 + 4 * 24 + 3 + 1) = true) by (rewrite is_leap_decomp by lia; reflexivity).
    split.
    - unfold valid_ymd, days_in_month; rewrite L; cbn; lia.
    - unfold ymd2ord, days_before_month. rewrite dby_decomp, L by lia.
      change (days_before_month_tbl 12) with 334; change (2 <? 12) with true; cbn [andb]; lia. }
  cbn [orb].
  replace (a * 400 + 1 + b * 100 + c * 4 + e) with (400 * a + 100 * b + 4 * c + e + 1) by lia.
  rewrite <- (is_leap_decomp a b c e) by lia.
  assert (D : days_before_year (400 * a + 100 * b + 4 * c + e + 1) = 146097 * a + 36524 * b + 1461 * c + 365 * e)
    by (apply dby_decomp; lia).
  set (yy := 400 * a + 100 * b + 4 * c + e + 1) in *. clearbody yy.
  destruct (month_day_of (is_leap yy) r3) as [m' d'] eqn:E.
  intros X; inversion X; subst y m' d'; clear X.
  assert (Hlt : 0 <= r3 < 365 + leap_days yy) by (unfold leap_days; destruct (is_leap yy); lia).
  destruct (month_day_ok _ r3 m d Hlt E) as [V S].
  split; [exact V|].
  unfold ymd2ord. lia.
Qed.

Lemma ord2ymd_ymd2ord y m d : valid_ymd y m d -> ord2ymd (ymd2ord y m d) = (y, m, d).
Proof.
  intros V. destruct (ord2ymd (ymd2ord y m d)) as [[y' m'] d'] eqn:E.
  destruct (ord2ymd_ok _ _ _ _ E) as [V' E'].
  destruct (ymd2ord_inj _ _ _ _ _ _ V' V E') as (-> & -> & ->). reflexivity.
Qed.

(** ** Comparison *)
Lemma valid_dt_ymd t : valid_dt t -> valid_ymd (dt_year t) (dt_month t) (dt_day t).
Proof. unfold valid_dt, valid_ymd; intuition. Qed.

Lemma valid_dtb_spec t : valid_dtb t = true <-> valid_dt t.
Proof.
  unfold valid_dtb, valid_dt. rewrite !andb_true_iff, !Z.leb_le, Z.ltb_lt. intuition.
Qed.

Lemma lt_case x y u v : x < y -> 0 <= u < us_per_day -> 0 <= v < us_per_day ->
     x * us_per_day + u < y * us_per_day + v.
Proof. unfold us_per_day. intros. lia. Qed.

Lemma dt_cmp_instant a b : valid_dt a -> valid_dt b -> dt_cmp a b = (instant a ?= instant b).
Proof.
  intros Va Vb. pose proof (valid_dt_ymd _ Va) as Wa. pose proof (valid_dt_ymd _ Vb) as Wb.
  destruct Va as (_ & _ & _ & Ua), Vb as (_ & _ & _ & Ub).
  unfold dt_cmp, instant, toordinal.
  destruct (Z.compare_spec (dt_year a) (dt_year b)) as [Ey|Ly|Gy].
  2: { symmetry; apply Z.compare_lt_iff, lt_case; auto. apply ymd2ord_lt; auto. }
  2: { symmetry; apply Z.compare_gt_iff, lt_case; auto. apply ymd2ord_lt; auto. }
  destruct (Z.compare_spec (dt_month a) (dt_month b)) as [Em|Lm|Gm].
  2: { symmetry; apply Z.compare_lt_iff, lt_case; auto. apply ymd2ord_lt; auto. }
  2: { symmetry; apply Z.compare_gt_iff, lt_case; auto. apply ymd2ord_lt; auto. }
  destruct (Z.compare_spec (dt_day a) (dt_day b)) as [Ed|Ld|Gd].
  2: { symmetry; apply Z.compare_lt_iff, lt_case; auto. apply ymd2ord_lt; auto. }
  2: { symmetry; apply Z.compare_gt_iff, lt_case; auto. apply ymd2ord_lt; auto. }
  rewrite Ey, Em, Ed. rewrite Zplus_compare_compat || idtac.
  symmetry. destruct (Z.compare_spec (dt_us a) (dt_us b)); [apply Z.compare_eq_iff|apply Z.compare_lt_iff|apply Z.compare_gt_iff]; lia.
Qed.

Lemma dt_ltb_instant a b : valid_dt a -> valid_dt b -> (dt_ltb a b = true <-> instant a < instant b).
Proof. intros. unfold dt_ltb. rewrite dt_cmp_instant by auto. rewrite <- Z.compare_lt_iff. destruct (_ ?= _); intuition congruence. Qed.
Lemma dt_leb_instant a b : valid_dt a -> valid_dt b -> (dt_leb a b = true <-> instant a <= instant b).
Proof. intros. unfold dt_leb. rewrite dt_cmp_instant by auto. rewrite <- Z.compare_le_iff. destruct (_ ?= _); intuition congruence. Qed.

Lemma dt_eqb_eq a b : dt_eqb a b = true <-> a = b.
Proof.
  unfold dt_eqb, dt_cmp. destruct a as [y m d u], b as [y' m' d' u']; cbn.
  destruct (Z.compare_spec y y'), (Z.compare_spec m m'), (Z.compare_spec d d'), (Z.compare_spec u u'); subst;
    split; intros E; try reflexivity; try discriminate E; try (injection E; intros; lia).
Qed.

Lemma instant_inj a b : valid_dt a -> valid_dt b -> instant a = instant b -> a = b.
Proof. intros Va Vb E. apply dt_eqb_eq. unfold dt_eqb. rewrite dt_cmp_instant, E, Z.compare_refl by auto. reflexivity. Qed.

Lemma ymd2ord_pos y m d : 1 <= y -> valid_ymd y m d -> 1 <= ymd2ord y m d.
Proof.
  intros H [Hm Hd]. unfold ymd2ord. pose proof (dbm_nonneg y m Hm).
  assert (0 <= days_before_year y) by (unfold days_before_year; lia). lia.
Qed.

Lemma ymd2ord_max y m d : y <= 9999 -> valid_ymd y m d -> ymd2ord y m d <= max_ordinal.
Proof.
  intros H [Hm Hd]. unfold ymd2ord, max_ordinal. pose proof (dbm_total y m Hm).
  assert (days_before_year y + 365 + leap_days y <= 3652059).
  { rewrite <- leap_days_spec. unfold days_before_year. lia. }
  lia.
Qed.

Lemma ymd2ord_year_pos y m d : valid_ymd y m d -> 1 <= ymd2ord y m d -> 1 <= y.
Proof.
  intros [Hm Hd] H. unfold ymd2ord in H. pose proof (dbm_total y m Hm).
  assert (1 <= days_before_year y + 365 + leap_days y) by lia.
  rewrite <- leap_days_spec in *. unfold days_before_year in *. lia.
Qed.

Lemma ymd2ord_year_max y m d : valid_ymd y m d -> ymd2ord y m d <= max_ordinal -> y <= 9999.
Proof.
  intros [Hm Hd] H. unfold ymd2ord, max_ordinal in H. pose proof (dbm_nonneg y m Hm).
  unfold days_before_year in *. lia.
Qed.

(** ** Additions *)
Definition instant_in_range (i : Z) : Prop := us_per_day <= i < (max_ordinal + 1) * us_per_day.

Lemma valid_instant t : valid_dt t -> instant_in_range (instant t).
Proof.
  intros V. pose proof (valid_dt_ymd _ V) as W. destruct V as (Hy & _ & _ & U).
  pose proof (ymd2ord_pos _ _ _ (proj1 Hy) W). pose proof (ymd2ord_max _ _ _ (proj2 Hy) W).
  unfold instant_in_range, instant, toordinal, us_per_day, max_ordinal in *. lia.
Qed.

Lemma add_us_ok t us t' : add_us t us = Ok t' -> valid_dt t' /\ instant t' = instant t + us.
Proof.
  unfold add_us. fold (instant t). 
  set (tot := instant t + us).
  destruct ((0 <? tot / us_per_day) && (tot / us_per_day <=? max_ordinal)) eqn:E; [|discriminate].
  destruct (ord2ymd (tot / us_per_day)) as [[y m] d] eqn:O. intros X; inversion X; subst t'; clear X.
  apply andb_true_iff in E as [E1 E2]. apply Z.ltb_lt in E1. apply Z.leb_le in E2.
  destruct (ord2ymd_ok _ _ _ _ O) as [V S].
  assert (1 <= y) by (eapply ymd2ord_year_pos; eauto; lia).
  assert (y <= 9999) by (eapply ymd2ord_year_max; eauto; lia).
  assert (Hmod : 0 <= tot mod us_per_day < us_per_day) by (apply Z.mod_pos_bound; reflexivity).
  split.
  - unfold valid_dt; cbn. destruct V; intuition lia.
  - unfold instant, toordinal; cbn [dt_year dt_month dt_day dt_us]. rewrite S.
    rewrite Z.mul_comm. symmetry. apply Z.div_mod. discriminate.
Qed.

Lemma add_us_err t us e : add_us t us = Err e -> e = OverflowError /\ ~ instant_in_range (instant t + us).
Proof.
  unfold add_us. fold (instant t). set (tot := instant t + us).
  destruct ((0 <? tot / us_per_day) && (tot / us_per_day <=? max_ordinal)) eqn:E.
  { destruct (ord2ymd (tot / us_per_day)) as [[? ?] ?]; discriminate. }
  intros X; inversion X; split; [reflexivity|].
  unfold instant_in_range, us_per_day, max_ordinal in *. lia.
Qed.

Lemma add_us_total t us : instant_in_range (instant t + us) -> exists t', add_us t us = Ok t'.
Proof. intros H. destruct (add_us t us) eqn:E; [eauto|]. apply add_us_err in E. tauto. Qed.

Lemma add_years_ok t n t' : valid_dt t -> add_years t n = Ok t' ->
  valid_dt t' /\ dt_year t' = dt_year t + n /\ dt_month t' = dt_month t /\
  dt_day t' = Z.min (dt_day t) (days_in_month (dt_year t') (dt_month t')) /\ dt_us t' = dt_us t.
Proof.
  intros V. unfold add_years. destruct ((1 <=? dt_year t + n) && (dt_year t + n <=? 9999)) eqn:E; [|discriminate].
  intros X; inversion X; subst t'; cbn.
  pose proof (dim_bounds (dt_year t + n) (dt_month t)).
  destruct V as (Hy & Hm & Hd & Hu). unfold valid_dt; cbn. repeat split; lia.
Qed.

Lemma add_months_fix t n :
  1 <= dt_month t <= 12 ->
  let k := month_index t + n in
  add_months t n =
    let y := k / 12 in let m := k mod 12 + 1 in
    if (1 <=? y) && (y <=? 9999)
    then Ok (mkdt y m (Z.min (days_in_month y m) (dt_day t)) (dt_us t)) else Err ValueError.
Proof.
  intros Hm k. unfold add_months, k, month_index.
  set (ym := if 12 <? _ then _ else _).
  assert (E : ym = ((dt_year t * 12 + (dt_month t - 1) + n) / 12, (dt_year t * 12 + (dt_month t - 1) + n) mod 12 + 1)).
  { unfold ym.
    assert (Hs : n = 0 \/ Z.sgn n = 1 /\ 0 < n \/ Z.sgn n = -1 /\ n < 0) by lia.
    destruct Hs as [->|[[-> Hn]|[-> Hn]]]; cbn [Z.sgn].
    - change (11 <? Z.abs 0) with false. cbn iota.
      destruct (12 <? dt_month t + 0) eqn:E1, (dt_month t + 0 <? 1) eqn:E2; f_equal; lia.
    - destruct (11 <? Z.abs n) eqn:E0.
      + destruct (12 <? dt_month t + 1 * ((n * 1) mod 12)) eqn:E1, (dt_month t + 1 * ((n * 1) mod 12) <? 1) eqn:E2; f_equal; lia.
      + destruct (12 <? dt_month t + n) eqn:E1, (dt_month t + n <? 1) eqn:E2; f_equal; lia.
    - destruct (11 <? Z.abs n) eqn:E0.
      + destruct (12 <? dt_month t + -1 * ((n * -1) mod 12)) eqn:E1, (dt_month t + -1 * ((n * -1) mod 12) <? 1) eqn:E2; f_equal; lia.
      + destruct (12 <? dt_month t + n) eqn:E1, (dt_month t + n <? 1) eqn:E2; f_equal; lia. }
  rewrite E. reflexivity.
Qed.

Lemma add_months_ok t n t' : valid_dt t -> add_months t n = Ok t' ->
  valid_dt t' /\ month_index t' = month_index t + n /\
  dt_day t' = Z.min (dt_day t) (days_in_month (dt_year t') (dt_month t')) /\ dt_us t' = dt_us t.
Proof.
  intros V. destruct V as (Hy & Hm & Hd & Hu). rewrite add_months_fix by auto. cbn zeta.
  set (k := month_index t + n).
  destruct ((1 <=? k / 12) && (k / 12 <=? 9999)) eqn:E; [|discriminate].
  intros X; inversion X; subst t'; cbn.
  pose proof (dim_bounds (k / 12) (k mod 12 + 1)).
  unfold valid_dt, month_index; cbn. repeat split; lia.
Qed.

Lemma add_months_err t n e : valid_dt t -> add_months t n = Err e ->
  e = ValueError /\ ~ (1 <= (month_index t + n) / 12 <= 9999).
Proof.
  intros V. rewrite add_months_fix by apply V. cbn zeta.
  set (k := month_index t + n).
  destruct ((1 <=? k / 12) && (k / 12 <=? 9999)) eqn:E; [discriminate|].
  intros X; inversion X; split; [reflexivity|lia].
Qed.

Lemma add_years_err t n e : add_years t n = Err e -> e = ValueError /\ ~ (1 <= dt_year t + n <= 9999).
Proof.
  unfold add_years. destruct ((1 <=? dt_year t + n) && (dt_year t + n <=? 9999)) eqn:E; [discriminate|].
  intros X; inversion X; split; [reflexivity|lia].
Qed.

(** ** Clock *)
Lemma datetime_at_fixed c ix len : period_us (ck_period c) = Some len ->
  datetime_at c ix = add_us (ck_start c) (ix * len).
Proof.
  unfold datetime_at, period_us. destruct (ck_period c); intros E; inversion E; f_equal; unfold us_per_day; lia.
Qed.

Lemma add_years_months t n : valid_dt t -> add_years t n = add_months t (12 * n).
Proof.
  intros V. rewrite add_months_fix by apply V. cbn zeta. destruct V as (Hy & Hm & Hd & Hu).
  unfold add_years, month_index.
  replace ((dt_year t * 12 + (dt_month t - 1) + 12 * n) / 12) with (dt_year t + n) by lia.
  replace ((dt_year t * 12 + (dt_month t - 1) + 12 * n) mod 12 + 1) with (dt_month t) by lia.
  reflexivity.
Qed.

Lemma datetime_at_calendar c ix k : valid_dt (ck_start c) -> period_months (ck_period c) = Some k ->
  datetime_at c ix = add_months (ck_start c) (ix * k).
Proof.
  intros V. unfold datetime_at, period_months. destruct (ck_period c); intros E; inversion E.
  - f_equal; lia.
  - rewrite add_years_months by auto. f_equal; lia.
Qed.

Lemma period_kind p : (exists len, period_us p = Some len /\ 0 < len) \/ (exists k, period_months p = Some k /\ 0 < k).
Proof. destruct p; cbn; [left|left|left|left|left|left|right|right]; eexists; (split; [reflexivity|lia]). Qed.

Lemma datetime_at_valid c ix t : valid_dt (ck_start c) -> datetime_at c ix = Ok t -> valid_dt t.
Proof.
  intros V. destruct (period_kind (ck_period c)) as [(len & E & _)|(k & E & _)].
  - rewrite (datetime_at_fixed _ _ _ E). intros X; apply (add_us_ok _ _ _ X).
  - rewrite (datetime_at_calendar _ _ _ V E). intros X; apply (add_months_ok _ _ _ V X).
Qed.

Lemma month_index_lt a b : valid_dt a -> valid_dt b -> month_index a < month_index b -> instant a < instant b.
Proof.
  intros Va Vb H. pose proof (valid_dt_ymd _ Va) as Wa; pose proof (valid_dt_ymd _ Vb) as Wb.
  apply dt_ltb_instant; auto. unfold dt_ltb. rewrite dt_cmp_instant by auto.
  assert (L : toordinal a < toordinal b).
  { apply ymd2ord_lt; auto. destruct Va as (? & ? & _), Vb as (? & ? & _). unfold month_index in H. lia. }
  assert (instant a < instant b).
  { destruct Va as (_ & _ & _ & Ua), Vb as (_ & _ & _ & Ub). unfold instant, us_per_day in *. lia. }
  apply Z.compare_lt_iff in H0. rewrite H0. reflexivity.
Qed.

Lemma datetime_at_strict c i j a b : valid_dt (ck_start c) -> i < j ->
  datetime_at c i = Ok a -> datetime_at c j = Ok b -> dt_ltb a b = true.
Proof.
  intros V Hij Ea Eb.
  pose proof (datetime_at_valid _ _ _ V Ea) as Va. pose proof (datetime_at_valid _ _ _ V Eb) as Vb.
  apply dt_ltb_instant; auto.
  destruct (period_kind (ck_period c)) as [(len & E & P)|(k & E & P)].
  - rewrite (datetime_at_fixed _ _ _ E) in Ea; rewrite (datetime_at_fixed _ _ _ E) in Eb.
    apply add_us_ok in Ea, Eb. nia.
  - rewrite (datetime_at_calendar _ _ _ V E) in Ea; rewrite (datetime_at_calendar _ _ _ V E) in Eb.
    apply add_months_ok in Ea, Eb; auto. apply month_index_lt; auto. nia.
Qed.

Lemma datetime_at_0 c : valid_dt (ck_start c) -> datetime_at c 0 = Ok (ck_start c).
Proof.
  intros V. destruct (period_kind (ck_period c)) as [(len & E & P)|(k & E & P)].
  - rewrite (datetime_at_fixed _ _ _ E).
    destruct (add_us_total (ck_start c) (0 * len)) as [t Et].
    { replace (instant (ck_start c) + 0 * len) with (instant (ck_start c)) by lia. apply valid_instant; auto. }
    rewrite Et. f_equal. apply add_us_ok in Et as [Vt It]. apply instant_inj; auto. lia.
  - rewrite (datetime_at_calendar _ _ _ V E). rewrite add_months_fix by apply V. cbn zeta.
    replace (month_index (ck_start c) + 0 * k) with (month_index (ck_start c)) by lia.
    destruct V as (Hy & Hm & Hd & Hu). unfold month_index.
    replace ((dt_year (ck_start c) * 12 + (dt_month (ck_start c) - 1)) / 12) with (dt_year (ck_start c)) by lia.
    replace ((dt_year (ck_start c) * 12 + (dt_month (ck_start c) - 1)) mod 12 + 1) with (dt_month (ck_start c)) by lia.
    rewrite (proj2 (Z.leb_le _ _) (proj1 Hy)), (proj2 (Z.leb_le _ _) (proj2 Hy)); cbn.
    rewrite Z.min_r by lia. destruct (ck_start c); reflexivity.
Qed.

Lemma next_day_ord y m d : valid_ymd y m d ->
  let '(y', m', d') := next_day (y, m, d) in valid_ymd y' m' d' /\ ymd2ord y' m' d' = ymd2ord y m d + 1.
Proof.
  intros [Hm Hd]. unfold next_day. destruct (d <? days_in_month y m) eqn:E.
  - unfold valid_ymd, ymd2ord. lia.
  - assert (d = days_in_month y m) by lia. destruct (m <? 12) eqn:E12.
    + pose proof (dim_bounds y (m + 1)). unfold valid_ymd, ymd2ord. rewrite dbm_next by lia. lia.
    + assert (m = 12) by lia. subst m. pose proof (dim_bounds (y + 1) 1).
      unfold valid_ymd, ymd2ord. rewrite leap_days_spec.
      pose proof (dbm_dec y). assert (days_in_month y 12 = 31) by reflexivity.
      assert (days_before_month (y + 1) 1 = 0) by (unfold days_before_month; reflexivity). lia.
Qed.

Lemma ord_counts_days n : let '(y, m, d) := Nat.iter n next_day (1, 1, 1) in
  valid_ymd y m d /\ ymd2ord y m d = Z.of_nat n + 1.
Proof.
  induction n as [|n IH].
  - cbn. unfold valid_ymd, ymd2ord. cbn. lia.
  - cbn [Nat.iter]. change (Nat.iter (S n) next_day (1,1,1)) with (next_day (Nat.iter n next_day (1,1,1))).
    destruct (Nat.iter n next_day (1, 1, 1)) as [[y m] d]. destruct IH as [V E].
    pose proof (next_day_ord y m d V). destruct (next_day (y, m, d)) as [[y' m'] d'].
    intuition lia.
Qed.

Lemma clock_history ops c :
  ck_ix (fold_left clock_step ops c) = ticks_since_reset (ck_ix c) ops /\
  ck_start (fold_left clock_step ops c) = ck_start c /\ ck_period (fold_left clock_step ops c) = ck_period c.
Proof.
  revert c. induction ops as [|o ops IH]; intros c; cbn [fold_left ticks_since_reset]; [auto|].
  destruct (IH (clock_step c o)) as (E1 & E2 & E3). rewrite E1, E2, E3. destruct o; cbn; auto.
Qed.

(** ** Lemmas in the shape of the property statements *)
Lemma in_range_minmax i : instant_in_range i <-> instant dt_min <= i <= instant dt_max.
Proof.
  unfold instant_in_range. replace (instant dt_min) with us_per_day by (vm_compute; reflexivity).
  replace (instant dt_max) with ((max_ordinal + 1) * us_per_day - 1) by (vm_compute; reflexivity). lia.
Qed.

Lemma clock_history_new ops start p :
  let c := fold_left clock_step ops (new_clock start p) in
  ck_ix c = ticks_since_reset 0 ops /\ ck_start c = start /\ ck_period c = p /\
  get_datetime c = datetime_at (new_clock start p) (ticks_since_reset 0 ops).
Proof.
  intros c. destruct (clock_history ops (new_clock start p)) as (E1 & E2 & E3). fold c in E1, E2, E3.
  cbn in E1, E2, E3. unfold get_datetime, datetime_at. rewrite E1, E2, E3. auto.
Qed.

Lemma fixed_exact c ix len t : valid_dt (ck_start c) -> period_us (ck_period c) = Some len ->
  datetime_at c ix = Ok t -> valid_dt t /\ instant t = instant (ck_start c) + ix * len.
Proof. intros V E. rewrite (datetime_at_fixed _ _ _ E). apply add_us_ok. Qed.

Lemma calendar_exact c ix k t : valid_dt (ck_start c) -> period_months (ck_period c) = Some k ->
  datetime_at c ix = Ok t ->
  valid_dt t /\ month_index t = month_index (ck_start c) + ix * k /\
  dt_day t = Z.min (dt_day (ck_start c)) (days_in_month (dt_year t) (dt_month t)) /\
  dt_us t = dt_us (ck_start c).
Proof. intros V E. rewrite (datetime_at_calendar _ _ _ V E). apply add_months_ok; auto. Qed.

Lemma fixed_raises c ix len : valid_dt (ck_start c) -> period_us (ck_period c) = Some len ->
  (datetime_at c ix = Err OverflowError <->
   ~ (instant dt_min <= instant (ck_start c) + ix * len <= instant dt_max)) /\
  (is_ok (datetime_at c ix) = true <->
   instant dt_min <= instant (ck_start c) + ix * len <= instant dt_max).
Proof.
  intros V E. rewrite (datetime_at_fixed _ _ _ E), <- in_range_minmax.
  destruct (add_us (ck_start c) (ix * len)) as [t|e] eqn:A; cbn.
  - pose proof (add_us_ok _ _ _ A) as [Vt It]. pose proof (valid_instant _ Vt) as R. rewrite It in R. split; split; intros; [discriminate|tauto|tauto|reflexivity].
  - apply add_us_err in A as [-> A]. split; split; intros; [tauto|reflexivity|discriminate|tauto].
Qed.

Lemma calendar_raises c ix k : valid_dt (ck_start c) -> period_months (ck_period c) = Some k ->
  (datetime_at c ix = Err ValueError <-> ~ (1 * 12 <= month_index (ck_start c) + ix * k < 10000 * 12)) /\
  (is_ok (datetime_at c ix) = true <-> 1 * 12 <= month_index (ck_start c) + ix * k < 10000 * 12).
Proof.
  intros V E. rewrite (datetime_at_calendar _ _ _ V E).
  destruct (add_months (ck_start c) (ix * k)) as [t|e] eqn:A; cbn.
  - pose proof (add_months_ok _ _ _ V A) as (Vt & It & _). destruct Vt as (Hy & Hm & _). unfold month_index in *.
    split; split; intros; [discriminate|lia|lia|reflexivity].
  - apply add_months_err in A as [-> A]; auto. split; split; intros; [lia|reflexivity|discriminate|lia].
Qed.
