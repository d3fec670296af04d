(** Proofs about dates written as text, and about clocks that start at a date. *)
From Verif Require Import Prelude M_Stoichiometry M_Dates P_Dates M_Ledger M_Strptime Spec_Dates2.
Local Open Scope Z_scope.
Local Open Scope list_scope.

(** * Digits *)
Lemma code_dg n : 0 <= n <= 9 -> code (dg n) = 48 + n.
Proof. intros H. unfold code, dg. rewrite nat_ascii_embedding by lia. lia. Qed.
Lemma dval_dg n : 0 <= n <= 9 -> dval (dg n) = n.
Proof. intros H. unfold dval. rewrite code_dg; lia. Qed.
Lemma is_digit_dg n : 0 <= n <= 9 -> is_digit (dg n) = true.
Proof. intros H. unfold is_digit. rewrite code_dg by auto. apply andb_true_iff. split; apply Z.leb_le; lia. Qed.
Lemma dg_code c n : code c = 48 + n -> 0 <= n -> c = dg n.
Proof.
  unfold code, dg. intros E N. rewrite <- (ascii_nat_embedding c). f_equal. lia.
Qed.
Lemma digit_dg c : is_digit c = true -> exists n, 0 <= n <= 9 /\ c = dg n /\ dval c = n.
Proof.
  unfold is_digit. rewrite andb_true_iff, !Z.leb_le. intros [A B]. exists (code c - 48). split; [lia|]. split; [apply dg_code; lia|reflexivity].
Qed.
Lemma between_dg a b c : 0 <= a -> b <= 9 -> a <= b -> between (dg a) (dg b) c = true -> exists n, a <= n <= b /\ c = dg n /\ dval c = n.
Proof.
  intros A B AB. unfold between. rewrite !code_dg by lia. rewrite andb_true_iff, !Z.leb_le. intros [X Y]. exists (code c - 48). split; [lia|]. split; [apply dg_code; lia|reflexivity].
Qed.

(** * What the alternatives say *)
Lemma alt1_in t n r : In (n, r) (alt1 t) -> 1 <= n <= 9 /\ t = dg n :: r.
Proof.
  destruct t as [|a t]; [intros []|]. cbn [alt1]. destruct (between "1" "9" a) eqn:B; [|intros []]. intros [X|[]]. injection X as <- <-.
  destruct (between_dg 1 9 a) as (k & K & -> & ->); try lia; auto.
Qed.
Lemma alt2_in p q t n r : In (n, r) (alt2 p q t) -> exists a b, t = a :: b :: r /\ p a = true /\ q b = true /\ n = 10 * dval a + dval b.
Proof.
  destruct t as [|a [|b t]]; try (intros []; fail). cbn [alt2]. destruct (p a && q b) eqn:B; [|intros []]. apply andb_true_iff in B. destruct B as [B1 B2]. intros [X|[]]. injection X as <- <-. exists a, b. auto.
Qed.
Lemma eqb_is a c : Ascii.eqb a c = true -> c = a.
Proof. intros H. apply Ascii.eqb_eq in H. auto. Qed.

Lemma two a b : 0 <= a <= 9 -> 0 <= b <= 9 -> (10 * a + b) / 10 = a /\ (10 * a + b) mod 10 = b.
Proof. intros A B. split; [symmetry; apply (Z.div_unique _ 10 a b)|symmetry; apply (Z.mod_unique _ 10 a b)]; lia. Qed.

Lemma month_in t n r : In (n, r) (month_alts t) -> exists s, t = s ++ r /\ month_text n s.
Proof.
  unfold month_alts. rewrite !in_app_iff. intros [H|[H|H]].
  - apply alt2_in in H. destruct H as (a & b & -> & A & B & ->). apply eqb_is in A. subst a. change (dval "1") with 1. destruct (between_dg 0 2 b) as (k & K & -> & ->); try lia; auto.
    exists [dg 1; dg k]. split; [reflexivity|]. split; [lia|]. left. destruct (two 1 k) as [X Y]; try lia. now rewrite X, Y.
  - apply alt2_in in H. destruct H as (a & b & -> & A & B & ->). apply eqb_is in A. subst a. change (dval "0") with 0. destruct (between_dg 1 9 b) as (k & K & -> & ->); try lia; auto.
    exists [dg 0; dg k]. split; [reflexivity|]. split; [lia|]. left. destruct (two 0 k) as [X Y]; try lia. now rewrite X, Y.
  - apply alt1_in in H. destruct H as [K ->]. exists [dg n]. split; [reflexivity|]. split; [lia|]. right. split; [lia|auto].
Qed.
Lemma day_in t n r : In (n, r) (day_alts t) -> exists s, t = s ++ r /\ day_text n s.
Proof.
  unfold day_alts. rewrite !in_app_iff. intros [H|[H|[H|[H|H]]]].
  - apply alt2_in in H. destruct H as (a & b & -> & A & B & ->). apply eqb_is in A. subst a. change (dval "3") with 3. destruct (between_dg 0 1 b) as (k & K & -> & ->); try lia; auto.
    exists [dg 3; dg k]. split; [reflexivity|]. split; [lia|]. left. left. destruct (two 3 k) as [X Y]; try lia. now rewrite X, Y.
  - apply alt2_in in H. destruct H as (a & b & -> & A & B & ->). destruct (between_dg 1 2 a) as (j & J & -> & ->); try lia; auto. destruct (digit_dg b B) as (k & K & -> & ->).
    exists [dg j; dg k]. split; [reflexivity|]. split; [lia|]. left. left. destruct (two j k) as [X Y]; try lia. now rewrite X, Y.
  - apply alt2_in in H. destruct H as (a & b & -> & A & B & ->). apply eqb_is in A. subst a. change (dval "0") with 0. destruct (between_dg 1 9 b) as (k & K & -> & ->); try lia; auto.
    exists [dg 0; dg k]. split; [reflexivity|]. split; [lia|]. left. left. destruct (two 0 k) as [X Y]; try lia. now rewrite X, Y.
  - apply alt1_in in H. destruct H as [K ->]. exists [dg n]. split; [reflexivity|]. split; [lia|]. left. right. split; [lia|auto].
  - unfold alt_sp in H. destruct t as [|a t]; [destruct H|]. destruct (Ascii.eqb a " ") eqn:A; [|destruct H]. apply Ascii.eqb_eq in A. subst a. apply alt1_in in H. destruct H as [K ->].
    exists [" "%char; dg n]. split; [reflexivity|]. split; [lia|]. right. split; [lia|auto].
Qed.

Lemma hd_in {A} (l : list A) x : hd_error l = Some x -> In x l.
Proof. destruct l; [discriminate|]. cbn. intros H. injection H as ->. now left. Qed.

Lemma year_of a b c d : 0 <= a <= 9 -> 0 <= b <= 9 -> 0 <= c <= 9 -> 0 <= d <= 9 -> year_text (1000 * a + 100 * b + 10 * c + d) [dg a; dg b; dg c; dg d].
Proof.
  intros A B C D. split; [lia|]. set (y := 1000 * a + 100 * b + 10 * c + d).
  assert (Y3 : y / 1000 = a) by (symmetry; apply (Z.div_unique _ 1000 a (100 * b + 10 * c + d)); unfold y; lia).
  assert (Y2 : y / 100 = 10 * a + b) by (symmetry; apply (Z.div_unique _ 100 (10 * a + b) (10 * c + d)); unfold y; lia).
  assert (Y1 : y / 10 = 10 * (10 * a + b) + c) by (symmetry; apply (Z.div_unique _ 10 _ d); unfold y; lia).
  assert (Y0 : y mod 10 = d) by (symmetry; apply (Z.mod_unique _ 10 (100 * a + 10 * b + c) d); unfold y; lia).
  rewrite Y3, Y2, Y1, Y0. assert (M1 : (10 * a + b) mod 10 = b) by (apply two; lia). assert (M2 : (10 * (10 * a + b) + c) mod 10 = c) by (symmetry; apply (Z.mod_unique _ 10 (10 * a + b) c); lia). now rewrite M1, M2.
Qed.

Lemma match_sound t y m d r : match_ymd t = Some (y, m, d, r) -> exists ty tm td, year_text y ty /\ month_text m tm /\ day_text d td /\ t = ty ++ "-"%char :: tm ++ "-"%char :: td ++ r.
Proof.
  destruct t as [|a [|b [|c [|e [|s t]]]]]; try discriminate. cbn [match_ymd]. destruct (is_digit a && is_digit b && is_digit c && is_digit e && Ascii.eqb s dash) eqn:D; [|discriminate].
  rewrite !andb_true_iff in D. destruct D as ((((D1 & D2) & D3) & D4) & D5). apply Ascii.eqb_eq in D5. subst s. intros H. apply hd_in in H. apply in_flat_map in H. destruct H as ([m' r'] & I & H). cbn [fst snd] in H.
  destruct r' as [|x r']; [destruct H|]. destruct (Ascii.eqb x dash) eqn:X; [|destruct H]. apply Ascii.eqb_eq in X. subst x. apply in_map_iff in H. destruct H as ([d' r''] & E & J). cbn [fst snd] in E. injection E as <- <- <- <-.
  destruct (month_in _ _ _ I) as (tm & -> & TM). destruct (day_in _ _ _ J) as (td & -> & TD).
  destruct (digit_dg a D1) as (ka & KA & -> & ->). destruct (digit_dg b D2) as (kb & KB & -> & ->). destruct (digit_dg c D3) as (kc & KC & -> & ->). destruct (digit_dg e D4) as (ke & KE & -> & ->).
  exists [dg ka; dg kb; dg kc; dg ke], tm, td. split; [now apply year_of|]. split; [auto|]. split; [auto|]. reflexivity.
Qed.

Lemma upto n k : 1 <= n <= Z.of_nat k -> In n (map Z.of_nat (seq 1 k)).
Proof. intros H. apply in_map_iff. exists (Z.to_nat n). split; [lia|]. apply in_seq. lia. Qed.

Lemma month_alts_dash m tm r : month_text m tm -> exists rest, month_alts (tm ++ dash :: r) = (m, dash :: r) :: rest /\ Forall (fun mr => match snd mr with x :: _ => Ascii.eqb x dash = false | [] => True end) rest
  \/ month_alts (tm ++ dash :: r) = rest ++ [(m, dash :: r)] /\ Forall (fun mr => match snd mr with x :: _ => Ascii.eqb x dash = false | [] => True end) rest.
Proof.
  intros [M S]. apply (upto m 12) in M. destruct S as [->|[L ->]].
  - clear - M. repeat (destruct M as [<-|M]; [eexists; left; split; [vm_compute; reflexivity|repeat constructor]|]). destruct M.
  - cbn [seq map] in M. repeat (destruct M as [<-|M]; [first [lia|exists []; right; split; [vm_compute; reflexivity|constructor]]|]). destruct M.
Qed.
Lemma day_alts_end d td : day_text d td -> exists rest, day_alts td = (d, []) :: rest.
Proof.
  intros [D S]. apply (upto d 31) in D. destruct S as [[->|[L ->]]|[L ->]].
  - repeat (destruct D as [<-|D]; [eexists; vm_compute; reflexivity|]). destruct D.
  - cbn [seq map] in D. repeat (destruct D as [<-|D]; [first [lia|eexists; vm_compute; reflexivity]|]). destruct D.
  - cbn [seq map] in D. repeat (destruct D as [<-|D]; [first [lia|eexists; vm_compute; reflexivity]|]). destruct D.
Qed.

Lemma year_digits y t : year_text y t -> exists a b c d, t = [dg a; dg b; dg c; dg d] /\ 0 <= a <= 9 /\ 0 <= b <= 9 /\ 0 <= c <= 9 /\ 0 <= d <= 9 /\ 1000 * a + 100 * b + 10 * c + d = y.
Proof.
  intros [Y ->]. exists (y / 1000), (y / 100 mod 10), (y / 10 mod 10), (y mod 10). split; [reflexivity|].
  pose proof (Z.div_mod y 10). pose proof (Z.div_mod (y / 10) 10). pose proof (Z.div_mod (y / 100) 10).
  rewrite (Z.div_div y 10 10) in * by lia. rewrite (Z.div_div y 100 10) in * by lia. change (10 * 10) with 100 in *. change (100 * 10) with 1000 in *.
  pose proof (Z.mod_pos_bound y 10). pose proof (Z.mod_pos_bound (y / 10) 10). pose proof (Z.mod_pos_bound (y / 100) 10).
  assert (0 <= y / 1000 <= 9) by (split; [apply Z.div_pos; lia|apply Z.lt_succ_r; apply Z.div_lt_upper_bound; lia]). lia.
Qed.

Lemma flat_none {A B} (f : A -> list B) l : Forall (fun x => f x = []) l -> flat_map f l = [].
Proof. induction 1 as [|x l H _ IH]; cbn; auto. now rewrite H. Qed.

Lemma match_complete y m d t : date_text y m d t -> match_ymd t = Some (y, m, d, []).
Proof.
  intros (ty & tm & td & TY & TM & TD & ->). destruct (year_digits _ _ TY) as (a & b & c & e & -> & A & B & C & E & <-). cbn [app match_ymd].
  rewrite !is_digit_dg by auto. cbn [andb]. change (Ascii.eqb "-" dash) with true. cbv iota. rewrite !dval_dg by auto.
  destruct (day_alts_end _ _ TD) as [dr DR]. change "-"%char with dash.
  assert (Z0 : forall g (rest : list (Z * text)), Forall (fun mr : Z * text => match snd mr with x :: _ => Ascii.eqb x dash = false | [] => True end) rest ->
     flat_map (fun mr : Z * text => match snd mr with x :: r' => if Ascii.eqb x dash then (g mr r' : list (Z * Z * Z * text)) else [] | [] => [] end) rest = []).
  { intros g rest F. apply flat_none. eapply Forall_impl; [|exact F]. intros [k u] H. cbn [snd] in *. destruct u; auto. now rewrite H. }
  destruct (month_alts_dash m tm td TM) as (rest & [[-> F]|[-> F]]).
  - cbn [flat_map snd fst]. rewrite Ascii.eqb_refl, DR. cbn [map fst snd app hd_error]. reflexivity.
  - rewrite flat_map_app. rewrite (Z0 (fun mr r' => map (fun dr0 : Z * text => (1000 * a + 100 * b + 10 * c + e, fst mr, fst dr0, snd dr0)) (day_alts r'))) by exact F. cbn [flat_map snd fst app]. rewrite Ascii.eqb_refl, DR. reflexivity.
Qed.

Lemma valid_dtb_spec t : valid_dtb t = true <-> valid_dt t.
Proof. unfold valid_dtb, valid_dt. rewrite !andb_true_iff, !Z.leb_le, Z.ltb_lt. tauto. Qed.

Lemma strptime_ok t x : strptime t = Ok x <-> exists y m d, x = mkdt y m d 0 /\ date_text y m d t /\ valid_dt x.
Proof.
  unfold strptime. split.
  - destruct (match_ymd t) as [[[[y m] d] r]|] eqn:M; [|discriminate]. destruct r; [|discriminate]. destruct (valid_dtb (mkdt y m d 0)) eqn:V; [|discriminate]. intros H. injection H as <-.
    exists y, m, d. split; auto. split; [|now apply valid_dtb_spec]. destruct (match_sound _ _ _ _ _ M) as (ty & tm & td & A & B & C & D). rewrite app_nil_r in D. exists ty, tm, td. auto.
  - intros (y & m & d & -> & D & V). rewrite (match_complete _ _ _ _ D). apply valid_dtb_spec in V. now rewrite V.
Qed.
Lemma strptime_err t e : strptime t = Err e -> e = ValueError.
Proof. unfold strptime. destruct (match_ymd t) as [[[[y m] d] [|? ?]]|]; try congruence. destruct (valid_dtb _); congruence. Qed.

Lemma iso_text y m d : 0 <= y <= 9999 -> 1 <= m <= 12 -> 1 <= d <= 31 -> date_text y m d (iso y m d).
Proof.
  intros Y M D. exists [dg (y / 1000); dg (y / 100 mod 10); dg (y / 10 mod 10); dg (y mod 10)], [dg (m / 10); dg (m mod 10)], [dg (d / 10); dg (d mod 10)].
  split; [split; auto|]. split; [split; [auto|now left]|]. split; [split; [auto|left; now left]|reflexivity].
Qed.

(** * Clocks that start at a date *)
Definition midnight (t : datetime) : Prop := dt_us t = 0.
Definition day_of (t : datetime) : datetime := mkdt (dt_year t) (dt_month t) (dt_day t) 0.

Lemma add_days_us t us : midnight t -> add_days t (us / us_per_day) = match add_us t us with Ok x => Ok (day_of x) | Err e => Err e end.
Proof.
  intros M. unfold add_days, add_us. rewrite M, Z.add_0_r. rewrite Z.div_add_l by (unfold us_per_day; lia). destruct ((0 <? toordinal t + us / us_per_day) && (toordinal t + us / us_per_day <=? max_ordinal)); auto.
  destruct (ord2ymd _) as [[y m] d]. reflexivity.
Qed.
Lemma date_at_day t p ix : midnight t -> date_at t p ix = match datetime_at (mkclock t p 0) ix with Ok x => Ok (day_of x) | Err e => Err e end.
Proof.
  intros M. unfold datetime_at. cbn [ck_start ck_period]. destruct p; cbn [date_at]; try (now apply add_days_us).
  - replace ix with (ix * us_per_day / us_per_day) at 1 by (apply Z.div_mul; unfold us_per_day; lia). now apply add_days_us.
  - replace (ix * 7) with (ix * 7 * us_per_day / us_per_day) at 1 by (apply Z.div_mul; unfold us_per_day; lia). now apply add_days_us.
  - unfold add_months. destruct (if 12 <? _ then _ else _) as [y m]. destruct ((1 <=? y) && (y <=? 9999)); auto. now rewrite M.
  - unfold add_years. destruct ((1 <=? dt_year t + ix) && (dt_year t + ix <=? 9999)); auto. now rewrite M.
Qed.
