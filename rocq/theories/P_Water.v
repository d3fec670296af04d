(** The interval checks behind C68: viscosities and density of water, density of
    ammonia and carbon dioxide. *)
From Verif Require Import Prelude M_Lists M_Thermochem M_Data_Fluids P_PolyZ P_Poly.
From Coq Require Import QArith Reals Qreals Lra.
Local Open Scope list_scope.
Local Open Scope R_scope.

Definition water_check (data : list (string * qpoly)) : bool :=
  match lookup "water-nu" data, lookup "water-rho" data, lookup "water-mu" data with
  | Some n, Some r, Some m =>
      let n := rev (qp_coeffs n) in let r := rev (qp_coeffs r) in let mu := rev (qp_coeffs m) in
      let nr := zscale 1000 (zmul (zints common n) (zints common r)) in
      let mu' := zints (common * common) mu in
      (zfits common n && zfits common r && zfits (common * common) mu &&
       zpos 14 (zadd nr (zscale (-979) mu')) (qp_min m) (qp_max m) && zpos 14 (zadd (zscale 1021 mu') (zscale (-1) nr)) (qp_min m) (qp_max m))%bool
  | _, _, _ => false
  end.
Lemma water_checked : water_check fluid_data = true. Proof. vm_compute. reflexivity. Qed.
Lemma water_check_sound data n r m T : water_check data = true -> lookup "water-nu" data = Some n -> lookup "water-rho" data = Some r -> lookup "water-mu" data = Some m ->
  Q2R (qp_min m) <= T <= Q2R (qp_max m) -> 0.979 * ev (rev (qp_coeffs m)) T < ev (rev (qp_coeffs n)) T * ev (rev (qp_coeffs r)) T < 1.021 * ev (rev (qp_coeffs m)) T.
Proof.
  intros W Lv Lr Lm Rm. unfold water_check in W. rewrite Lv, Lr, Lm in W. cbv zeta in W. apply andb_prop in W. destruct W as [W B]. apply andb_prop in W. destruct W as [W A].
  apply andb_prop in W. destruct W as [W F3]. apply andb_prop in W. destruct W as [F1 F2].
  assert (A' := zpos_sound _ _ _ _ T A Rm). assert (B' := zpos_sound _ _ _ _ T B Rm). clear A B. rewrite evz_add in A', B'. rewrite !evz_scale in A'. rewrite !evz_scale in B'. rewrite !evz_mul in A'. rewrite !evz_mul in B'. rewrite !evz_ints in A', B' by auto.
  rewrite mult_IZR in A', B'. pose proof common_pos as P. set (c := IZR common) in *. clearbody c. set (a := ev (rev (qp_coeffs n)) T) in *. set (b := ev (rev (qp_coeffs r)) T) in *. set (d := ev (rev (qp_coeffs m)) T) in *.
  assert (PP : 0 < c * c) by now apply Rmult_lt_0_compat.
  split; apply Rmult_lt_reg_l with (c * c); auto; lra.
Qed.

(** The density polynomial times R T against P M (M in grams, nine decimals of R). *)
Definition ideal_check (p : qpoly) (M : Q) : bool :=
  let r := rev (qp_coeffs p) in
  let rT := zscale (8314462618 * Zpos (Qden M)) (0%Z :: zints common r) in let c := [common * 101325 * 1000000 * Qnum M]%Z in
  (zfits common r && zpos 12 (zadd (zscale 100 rT) (zscale (-97) c)) (qp_min p) (qp_max p) && zpos 12 (zadd (zscale 103 c) (zscale (-100) rT)) (qp_min p) (qp_max p))%bool.
Lemma ideal_check_sound p M T : ideal_check p M = true -> Q2R (qp_min p) <= T <= Q2R (qp_max p) -> 
  let law := 101325 * (Q2R M / 1000) in 0.97 * law < ev (rev (qp_coeffs p)) T * 8.314462618 * T < 1.03 * law.
Proof.
  intros C R law. unfold ideal_check in C. cbv zeta in C. apply andb_prop in C. destruct C as [C B]. apply andb_prop in C. destruct C as [F A].
  assert (A' := zpos_sound _ _ _ _ T A R). assert (B' := zpos_sound _ _ _ _ T B R). clear A B. rewrite evz_add, !evz_scale in A', B'. cbn [evz] in A', B'. rewrite !evz_ints in A', B' by auto.
  rewrite !mult_IZR in A', B'. pose proof common_pos as P. set (c := IZR common) in *. clearbody c. set (a := ev (rev (qp_coeffs p)) T) in *.
  assert (D : 0 < IZR (Zpos (Qden M))) by (apply IZR_lt; reflexivity). assert (E : IZR (Qnum M) = Q2R M * IZR (Zpos (Qden M))) by (unfold Q2R; field; lra). rewrite E in A', B'. clear E.
  set (q := IZR (Zpos (Qden M))) in *. clearbody q. assert (PP : 0 < c * q) by now apply Rmult_lt_0_compat. unfold law.
  split; apply Rmult_lt_reg_l with (c * q); auto; lra.
Qed.
Lemma ideal_checked : match lookup "ammonia-rho-polynomialmodelt-dataset-ammonia-lienhard2018" fluid_data, lookup "carbon-dioxide-rho-polynomialmodelt-dataset-carbon-dioxide-lienhard2018" fluid_data with
  | Some a, Some c => (ideal_check a (1703056 # 100000) && ideal_check c (440095 # 10000))%bool | _, _ => false end = true.
Proof. vm_compute. reflexivity. Qed.
