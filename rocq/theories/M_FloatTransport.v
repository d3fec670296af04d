(** auxi/tools/transportphenomena in binary64: the formulas of
    dimensionlessquantities.py and fluidflow/pressuredrop.py, and the choice of
    the region and the correlations of heattransfer/naturalconvection.py, for
    Python floats.  Python's ** is the C library's pow, which no standard
    requires to be correctly rounded; it is the parameter [pow64], used with
    positive bases (a negative base and a broken exponent give a complex
    number); its log10 is the parameter [log64].  Not modelled: numpy numbers
    (a division by zero warns), the texts of the printed warnings of f_tr_Haaland, scipy's root search in f_tr_Colebrook (only the function it is
    given is), and
    the cosine of an inclined surface (the gravity is an argument here). *)
From Verif Require Import Prelude M_Stoichiometry M_Thermochem M_Ieee M_FloatCompare M_FloatMix M_FloatLoan M_FloatStoich M_Transport.
From Flocq Require Import Core BinarySingleNaN.
Import ListNotations.
Local Open Scope list_scope.

(** A whole number as a float, and [x <= y]. *)
Definition whole64 (z : Z) : float64 := binary_normalize 53 1024 _ _ mode_NE z 0 false.
Definition le64 (x y : float64) : bool := match Bcompare x y with Some Lt | Some Eq => true | _ => false end.

(** dimensionlessquantities.py:53-63. *)
Definition fPr (nu alpha : float64) : res float64 := pydiv64 nu alpha.
(** dimensionlessquantities.py:66-77. *)
Definition fRe (L v nu : float64) : res float64 := pydiv64 (mul64 v L) nu.
(** dimensionlessquantities.py:105-116. *)
Definition fNu (L h k : float64) : res float64 := pydiv64 (mul64 h L) k.
(** dimensionlessquantities.py:119-130. *)
Definition fSh (L h D : float64) : res float64 := pydiv64 (mul64 h L) D.
(** pressuredrop.py:25-34. *)
Definition ff_l (Re_D : float64) : res float64 := pydiv64 (whole64 64) Re_D.
(** pressuredrop.py:110-118. *)
Definition fD_h (A P : float64) : res float64 := pydiv64 (mul64 (whole64 4) A) P.

(** naturalconvection.py:64-102; the limits are ints, which Python compares with
    floats exactly. *)
Record fregion := mkfregion { fr_tmin : Z; fr_tmin_incl : bool; fr_tmax : Z; fr_tmax_incl : bool;
                              fr_rmin : option Z; fr_rmin_incl : bool; fr_rmax : option Z; fr_rmax_incl : bool }.
(** naturalconvection.py:104-132. *)
Definition fabove (m : Z) (incl : bool) (x : float64) : bool := if incl then le64 (whole64 m) x else lt64 (whole64 m) x.
Definition fbelow (m : Z) (incl : bool) (x : float64) : bool := if incl then le64 x (whole64 m) else lt64 x (whole64 m).
(** naturalconvection.py:134-152. *)
Definition fcontains_point (r : fregion) (theta Ra : float64) : bool :=
  fabove (fr_tmin r) (fr_tmin_incl r) theta && fbelow (fr_tmax r) (fr_tmax_incl r) theta
  && match fr_rmin r with None => true | Some m => fabove m (fr_rmin_incl r) Ra end
  && match fr_rmax r with None => true | Some m => fbelow m (fr_rmax_incl r) Ra end.
(** naturalconvection.py:203-261, in the order of insertion. *)
Definition fregions : list (fregion * correlation) :=
  [ (mkfregion (-90) true (-60) true None false (Some 4%Z) false, Nu_9_22);
    (mkfregion (-90) true (-60) true (Some 4%Z) true (Some 7%Z) true, Nu_9_22);
    (mkfregion (-90) true (-60) true (Some 7%Z) false (Some 11%Z) true, Nu_9_23);
    (mkfregion (-90) true (-60) true (Some 11%Z) false None false, Nu_9_23);
    (mkfregion (-60) false (-52) true None false (Some 7%Z) true, Nu_9_22);
    (mkfregion (-60) false (-52) true (Some 7%Z) false None false, Nu_9_23);
    (mkfregion (-52) false (-45) false None false (Some 7%Z) true, Nu_8_27_g);
    (mkfregion (-52) false (-45) false (Some 7%Z) false None false, Nu_8_27_g);
    (mkfregion (-45) true 0 false None false (Some 5%Z) false, Nu_8_27_g);
    (mkfregion (-45) true 0 false (Some 5%Z) true (Some 9%Z) true, Nu_8_27_g);
    (mkfregion (-45) true 0 false (Some 9%Z) true None true, Nu_8_27_g);
    (mkfregion 0 true 0 true None false (Some 5%Z) true, Nu_8_26);
    (mkfregion 0 true 0 true (Some 5%Z) false (Some 11%Z) false, Nu_8_26);
    (mkfregion 0 true 0 true (Some 11%Z) false None false, Nu_8_26);
    (mkfregion 0 false 88 false None false (Some 5%Z) false, Nu_8_27);
    (mkfregion 0 true 88 false (Some 5%Z) true (Some 11%Z) true, Nu_8_27);
    (mkfregion 0 false 88 false (Some 11%Z) false None false, Nu_8_27);
    (mkfregion 88 false 90 true None false (Some 6%Z) false, Nu_8_38);
    (mkfregion 88 true 90 true (Some 6%Z) true (Some 9%Z) true, Nu_8_38);
    (mkfregion 88 true 89 false (Some 9%Z) false None false, Nu_8_38);
    (mkfregion 89 true 90 true (Some 9%Z) true (Some 11%Z) true, Nu_8_38);
    (mkfregion 88 false 90 true (Some 11%Z) false None false, Nu_8_38) ].
(** naturalconvection.py:323-324. *)
Definition fselect (theta Ra : float64) : res correlation :=
  match filter (fun rc => fcontains_point (fst rc) theta Ra) fregions with
  | [] => Err IndexError
  | rc :: _ => Ok (snd rc)
  end.

Section pow.
Variable pow64 : float64 -> float64 -> res float64.

(** dimensionlessquantities.py:29-50. *)
Definition fGr (L Ts Tf beta nu g : float64) : res float64 :=
  do c <- pow64 L (whole64 3);
  do d <- pow64 nu (whole64 2);
  pydiv64 (mul64 (mul64 (mul64 g beta) (sub64 Ts Tf)) c) d.
(** pressuredrop.py:121-134: 2 is an int, converted by the operators. *)
Definition fdelta_p (f L D rho v : float64) : res float64 :=
  do q <- pydiv64 L D;
  do s <- pow64 v (whole64 2);
  do h <- pydiv64 (mul64 rho s) (whole64 2);
  Ok (mul64 (mul64 f q) h).
(** naturalconvection.py:263-281. *)
Definition fcorrelate (c : correlation) (Ra Pr : float64) : res float64 :=
  match c with
  | Nu_8_26 =>
      do a <- pow64 Ra (literal64 (1 # 4));
      do q <- pydiv64 Pr (add64 (literal64 (952 # 1000)) Pr);
      do b <- pow64 q (literal64 (1 # 4));
      Ok (mul64 (mul64 (literal64 (678 # 1000)) a) b)
  | Nu_8_27 | Nu_8_27_g =>
      do a <- pow64 Ra (literal64 (1 # 4));
      do q <- pydiv64 (literal64 (492 # 1000)) Pr;
      do e <- pydiv64 (whole64 9) (whole64 16);
      do b <- pow64 q e;
      do e' <- pydiv64 (whole64 4) (whole64 9);
      do d <- pow64 (add64 (whole64 1) b) e';
      do y <- pydiv64 (mul64 (literal64 (67 # 100)) a) d;
      Ok (add64 (literal64 (68 # 100)) y)
  | Nu_8_38 => do a <- pow64 Ra (literal64 (2 # 10)); Ok (mul64 (literal64 (58 # 100)) a)
  | Nu_9_22 => do a <- pow64 Ra (literal64 (1 # 4)); Ok (mul64 (literal64 (59 # 100)) a)
  | Nu_9_23 => do e <- pydiv64 (whole64 1) (whole64 3); do a <- pow64 Ra e; Ok (mul64 (literal64 (1 # 10)) a)
  end.
(** naturalconvection.py:319-326, for the gravity [g] (305-314) and the fluid's
    properties [beta] (300, 303), [nu] and [alpha] (316-317). *)
Definition fNu_x (L theta Ts Tf beta nu alpha g : float64) : res float64 :=
  do gr <- fGr L Ts Tf beta nu g;
  do pr <- fPr nu alpha;
  let ra := mul64 gr pr in
  do eq <- fselect theta ra;
  fcorrelate eq ra pr.
(** naturalconvection.py:340. *)
Definition fNu_L (L theta Ts Tf beta nu alpha g : float64) : res float64 :=
  do n <- fNu_x L theta Ts Tf beta nu alpha g; pydiv64 n (literal64 (75 # 100)).
(** naturalconvection.py:354-356, for the conductivity [k] (355). *)
Definition fh_x (L theta Ts Tf beta nu alpha g k : float64) : res float64 :=
  do n <- fNu_x L theta Ts Tf beta nu alpha g; pydiv64 (mul64 n k) L.
(** naturalconvection.py:370-372. *)
Definition fh_L (L theta Ts Tf beta nu alpha g k : float64) : res float64 :=
  do n <- fNu_L L theta Ts Tf beta nu alpha g; pydiv64 (mul64 n k) L.
End pow.
(** math.log10: a ValueError for numbers that are not positive. *)
Definition flog10 (log64 : float64 -> float64) (x : float64) : res float64 := if le64 x zero64 then Err ValueError else Ok (log64 x).
(** pressuredrop.py:37-47: the ints 1 and 2 are converted by the operators. *)
Definition ff_ts (pow64 : float64 -> float64 -> res float64) (log64 : float64 -> float64) (Re_D : float64) : res float64 :=
  do l <- flog10 log64 Re_D;
  do s <- pow64 (sub64 (mul64 (literal64 (182 # 100)) l) (literal64 (164 # 100))) (whole64 2);
  pydiv64 (whole64 1) s.
(** pressuredrop.py:50-80: 1 and 2 are ints; the base of the square is negative
    where the formula is meant to be used. *)
Definition ff_tr_Haaland (pow64 : float64 -> float64 -> res float64) (log64 : float64 -> float64) (Re_D eps D : float64) : res float64 :=
  do r <- pydiv64 eps D;
  do a <- pydiv64 (literal64 (69 # 10)) Re_D;
  do r' <- pydiv64 r (literal64 (37 # 10));
  do b <- pow64 r' (literal64 (111 # 100));
  do l <- flog10 log64 (add64 a b);
  do s <- pow64 (mul64 (literal64 (18 # 10)) l) (whole64 2);
  pydiv64 (whole64 1) s.
(** pressuredrop.py:62-78: the warnings that f_tr_Haaland prints, in order (its
    try statements catch nothing but the Warning raised in them). *)
Inductive duct_warning := RoughnessRange | ReynoldsRange.
Definition Haaland_warnings (warn : bool) (Re_D eps D : float64) : res (list duct_warning) :=
  if warn then
    do q <- pydiv64 eps D;
    Ok ((if lt64 q zero64 || gt64 q (literal64 (5 # 100)) then [RoughnessRange] else [])
        ++ (if lt64 Re_D (whole64 4000) || gt64 Re_D (whole64 100000000) then [ReynoldsRange] else []))
  else Ok [].
(** math.sqrt: a ValueError for negative numbers. *)
Definition fsqrt (x : float64) : res float64 := if lt64 x zero64 then Err ValueError else Ok (Bsqrt mode_NE x).
(** pressuredrop.py:94-104: the function whose root f_tr_Colebrook asks for. *)
Definition fcolebrook (log64 : float64 -> float64) (f Re_D eps D : float64) : res float64 :=
  do r <- pydiv64 eps D;
  do t1 <- pydiv64 r (literal64 (37 # 10));
  do a <- pydiv64 (literal64 (251 # 100)) Re_D;
  do s <- fsqrt f;
  do t2 <- pydiv64 a s;
  do l <- flog10 log64 (add64 t1 t2);
  do s' <- fsqrt f;
  do i <- pydiv64 (whole64 1) s';
  Ok (sub64 (mul64 (whole64 (-2)) l) i).
