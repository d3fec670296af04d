(** Model of auxi/tools/transportphenomena: dimensionlessquantities.py,
    fluidflow/pressuredrop.py and heattransfer/naturalconvection.py over the real
    numbers.  Not modelled: rounding, plotting, the printed warnings of
    f_tr_Haaland and the iterations of scipy.optimize.root (only the function
    whose root f_tr_Colebrook asks for). *)
From Verif Require Import Prelude M_Stoichiometry M_Thermochem M_ThermoMat M_Physical.
From Coq Require Import Reals.
Local Open Scope list_scope.
Local Open Scope R_scope.

(** * dimensionlessquantities.py, for Python floats *)
(** dimensionlessquantities.py:29-50. *)
Definition Gr (L Ts Tf beta nu g : R) : res R := rdiv (g * beta * (Ts - Tf) * L ^ 3) (nu ^ 2).
(** dimensionlessquantities.py:53-63. *)
Definition Pr (nu alpha : R) : res R := rdiv nu alpha.
(** dimensionlessquantities.py:66-77. *)
Definition Re (L v nu : R) : res R := rdiv (v * L) nu.
(** dimensionlessquantities.py:80-102: the names g and Tinf are defined neither
    in the function nor in the module. *)
Definition Ra (L Ts Tf alpha beta nu : R) : res R := Err NameError.
(** dimensionlessquantities.py:105-116. *)
Definition Nu (L h k : R) : res R := rdiv (h * L) k.
(** dimensionlessquantities.py:119-130. *)
Definition Sh (L h D : R) : res R := rdiv (h * L) D.

(** * pressuredrop.py, for Python floats *)
(** math.log10 *)
Definition log10 (x : R) : res R := if Rlt_dec 0 x then Ok (ln x / ln 10) else Err ValueError.
(** pressuredrop.py:25-34. *)
Definition f_l (Re_D : R) : res R := rdiv 64 Re_D.
(** pressuredrop.py:37-47. *)
Definition f_ts (Re_D : R) : res R :=
  do l <- log10 Re_D; rdiv 1 ((182 / 100 * l - 164 / 100) ^ 2).
(** x ** y for floats: a negative base gives a complex number, which log10 refuses;
    the exponent here is positive. *)
Definition fpow (x y : R) : res R := if Rlt_dec x 0 then Err TypeError else Ok (if Req_EM_T x 0 then 0 else Rpower x y).
(** pressuredrop.py:50-80. *)
Definition f_tr_Haaland (Re_D eps D : R) : res R :=
  do r <- rdiv eps D;
  do a <- rdiv (69 / 10) Re_D;
  do b <- fpow (r / (37 / 10)) (111 / 100);
  do l <- log10 (a + b);
  rdiv 1 ((18 / 10 * l) ^ 2).
(** pressuredrop.py:94-104: math.sqrt refuses negative numbers. *)
Definition colebrook (f Re_D eps D : R) : res R :=
  do r <- rdiv eps D;
  do a <- rdiv (251 / 100) Re_D;
  do s <- (if Rlt_dec f 0 then Err ValueError else Ok (sqrt f));
  do term2 <- rdiv a s;
  do l <- log10 (r / (37 / 10) + term2);
  do i <- rdiv 1 s;
  Ok (- 2 * l - i).
(** pressuredrop.py:110-118. *)
Definition D_h (A P : R) : res R := rdiv (4 * A) P.
(** pressuredrop.py:121-134. *)
Definition delta_p (f L D rho v : R) : res R := do q <- rdiv L D; Ok (f * q * (rho * v ^ 2 / 2)).

(** * naturalconvection.py *)
(** naturalconvection.py:64-102: theta_min, inclusive?, theta_max, inclusive?,
    Ra_min (None: no limit), inclusive?, Ra_max, inclusive? *)
Record region := mkregion { rg_tmin : R; rg_tmin_incl : bool; rg_tmax : R; rg_tmax_incl : bool;
                            rg_rmin : option R; rg_rmin_incl : bool; rg_rmax : option R; rg_rmax_incl : bool }.
(** naturalconvection.py:104-132. *)
Definition above (m : R) (incl : bool) (x : R) : bool :=
  if incl then (if Rle_dec m x then true else false) else (if Rlt_dec m x then true else false).
Definition below (m : R) (incl : bool) (x : R) : bool :=
  if incl then (if Rle_dec x m then true else false) else (if Rlt_dec x m then true else false).
(** naturalconvection.py:134-152. *)
Definition contains_point (r : region) (theta Ra : R) : bool :=
  above (rg_tmin r) (rg_tmin_incl r) theta && below (rg_tmax r) (rg_tmax_incl r) theta
  && match rg_rmin r with None => true | Some m => above m (rg_rmin_incl r) Ra end
  && match rg_rmax r with None => true | Some m => below m (rg_rmax_incl r) Ra end.

(** The correlations by the names of their methods. *)
Inductive correlation := Nu_8_26 | Nu_8_27 | Nu_8_27_g | Nu_8_38 | Nu_9_22 | Nu_9_23.
(** naturalconvection.py:203-261, in the order of insertion. *)
Definition regions : list (region * correlation) :=
  [ (mkregion (-90) true (-60) true None false (Some 4) false, Nu_9_22);
    (mkregion (-90) true (-60) true (Some 4) true (Some 7) true, Nu_9_22);
    (mkregion (-90) true (-60) true (Some 7) false (Some 11) true, Nu_9_23);
    (mkregion (-90) true (-60) true (Some 11) false None false, Nu_9_23);
    (mkregion (-60) false (-52) true None false (Some 7) true, Nu_9_22);
    (mkregion (-60) false (-52) true (Some 7) false None false, Nu_9_23);
    (mkregion (-52) false (-45) false None false (Some 7) true, Nu_8_27_g);
    (mkregion (-52) false (-45) false (Some 7) false None false, Nu_8_27_g);
    (mkregion (-45) true 0 false None false (Some 5) false, Nu_8_27_g);
    (mkregion (-45) true 0 false (Some 5) true (Some 9) true, Nu_8_27_g);
    (mkregion (-45) true 0 false (Some 9) true None true, Nu_8_27_g);
    (mkregion 0 true 0 true None false (Some 5) true, Nu_8_26);
    (mkregion 0 true 0 true (Some 5) false (Some 11) false, Nu_8_26);
    (mkregion 0 true 0 true (Some 11) false None false, Nu_8_26);
    (mkregion 0 false 88 false None false (Some 5) false, Nu_8_27);
    (mkregion 0 true 88 false (Some 5) true (Some 11) true, Nu_8_27);
    (mkregion 0 false 88 false (Some 11) false None false, Nu_8_27);
    (mkregion 88 false 90 true None false (Some 6) false, Nu_8_38);
    (mkregion 88 true 90 true (Some 6) true (Some 9) true, Nu_8_38);
    (mkregion 88 true 89 false (Some 9) false None false, Nu_8_38);
    (mkregion 89 true 90 true (Some 9) true (Some 11) true, Nu_8_38);
    (mkregion 88 false 90 true (Some 11) false None false, Nu_8_38) ].
(** naturalconvection.py:263-281.  A power of a negative number is not a real
    number (nan for numpy numbers, complex for floats). *)
Definition correlate (c : correlation) (Ra Pr : R) : res R :=
  match c with
  | Nu_8_26 => do a <- npow Ra (1 / 4); do q <- rdiv Pr (952 / 1000 + Pr); do b <- npow q (1 / 4); Ok (678 / 1000 * a * b)
  | Nu_8_27 | Nu_8_27_g =>
      do a <- npow Ra (1 / 4); do q <- rdiv (492 / 1000) Pr; do b <- npow q (9 / 16); do d <- npow (1 + b) (4 / 9);
      do y <- rdiv (67 / 100 * a) d; Ok (68 / 100 + y)
  | Nu_8_38 => do a <- npow Ra (1 / 5); Ok (58 / 100 * a)
  | Nu_9_22 => do a <- npow Ra (1 / 4); Ok (59 / 100 * a)
  | Nu_9_23 => do a <- npow Ra (1 / 3); Ok (1 / 10 * a)
  end.
(** naturalconvection.py:323-326. *)
Definition select (theta Ra : R) : res correlation :=
  match filter (fun rc => contains_point (fst rc) theta Ra) regions with
  | [] => Err IndexError
  | rc :: _ => Ok (snd rc)
  end.
(** auxi/tools/physicalconstants.py:56. *)
Definition const_g : R := 980665 / 100000.
(** naturalconvection.py:298-303: the reference temperature self.Tr. *)
Definition film_T (isgas : bool) (Ts Tf : R) : R := if isgas then Ts - 38 / 100 * (Ts - Tf) else Ts - 1 / 2 * (Ts - Tf).
(** naturalconvection.py:305-314. *)
Definition effective_g (theta Ts Tf : R) : R :=
  if Rlt_dec Tf Ts then
    if Rlt_dec 0 theta then if Rlt_dec theta 45 then const_g * cos (theta * PI / 180) else const_g else const_g
  else
    if Rlt_dec (-45) theta then if Rlt_dec theta 0 then const_g * cos (theta * PI / 180) else const_g else const_g.
(** naturalconvection.py:283-326.  [statef] holds the keyword arguments left. *)
Definition Nu_x (m : fluid) (isgas : bool) (L theta Ts : R) (statef : state) : res R :=
  do Tf <- number_of "T" statef;
  let Tr := film_T isgas Ts Tf in
  do beta <- property m "beta" (at_T (if isgas then Tf else Tr));
  let g := effective_g theta Ts Tf in
  do v <- nu m (at_T Tr);
  do a <- alpha m (at_T Tr);
  do gr <- Gr L Ts Tf beta v g;
  do pr <- Pr v a;
  let ra := gr * pr in
  do eq <- select theta ra;
  correlate eq ra pr.
(** naturalconvection.py:328-340. *)
Definition Nu_L (m : fluid) (isgas : bool) (L theta Ts : R) (statef : state) : res R :=
  do n <- Nu_x m isgas L theta Ts statef; Ok (n / (75 / 100)).
(** naturalconvection.py:342-356. *)
Definition h_x (m : fluid) (isgas : bool) (L theta Ts : R) (statef : state) : res R :=
  do n <- Nu_x m isgas L theta Ts statef;
  do Tf <- number_of "T" statef;
  do k <- property m "k" (at_T (film_T isgas Ts Tf));
  rdiv (n * k) L.
(** naturalconvection.py:358-372. *)
Definition h_L (m : fluid) (isgas : bool) (L theta Ts : R) (statef : state) : res R :=
  do n <- Nu_L m isgas L theta Ts statef;
  do Tf <- number_of "T" statef;
  do k <- property m "k" (at_T (film_T isgas Ts Tf));
  rdiv (n * k) L.
