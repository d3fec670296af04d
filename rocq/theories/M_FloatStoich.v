(** Stoichiometry in binary64: the arithmetic of
    auxi/tools/chemistry/stoichiometry.py with rounding.  The parser and the
    objects it builds are those of M_Stoichiometry.v.  Masses and amounts are
    floats; an int argument behaves as the float it is converted to. *)
From Verif Require Import Prelude M_Elements M_Stoichiometry M_Ieee M_FloatMix M_FloatLoan.
From Flocq Require Import Core BinarySingleNaN.
Local Open Scope string_scope.
Local Open Scope list_scope.
Local Open Scope Z_scope.

(** A Python int used in float arithmetic: rounded to nearest, too large for a
    float raises OverflowError (Objects/longobject.c, PyLong_AsDouble). *)
Definition float_of_int (z : Z) : res float64 :=
  let x := binary_normalize 53 1024 _ _ mode_NE z 0 false in
  if is_finite x then Ok x else Err OverflowError.

(** A decimal literal of the source.  Numerator and denominator of every
    literal of the periodic table are below 2^53, so that the one rounding of
    the division gives the float nearest to the literal, as Python does. *)
Definition literal64 (q : Q) : float64 :=
  div64 (binary_normalize 53 1024 _ _ mode_NE (Qnum q) 0 false) (binary_normalize 53 1024 _ _ mode_NE (Zpos (Qden q)) 0 false).
(** stoichiometry.py:405-538 the molar masses *)
Definition el_mass64 (e : element) : float64 := literal64 (el_mass_q e).

(** Counts are ints for elements (stoichiometry.py:47-48) and floats for groups
    (defaultdict(float), 66). *)
Inductive number := NInt (z : Z) | NFloat (x : float64).
(** stoichiometry.py:69 count*multiplier *)
Definition num_mul (x : number) (m : Z) : res number :=
  match x with
  | NInt a => Ok (NInt (a * m))
  | NFloat f => do g <- float_of_int m; Ok (NFloat (mul64 f g))
  end.
(** stoichiometry.py:69 float += number *)
Definition num_add (d : float64) (x : number) : res float64 :=
  match x with
  | NInt a => do g <- float_of_int a; Ok (add64 d g)
  | NFloat f => Ok (add64 d f)
  end.
(** A defaultdict(float) in insertion order. *)
Definition fcounts := list (string * float64).
Fixpoint fadd_count (k : string) (x : number) (d : fcounts) : res fcounts :=
  match d with
  | [] => do y <- num_add zero64 x; Ok [(k, y)]
  | (k', v) :: d' =>
      if String.eqb k k' then do y <- num_add v x; Ok ((k', y) :: d') else do r <- fadd_count k x d'; Ok ((k', v) :: r)
  end.
Fixpoint fget_count (k : string) (d : fcounts) : float64 :=
  match d with
  | [] => zero64
  | (k', v) :: d' => if String.eqb k k' then v else fget_count k d'
  end.
(** stoichiometry.py:68-69 the inner loop *)
Definition fadd_counts (m : Z) (c : list (string * number)) (d : fcounts) : res fcounts :=
  foldM (fun d kv => do x <- num_mul (snd kv) m; fadd_count (fst kv) x d) c d.
(** stoichiometry.py:47-48, 57-70, 87-88 *)
Fixpoint fpart_count (p : part) : res (list (string * number)) :=
  match p with
  | PElement e => Ok [(el_symbol e, NInt 1)]
  | PGroup g m =>
    do d <- (fix go (l : list part) (d : fcounts) : res fcounts :=
       match l with [] => Ok d | x :: l' => do c <- fpart_count x; do d' <- fadd_counts m c d; go l' d' end) g [];
    Ok (map (fun kv => (fst kv, NFloat (snd kv))) d)
  end.
(** stoichiometry.py:57-70, 111-112: Compound.count *)
Definition fcompound_count (c : compound) : res fcounts :=
  foldM (fun d x => do n <- fpart_count x; fadd_counts 1 n d) (c_group c) [].

(** stoichiometry.py:114-116 Compound.molar_mass *)
Definition fcompound_molar_mass (c : compound) : res float64 :=
  do n <- fcompound_count c;
  do l <- mapM (fun kv : string * float64 =>
      match find_element (fst kv) with
      | Some e => Ok (mul64 (el_mass64 e) (snd kv))
      | None => Err KeyError
      end) n;
  Ok (sum64 l).
(** stoichiometry.py:347-366 *)
Definition fmolar_mass (c : option string) : res float64 :=
  match c with
  | None => Ok zero64
  | Some s =>
    match text_of s with
    | [] => Ok zero64
    | t => do p <- parse_compound (strip t); fcompound_molar_mass p
    end
  end.
(** stoichiometry.py:188-199 *)
Definition famount (c : string) (mass : float64) : res float64 :=
  do mm <- fmolar_mass (Some c); pydiv64 mass mm.
(** stoichiometry.py:229-240 *)
Definition fmass (c : string) (amt : float64) : res float64 :=
  do mm <- fmolar_mass (Some c); Ok (mul64 amt mm).
Definition fpydict := list (string * float64).
(** stoichiometry.py:202-212 *)
Definition famounts (masses : fpydict) : res fpydict :=
  mapM (fun kv => do n <- famount (fst kv) (snd kv); Ok (fst kv, n)) masses.
(** stoichiometry.py:243-253 *)
Definition fmasses (amts : fpydict) : res fpydict :=
  mapM (fun kv => do m <- fmass (fst kv) (snd kv); Ok (fst kv, m)) amts.
(** stoichiometry.py:225-226 and 266-267 *)
Definition ffractions (d : fpydict) : res fpydict :=
  let total := sum64 (map snd d) in
  mapM (fun kv => do x <- pydiv64 (snd kv) total; Ok (fst kv, x)) d.
(** stoichiometry.py:215-226 *)
Definition famount_fractions (masses : fpydict) : res fpydict := do n <- famounts masses; ffractions n.
(** stoichiometry.py:256-267 *)
Definition fmass_fractions (amts : fpydict) : res fpydict := do m <- fmasses amts; ffractions m.
(** stoichiometry.py:369-382 *)
Definition fcoefficient (c el : string) : res float64 :=
  do p <- parse_compound (strip (text_of c)); do n <- fcompound_count p; Ok (fget_count el n).
(** stoichiometry.py:295-312 *)
Definition felement_fraction (c el : string) : res float64 :=
  do coeff <- fcoefficient c el;
  if is_zero64 coeff then Ok zero64 else
  do fm <- fmolar_mass (Some c);
  do em <- fmolar_mass (Some el);
  pydiv64 (mul64 coeff em) fm.
(** stoichiometry.py:315-327 *)
Definition felement_fractions (c : string) (els : list string) : res (list float64) := mapM (felement_fraction c) els.
(** stoichiometry.py:270-292 *)
Definition fconvert (m : float64) (source target el : string) : res float64 :=
  do tf <- felement_fraction target el;
  if is_zero64 tf then Ok zero64 else
  do sf <- felement_fraction source el;
  pydiv64 (mul64 m sf) tf.
