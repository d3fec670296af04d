(** The methods of the material streams over objects: the same code as in
    [M_Streams], with every copy, every new array and every assignment in place
    made explicit.  Scalars are computed with the functions of that model.  The
    dictionary custom_properties is left out here; see [M_Custom]. *)
From Verif Require Import Prelude M_Stoichiometry M_Lists M_Thermochem M_Chem M_ThermoMat M_Streams M_Heap Spec_Heap.
From Coq Require Import Reals.
Local Open Scope list_scope.
Local Open Scope R_scope.

(** What is in the object: material, P, T, Hfr, isCoal, HHV, _DH298. *)
Definition sscalars : Type := material * R * R * R * bool * option R * option R.
Definition sscalars_of (s : stream) : sscalars :=
  let p := s_body s in (tp_material p, tp_P p, tp_T p, tp_H p, tp_coal p, tp_HHV p, s_DH298 s).
Definition stream_of (f : sscalars) (l : list R) : stream := let '(m, P, T, H, c, h, d) := f in mks (mktp m l P T H c h) d.
Global Instance slayout : Layout stream sscalars R :=
  {| attrs := sscalars_of; items := fun s => tp_masses (s_body s); make := stream_of;
     make_eta := fun s => match s with mks (mktp _ _ _ _ _ _ _) _ => eq_refl end;
     attrs_make := fun f _ => match f with (_, _, _, _, _, _, _) => eq_refl end;
     items_make := fun f _ => match f with (_, _, _, _, _, _, _) => eq_refl end |}.
Notation M := (@M sscalars R).
(** thermo.py:1092-1114: the constructor, with an array that has just been computed. *)
Definition hs_new (r : res stream) : M nat := do! p <- lift r; new p.
(** thermo.py:348-373. *)
Definition hs_create (db : database) (c : material * option string * R * R * R * bool) : M nat :=
  let '(m, assay, mfr, P, T, normalise) := c in hs_new (create_stream db m assay mfr P T normalise).
(** thermo.py:1512-1522, 1534-1544, 1556-1567, 1577-1583, 1803-1816. *)
Definition hs_set_H (db : database) (k : nat) (H : R) : M unit := setter k (fun s => put_Hfr db s H).
Definition hs_set_T (db : database) (k : nat) (T : R) : M unit := setter k (fun s => put_T db s T).
Definition hs_set_HHV (db : database) (k : nat) (h : option R) : M unit := setter k (fun s => put_HHV db s h).
Definition hs_set_P (k : nat) (P : R) : M unit := setter k (fun s => (put_P s P, Ok tt)).
Definition hs_update_HHV (db : database) (k : nat) (c : string) (x : R) : M unit := setter k (fun s => update_HHV db s c x).
(** self.T = self.T *)
Definition hs_keep_T (db : database) (k : nat) : M unit := do! s <- read k; hs_set_T db k (tp_T (s_body s)).
(** thermo.py:1235-1248. *)
Definition hs_add_pair (db : database) (k : nat) (c : string) (x : R) : M nat :=
  do! s <- read k;
  do! i <- lift (get_compound_index (tp_material (s_body s)) c);
  do! h <- lift (thermo_H db c (tp_T (s_body s)) x);
  do! n <- clone k;
  do! r <- read n;
  do! m <- lift (get (tp_masses (s_body r)) i);
  do! _ <- store n i (m + x);
  do! _ <- hs_update_HHV db n c x;
  do! _ <- setter n (fun r => (with_body r (set_TH (s_body r) (tp_T (s_body r)) (tp_H (s_body r) + h)), Ok tt));
  do! _ <- hs_set_P n (tp_P (s_body s));
  ret n.
(** thermo.py:1282-1295. *)
Definition hs_mul (db : database) (k : nat) (x : R) : M nat :=
  do! s <- read k;
  if Rlt_dec x 0 then lift (Err PyException)
  else let b := s_body s in hs_new (new_stream db (tp_material b) (rscale (tp_masses b) x) (tp_P b) (tp_T b) (tp_coal b) (tp_HHV b)).
(** An argument that is not a stream, as in [M_Streams.sarg]. *)
Inductive starg := SaPair (c : string) (x : R) | SaTriple (c : string) (x T : R) | SaMfr (x : R) | SaStr (c : string) | SaMaterial (m : material) | SaOther.
Definition other_sarg (a : starg) : sarg :=
  match a with SaPair c x => SPair c x | SaTriple c x T => STriple c x T | SaMfr x => SMfr x | SaStr c => SStr c | SaMaterial m => SMaterial m | SaOther => SOther end.
(** thermo.py:1197-1268. *)
Definition hs_add (db : database) (k : nat) (other : operand nat starg) : M nat :=
  match other with
  | OPackage j =>
    do! s <- read k; do! o <- read j;
    let b := s_body s in let bo := s_body o in
    if (tm_id (tp_material b) =? tm_id (tp_material bo))%Z
    then do! hhv <- lift (if (tp_coal b || tp_coal bo)%bool
                          then do h <- ndiv (0 + heat_value s + heat_value o) (mfr s + mfr o); Ok (Some h) else Ok None);
         do! n <- hs_new (do ms <- radd (tp_masses b) (tp_masses bo); new_stream db (tp_material b) ms 1 25 (tp_coal b || tp_coal bo) hhv);
         do! _ <- hs_set_H db n (tp_H b + tp_H bo);
         do! _ <- hs_set_P n (tp_P b);
         ret n
    else do! n <- clone k;
         do! n <- forM (fun n c =>
             if negb (member string_dec c (tm_compounds (tp_material b))) then lift (Err PyException) else
             do! o <- read j; do! x <- lift (get_compound_mfr o c); hs_add_pair db n c x) (tm_compounds (tp_material bo)) n;
         do! _ <- hs_set_H db n (tp_H b + tp_H bo);
         ret n
  | OOther (SaPair c x) => hs_add_pair db k c x
  | OOther (SaTriple c x T) =>
    do! s <- read k;
    do! i <- lift (get_compound_index (tp_material (s_body s)) c);
    do! h <- lift (thermo_H db c T x);
    do! n <- hs_mul db k 1;
    do! r <- read n;
    do! m <- lift (get (tp_masses (s_body r)) i);
    do! _ <- store n i (m + x);
    do! _ <- hs_set_H db n (tp_H (s_body s) + h);
    do! _ <- hs_set_P n (tp_P (s_body s));
    ret n
  | OOther _ => lift (Err TypeError)
  end.
(** thermo.py:1597-1606. *)
Definition hs_clear (k : nat) : M unit :=
  do! s <- read k;
  do! _ <- rebind k (rscale (tp_masses (s_body s)) 0);
  setter k (fun s => (with_body s (set_TH (set_P (s_body s) 1) 25 (tp_H (s_body s))), Ok tt)).
(** thermo.py:1768-1782. *)
Definition hs_extract_mfr (db : database) (k : nat) (x : R) : M (option nat) :=
  do! s <- read k;
  if Rlt_dec (mfr s) x then lift (Err PyException) else
  do! f <- lift (ndiv x (mfr s));
  do! n <- hs_new (new_stream db (tp_material (s_body s)) (rscale (tp_masses (s_body s)) f) (tp_P (s_body s)) (tp_T (s_body s)) false None);
  do! s <- read k;
  do! _ <- rebind k (rscale (tp_masses (s_body s)) (1 - f));
  do! _ <- hs_keep_T db k;
  ret (Some n).
(** thermo.py:1784-1801. *)
Definition hs_extract_compound (db : database) (k : nat) (c : string) : M (option nat) :=
  do! s <- read k;
  do! n <- hs_new (create_stream db (tp_material (s_body s)) None 0 1 25 true);
  if negb (member string_dec c (tm_compounds (tp_material (s_body s)))) then ret (Some n) else
  do! i <- lift (get_compound_index (tp_material (s_body s)) c);
  do! x <- lift (get (tp_masses (s_body s)) i);
  do! _ <- store n i x;
  do! _ <- hs_set_T db n (tp_T (s_body s));
  do! _ <- hs_set_P n (tp_P (s_body s));
  do! _ <- store k i 0;
  do! _ <- hs_update_HHV db k c (- x);
  do! _ <- hs_keep_T db k;
  ret (Some n).
(** thermo.py:1818-1835. *)
Definition hs_extract_compound_mfr (db : database) (k : nat) (c : string) (x : R) : M (option nat) :=
  do! s <- read k;
  if negb (member string_dec c (tm_compounds (tp_material (s_body s)))) then do! n <- hs_new (create_stream db (tp_material (s_body s)) None 0 1 25 true); ret (Some n) else
  do! i <- lift (get_compound_index (tp_material (s_body s)) c);
  do! y <- lift (get (tp_masses (s_body s)) i);
  if Rlt_dec y x then lift (Err PyException) else
  do! _ <- store k i (y - x);
  do! _ <- hs_update_HHV db k c (- x);
  do! _ <- hs_keep_T db k;
  do! s <- read k;
  do! n <- hs_new (create_stream db (tp_material (s_body s)) None 0 (tp_P (s_body s)) (tp_T (s_body s)) true);
  do! n <- hs_add_pair db n c x;
  ret (Some n).
(** thermo.py:1837-1845. *)
Fixpoint hs_extract_each (db : database) (k n : nat) (cs : list string) : M (option nat) :=
  match cs with
  | [] => do! s <- read k; do! _ <- hs_set_T db n (tp_T (s_body s)); ret (Some n)
  | c :: cs' =>
    do! s <- read k;
    do! x <- lift (get_compound_mfr s c);
    do! n <- hs_add_pair db n c x;
    do! _ <- hs_extract_compound db k c;
    hs_extract_each db k n cs'
  end.
Definition hs_extract_material (db : database) (k : nat) (m : material) : M (option nat) :=
  do! n <- hs_new (create_stream db m None 0 1 25 true); hs_extract_each db k n (tm_compounds m).
(** thermo.py:1722-1766. *)
Definition hs_extract (db : database) (k : nat) (a : starg) : M (option nat) :=
  match a with
  | SaMfr x => hs_extract_mfr db k x
  | SaPair c x => hs_extract_compound_mfr db k c x
  | SaStr c => hs_extract_compound db k c
  | SaMaterial m => hs_extract_material db k m
  | _ => lift (Err TypeError)
  end.

(** A call of a method on an object; the setters and the product take a number. *)
Inductive sop := SopAdd | SopMul | SopClone | SopExtract | SopClear | SopSetT | SopSetHfr | SopSetP | SopSetHHV.
Definition snumber_of {X} (y : operand X starg) : option R := match y with OOther (SaMfr x) => Some x | _ => None end.
Definition hs_method (db : database) (o : sop) (k : nat) (y : operand nat starg) : M (option nat) :=
  match o with
  | SopAdd => do! n <- hs_add db k y; ret (Some n)
  | SopMul => match snumber_of y with Some x => do! n <- hs_mul db k x; ret (Some n) | None => lift (Err TypeError) end
  | SopClone => do! n <- clone k; ret (Some n)
  | SopExtract => match y with OOther a => hs_extract db k a | OPackage _ => lift (Err TypeError) end
  | SopClear => do! _ <- hs_clear k; ret None
  | SopSetT => match snumber_of y with Some x => do! _ <- hs_set_T db k x; ret None | None => lift (Err TypeError) end
  | SopSetHfr => match snumber_of y with Some x => do! _ <- hs_set_H db k x; ret None | None => lift (Err TypeError) end
  | SopSetP => match snumber_of y with Some x => do! _ <- hs_set_P k x; ret None | None => lift (Err TypeError) end
  | SopSetHHV => match snumber_of y with Some x => do! _ <- hs_set_HHV db k (Some x); ret None | None => lift (Err TypeError) end
  end.
(** The same call on a value. *)
Definition vs_arg (y : operand stream starg) : sarg := match y with OPackage q => SStream q | OOther a => other_sarg a end.
Definition vs_create (db : database) (c : material * option string * R * R * R * bool) : res stream :=
  let '(m, assay, mfr, P, T, normalise) := c in create_stream db m assay mfr P T normalise.
Definition vs_method (db : database) (o : sop) (s : stream) (y : operand stream starg) : stream * res (option stream) :=
  match o with
  | SopAdd => (s, do q <- sadd db s (vs_arg y); Ok (Some q))
  | SopMul => (s, match snumber_of y with Some x => do q <- smul db s x; Ok (Some q) | None => Err TypeError end)
  | SopClone => (s, Ok (Some s))
  | SopExtract => let x := sextract db s (vs_arg y) in (fst x, do q <- snd x; Ok (Some q))
  | SopClear => (sclear s, Ok None)
  | SopSetT => match snumber_of y with Some x => (fst (put_T db s x), do _ <- snd (put_T db s x); Ok None) | None => (s, Err TypeError) end
  | SopSetHfr => match snumber_of y with Some x => (fst (put_Hfr db s x), do _ <- snd (put_Hfr db s x); Ok None) | None => (s, Err TypeError) end
  | SopSetP => match snumber_of y with Some x => (put_P s x, Ok None) | None => (s, Err TypeError) end
  | SopSetHHV => match snumber_of y with Some x => (fst (put_HHV db s (Some x)), do _ <- snd (put_HHV db s (Some x)); Ok None) | None => (s, Err TypeError) end
  end.
