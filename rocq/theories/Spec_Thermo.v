(** Independent vocabulary for the thermochemistry properties. *)
From Verif Require Import Prelude M_Thermochem.
From Coq Require Import Reals Permutation.
Local Open Scope R_scope.

(** Records that follow one another without gap from temperature [t0]. *)
Fixpoint contiguous (t0 : R) (l : list (R * cprecord)) : Prop :=
  match l with
  | [] => True
  | (k, r) :: l' => cr_Tmin r = t0 /\ cr_Tmax r = k /\ t0 < k /\ contiguous k l'
  end.

(** A phase without magnetic data whose records, in some order, follow one
    another from the reference temperature. *)
Definition regular (p : phase) : Prop :=
  ph_mag p = None /\ exists l, Permutation l (ph_records p) /\ l <> [] /\ contiguous T_ref l.

(** [l] is the highest temperature of the records. *)
Definition highest (p : phase) (t : R) : Prop :=
  In t (map fst (ph_records p)) /\ forall u, In u (map fst (ph_records p)) -> u <= t.

(** The value of a call that does not raise. *)
Definition value (x : res R) : R := match x with Ok v => v | Err _ => 0 end.

(** A heat capacity polynomial: sum of c * T^e. *)
Definition polynomial (terms : list (R * R)) (T : R) : R :=
  fold_right (fun ce a => fst ce * Rpower T (snd ce) + a) 0 terms.

(** The same phase without its magnetic data. *)
Definition without_magnetism (p : phase) : phase := mkphase (ph_DHref p) (ph_Sref p) (ph_records p) None.
(** A phase with magnetic data (for which the formulas are defined) whose
    records, in some order, follow one another from the reference temperature. *)
Definition magnetic_regular (p : phase) (m : magnetic) : Prop :=
  ph_mag p = Some m /\ 0 < Tc_mag m /\ p_mag m <> 0 /\ D_mag m <> 0 /\ regular (without_magnetism p).
