(** Shared vocabulary: Python exceptions as values, strings, exact rationals. *)
From Coq Require Export String Ascii.
From Coq Require Export QArith Qcanon.
From Coq Require Export ZArith Lia Bool List.
Export ListNotations.
Open Scope Z_scope.

(** The Python exceptions the modelled code can raise.  [PyException] is the
    bare [Exception] class raised by the materials modules.  [NonFinite] is not
    a Python exception: it marks a point where numpy goes on with an infinity or
    nan, which the models over real numbers do not follow further. *)
Inductive exn :=
| TypeError | ValueError | KeyError | IndexError | ZeroDivisionError
| OverflowError | AttributeError | NameError | AssertionError
| ParseError | VisitationError | ValidationError | PyException | NonFinite.

(** Result of a call: a value or a raised exception. *)
Inductive res (A : Type) := Ok (a : A) | Err (e : exn).
Arguments Ok {A} a.
Arguments Err {A} e.

Definition bind {A B} (x : res A) (f : A -> res B) : res B :=
  match x with Ok a => f a | Err e => Err e end.
Notation "'do' x <- e ; f" := (bind e (fun x => f))
  (at level 200, x pattern, e at level 100, f at level 200).

Definition is_ok {A} (x : res A) : bool :=
  match x with Ok _ => true | Err _ => false end.

(** Evaluate a list of computations left to right, stop at the first raise. *)
Section MapM.
  Context {A B : Type} (f : A -> res B).
  Fixpoint mapM (l : list A) : res (list B) :=
    match l with
    | [] => Ok []
    | a :: l' => do b <- f a; do bs <- mapM l'; Ok (b :: bs)
    end.
End MapM.

(** A Python [for] loop over a list that may raise. *)
Section FoldM.
  Context {A S : Type} (f : S -> A -> res S).
  Fixpoint foldM (l : list A) (s : S) : res S :=
    match l with
    | [] => Ok s
    | a :: l' => do s' <- f s a; foldM l' s'
    end.
End FoldM.

(** A [for] loop over a list of objects that updates a state and the objects. *)
Section Traverse.
  Context {A S : Type} (f : S -> A -> res (S * A)).
  Fixpoint traverse (l : list A) (s : S) : res (S * list A) :=
    match l with
    | [] => Ok (s, [])
    | a :: l' => do x <- f s a; do y <- traverse l' (fst x); Ok (fst y, snd x :: snd y)
    end.
End Traverse.

(** Python's division of numbers, exact. *)
Definition pydiv (a b : Qc) : res Qc :=
  if Qc_eq_bool b 0%Qc then Err ZeroDivisionError else Ok (a / b)%Qc.

(** Sum of rationals (Python's [sum]). *)
Definition Qcsum (l : list Qc) : Qc := fold_right Qcplus (0%Qc) l.
Arguments Qcsum : simpl never.
