(** Python list operations used by the material modules: l.index(x), x in l,
    l[i], l[i] = a.  Indices are never negative there. *)
From Verif Require Import Prelude.
Local Open Scope list_scope.

Section Index.
Context {C : Type} (dec : forall a b : C, {a = b} + {a <> b}).
(** l.index(x): the first position, ValueError if absent. *)
Fixpoint index_of (x : C) (l : list C) : res nat :=
  match l with
  | [] => Err ValueError
  | y :: l' => if dec y x then Ok O else do i <- index_of x l'; Ok (S i)
  end.
(** x in l *)
Definition member (x : C) (l : list C) : bool := if in_dec dec x l then true else false.
End Index.

(** l[i] *)
Definition get {A} (l : list A) (i : nat) : res A := match nth_error l i with Some a => Ok a | None => Err IndexError end.
(** l[i] = a *)
Fixpoint set_nth {A} (l : list A) (i : nat) (a : A) : res (list A) :=
  match l, i with
  | [], _ => Err IndexError
  | _ :: l', O => Ok (a :: l')
  | x :: l', S i' => do r <- set_nth l' i' a; Ok (x :: r)
  end.
