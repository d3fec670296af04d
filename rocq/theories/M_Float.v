(** numpy's float64 arithmetic without rounding: exact rationals plus the
    special values.  Division by zero gives nan or an infinity (numpy only
    warns); there is one zero, taken as +0. *)
From Verif Require Import Prelude.
Local Open Scope list_scope.

Inductive fl := Fin (q : Qc) | Inf (neg : bool) | NaN.

Definition qlt (a b : Qc) : bool := if Qclt_le_dec a b then true else false.
Definition negative (q : Qc) : bool := qlt q 0.
Definition is_zero (q : Qc) : bool := Qc_eq_bool q 0.

Definition fadd (a b : fl) : fl :=
  match a, b with
  | NaN, _ | _, NaN => NaN
  | Fin x, Fin y => Fin (x + y)%Qc
  | Inf s, Fin _ | Fin _, Inf s => Inf s
  | Inf s, Inf t => if Bool.eqb s t then Inf s else NaN
  end.
Definition fopp (a : fl) : fl := match a with Fin x => Fin (- x)%Qc | Inf s => Inf (negb s) | NaN => NaN end.
Definition fsub (a b : fl) : fl := fadd a (fopp b).
Definition fmul (a b : fl) : fl :=
  match a, b with
  | NaN, _ | _, NaN => NaN
  | Fin x, Fin y => Fin (x * y)%Qc
  | Inf s, Fin x | Fin x, Inf s => if is_zero x then NaN else Inf (xorb s (negative x))
  | Inf s, Inf t => Inf (xorb s t)
  end.
Definition fdiv (a b : fl) : fl :=
  match a, b with
  | NaN, _ | _, NaN => NaN
  | Fin x, Fin y => if is_zero y then (if is_zero x then NaN else Inf (negative x)) else Fin (x / y)%Qc
  | Inf s, Fin y => Inf (xorb s (negative y))
  | Fin _, Inf _ => Fin 0
  | Inf _, Inf _ => NaN
  end.
(** a < b; false when one of them is nan. *)
Definition flt (a b : fl) : bool :=
  match a, b with
  | Fin x, Fin y => qlt x y
  | Inf true, Inf false => true
  | Inf true, Fin _ => true
  | Fin _, Inf false => true
  | _, _ => false
  end.
Definition feq (a b : fl) : bool :=
  match a, b with Fin x, Fin y => Qc_eq_bool x y | Inf s, Inf t => Bool.eqb s t | _, _ => false end.
(** array.sum() and sum(array) *)
Definition fsum (l : list fl) : fl := fold_left fadd l (Fin 0).

(** a + b for one-dimensional arrays, with numpy's broadcasting. *)
Fixpoint zip_add (a b : list fl) : list fl :=
  match a, b with x :: a', y :: b' => fadd x y :: zip_add a' b' | _, _ => [] end.
Definition array_add (a b : list fl) : res (list fl) :=
  if (length a =? length b)%nat then Ok (zip_add a b)
  else match a, b with
       | [x], _ => Ok (map (fadd x) b)
       | _, [y] => Ok (map (fun x => fadd x y) a)
       | _, _ => Err ValueError
       end.
(** array * k, array / k *)
Definition array_mul (a : list fl) (k : fl) : list fl := map (fun x => fmul x k) a.
Definition array_div (a : list fl) (k : fl) : list fl := map (fun x => fdiv x k) a.

(** Python values a caller can pass: a Python float, a numpy float (float64 or
    float32), a string, or anything else. *)
Inductive nval := NvFloat (x : fl) | NvNumpy (x : fl) | NvStr (s : string) | NvOther.
(** type(v) is float or numpy.float64 or numpy.float32 *)
Definition as_float (v : nval) : option fl := match v with NvFloat x | NvNumpy x => Some x | _ => None end.
