(** Programs over packages, run twice: once with variables that hold values, once
    with variables that hold references to objects in a world. *)
From Verif Require Import Prelude M_Lists M_Heap.
Local Open Scope list_scope.

(** An argument that is not a package. *)
Inductive pyarg (V : Type) := PTuple (l : list V) | PVal (v : V).
Arguments PTuple {V} l.
Arguments PVal {V} v.
Inductive op := OpAdd | OpMul | OpClone | OpExtract | OpAddTo | OpClear.

(** An operand: another package, or anything else. *)
Inductive operand (X A : Type) := OPackage (x : X) | OOther (a : A).
Arguments OPackage {X A} x.
Arguments OOther {X A} a.

(** A program: create a package, or call method [o] of variable [x] with operand
    [y].  A created or returned package is stored in the next variable. *)
Inductive command (C O A : Type) := Create (c : C) | Call (o : O) (x : nat) (y : operand nat A).
Arguments Create {C O A} c.
Arguments Call {C O A} o x y.

Section Values.
Context {P C O A : Type} (create : C -> res P) (method : O -> P -> operand P A -> P * res (option P)).
Definition value_of (vars : list P) (y : operand nat A) : res (operand P A) :=
  match y with
  | OPackage j => match nth_error vars j with Some q => Ok (OPackage q) | None => Err NameError end
  | OOther a => Ok (OOther a)
  end.
(** One command: the variables afterwards, and whether it raised. *)
Definition value_step (vars : list P) (c : command C O A) : list P * res unit :=
  match c with
  | Create c => match create c with Ok p => (vars ++ [p], Ok tt) | Err e => (vars, Err e) end
  | Call o x y =>
    match nth_error vars x, value_of vars y with
    | None, _ => (vars, Err NameError)
    | _, Err e => (vars, Err e)
    | Some p, Ok v =>
      let (p', r) := method o p v in
      let vars' := put vars x p' in
      match r with
      | Ok (Some q) => (vars' ++ [q], Ok tt)
      | Ok None => (vars', Ok tt)
      | Err e => (vars', Err e)
      end
    end
  end.
Fixpoint value_run (vars : list P) (cs : list (command C O A)) : list P * list (res unit) :=
  match cs with
  | [] => (vars, [])
  | c :: cs' => let (v, r) := value_step vars c in let (v', rs) := value_run v cs' in (v', r :: rs)
  end.
End Values.

Section Objects.
Context {P F N C O A : Type} (create : C -> @M F N nat) (method : O -> nat -> operand nat A -> @M F N (option nat)).
Definition handle_of (vars : list nat) (y : operand nat A) : res (operand nat A) :=
  match y with
  | OPackage j => match nth_error vars j with Some k => Ok (OPackage k) | None => Err NameError end
  | OOther a => Ok (OOther a)
  end.
Definition object_step (w : world F N) (vars : list nat) (c : command C O A) : world F N * list nat * res unit :=
  match c with
  | Create c => match create c w with (w', Ok k) => (w', vars ++ [k], Ok tt) | (w', Err e) => (w', vars, Err e) end
  | Call o x y =>
    match nth_error vars x, handle_of vars y with
    | None, _ => (w, vars, Err NameError)
    | _, Err e => (w, vars, Err e)
    | Some k, Ok v =>
      match method o k v w with
      | (w', Ok (Some n)) => (w', vars ++ [n], Ok tt)
      | (w', Ok None) => (w', vars, Ok tt)
      | (w', Err e) => (w', vars, Err e)
      end
    end
  end.
Fixpoint object_run (w : world F N) (vars : list nat) (cs : list (command C O A)) : world F N * list nat * list (res unit) :=
  match cs with
  | [] => (w, vars, [])
  | c :: cs' =>
    let '(w', v, r) := object_step w vars c in let '(w'', v', rs) := object_run w' v cs' in (w'', v', r :: rs)
  end.
End Objects.
Definition empty_world {F N} : world F N := mkworld [] [].

(** The two runs of a program agree: the same calls raise the same exceptions, and
    every variable shows the contents it would have if packages were values. *)
Definition agree {P F N} {L : Layout P F N} {R : Type} (o : world F N * list nat * R) (v : list P * R) : Prop :=
  snd o = snd v /\ map (view (fst (fst o))) (snd (fst o)) = map Some (fst v).
(** What variable [i] shows after a run. *)
Definition contents {P F N} {L : Layout P F N} {R : Type} (o : world F N * list nat * R) (i : nat) : option P :=
  match nth_error (snd (fst o)) i with Some k => view (fst (fst o)) k | None => None end.
(** A call leaves alone the variables in [S]: whatever was run before, whatever
    they showed before the call they show after it. *)
Definition leaves_alone {P F N C O A} {L : Layout P F N} (create : C -> @M F N nat) (method : O -> nat -> operand nat A -> @M F N (option nat))
    (o : O) (S : nat -> nat -> Prop) : Prop :=
  forall cs x y i p, S x i ->
    contents (object_run create method empty_world [] cs) i = Some p ->
    contents (object_run create method empty_world [] (cs ++ [Call o x y])) i = Some p.
(** All variables, and all but the one whose method is called. *)
Definition all_variables (x i : nat) : Prop := True.
Definition other_variables (x i : nat) : Prop := i <> x.
