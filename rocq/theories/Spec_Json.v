(** Vocabulary for the files of objects (C88). *)
From Verif Require Import Prelude M_Stoichiometry M_Json.
From Coq Require Import Permutation.
Local Open Scope list_scope.

(** The numbers of JSON: an optional sign, a whole number without leading zeros,
    an optional fraction and an optional exponent; and the three words for the
    special values of floats. *)
Definition all_digits (t : text) : Prop := t <> [] /\ Forall (fun c => (48 <= nat_of_ascii c <= 57)%nat) t.
Inductive whole_literal : text -> Prop :=
| whole_zero : whole_literal ["0"%char]
| whole_digits : forall c t, all_digits (c :: t) -> c <> "0"%char -> whole_literal (c :: t).
Inductive frac_literal : text -> Prop :=
| no_frac : frac_literal []
| some_frac : forall t, all_digits t -> frac_literal ("."%char :: t).
Inductive exp_literal : text -> Prop :=
| no_exp : exp_literal []
| some_exp : forall e sg t, e = "e"%char \/ e = "E"%char -> In sg [[]; ["+"%char]; ["-"%char]] -> all_digits t -> exp_literal (e :: sg ++ t).
Inductive literal : text -> Prop :=
| lit : forall sg w f e, In sg [[]; ["-"%char]] -> whole_literal w -> frac_literal f -> exp_literal e -> literal (sg ++ w ++ f ++ e)
| lit_nan : literal (text_of "NaN")
| lit_inf : literal (text_of "Infinity")
| lit_ninf : literal (text_of "-Infinity").

(** Python writes the number [x] so that reading gives [x] back. *)
Definition faithful (repr : Qc -> text) (float_of : text -> res Qc) (x : Qc) : Prop :=
  literal (repr x) /\ float_of (repr x) = Ok x.

(** Objects made of plain data: keys are distinct and not the tag of jsonpickle,
    methods occur only as attributes, and numbers are written faithfully. *)
Inductive plain (good : Qc -> Prop) : pyobj -> Prop :=
| plain_none : plain good ONone
| plain_bool : forall b, plain good (OBool b)
| plain_num : forall x, good x -> plain good (ONum x)
| plain_str : forall t, plain good (OStr t)
| plain_list : forall l, Forall (plain good) l -> plain good (OList l)
| plain_dict : forall d, NoDup (map fst d) -> ~ In py_object (map fst d) -> Forall (fun kv => plain good (snd kv)) d -> plain good (ODict d)
| plain_inst : forall c a, NoDup (map fst a) -> ~ In py_object (map fst a) ->
    Forall (fun kv => (exists m, snd kv = OMethod m) \/ plain good (snd kv)) a -> plain good (OInst c a).

(** The same data: dictionaries and attributes in any order, methods left out. *)
Definition data (d : list (text * pyobj)) : list (text * pyobj) := filter (fun kv => match snd kv with OMethod _ => false | _ => true end) d.
Inductive same : pyobj -> pyobj -> Prop :=
| same_none : same ONone ONone
| same_bool : forall b, same (OBool b) (OBool b)
| same_num : forall x, same (ONum x) (ONum x)
| same_str : forall t, same (OStr t) (OStr t)
| same_list : forall l l', Forall2 same l l' -> same (OList l) (OList l')
| same_dict : forall d d' e, Permutation (data d') e -> Forall2 (fun a b => fst a = fst b /\ same (snd a) (snd b)) (data d) e -> same (ODict d) (ODict d')
| same_inst : forall c a a' e, Permutation (data a') e -> Forall2 (fun a b => fst a = fst b /\ same (snd a) (snd b)) (data a) e -> same (OInst c a) (OInst c a').
