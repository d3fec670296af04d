(** Independent vocabulary for the stoichiometry properties. *)
From Verif Require Import Prelude M_Elements M_Stoichiometry.
Local Open Scope string_scope.
Local Open Scope list_scope.
Local Open Scope Z_scope.

(** * The language of formulas, as a context-free grammar
    (each rule as in stoichiometry.py:169-177, read as a production). *)
Definition is_element_text (t : text) : Prop :=
  exists c l, t = c :: l /\ is_upper c = true /\ forallb is_lower l = true.
Definition is_number_text (t : text) : Prop := t <> [] /\ forallb is_digit t = true.
Definition is_phase_text (t : text) : Prop := t <> [] /\ forallb is_alnum t = true.

Definition opt_text (o : option text) : text := match o with Some t => t | None => [] end.
Definition opt_number (o : option text) : Prop := match o with Some t => is_number_text t | None => True end.

Inductive gen_item : text -> item -> Prop :=
| gen_element t : is_element_text t -> gen_item t (IElement t)
| gen_subelement t n : is_element_text t -> is_number_text n -> gen_item (t ++ n) (ISubElement t n)
| gen_subgroup t g n : gen_group t g -> opt_number n ->
    gen_item (["("%char] ++ t ++ [")"%char] ++ opt_text n) (ISubGroup g n)
with gen_group : text -> list item -> Prop :=
| gen_one t i : gen_item t i -> gen_group t [i]
| gen_more t i u g : gen_item t i -> gen_group u g -> gen_group (t ++ u) (i :: g).

Definition gen_dotted (t : text) (d : option (option text * list item)) : Prop :=
  match d with
  | None => t = []
  | Some (n, g) => exists u, t = ["."%char] ++ opt_text n ++ u /\ opt_number n /\ gen_group u g
  end.
Definition gen_phase (t : text) (p : option text) : Prop :=
  match p with
  | None => t = []
  | Some s => t = ["["%char] ++ s ++ ["]"%char] /\ is_phase_text s
  end.
(** [gen_compound t f]: the grammar generates the text [t] with syntax [f]. *)
Definition gen_compound (t : text) (f : formula) : Prop :=
  exists a b c, t = a ++ b ++ c /\ gen_group a (f_group f) /\ gen_dotted b (f_dotted f) /\ gen_phase c (f_phase f).

(** * Meaning *)

(** Value of a decimal numeral, by place value. *)
Fixpoint decimal (t : text) : Z :=
  match t with
  | [] => 0
  | c :: t' => (code c - code "0") * 10 ^ Z.of_nat (length t') + decimal t'
  end.

(** The multiplier of a group: the number written, 1 if none is written.  The
    program also reads a written 0 as 1. *)
Definition group_multiplier (n : option text) : Z :=
  match n with
  | None => 1
  | Some t => if decimal t =? 0 then 1 else decimal t
  end.

(** Number of atoms of the element with symbol [s] in a formula. *)
Fixpoint item_atoms (s : string) (i : item) : Z :=
  match i with
  | IElement t => if String.eqb (str_of t) s then 1 else 0
  | ISubElement t n => if String.eqb (str_of t) s then decimal n else 0
  | ISubGroup g n => group_multiplier n * fold_right (fun j a => item_atoms s j + a) 0 g
  end.
Definition group_atoms (s : string) (g : list item) : Z := fold_right (fun j a => item_atoms s j + a) 0 g.
Definition atoms (s : string) (f : formula) : Z :=
  group_atoms s (f_group f) +
  match f_dotted f with Some (n, g) => group_multiplier n * group_atoms s g | None => 0 end.

(** Element symbols written in a formula. *)
Fixpoint item_symbols (i : item) : list string :=
  match i with
  | IElement t => [str_of t]
  | ISubElement t _ => [str_of t]
  | ISubGroup g _ => flat_map item_symbols g
  end.
Definition symbols (f : formula) : list string :=
  flat_map item_symbols (f_group f) ++
  match f_dotted f with Some (_, g) => flat_map item_symbols g | None => [] end.

Definition in_table (s : string) : Prop := exists e, In e element_dictionary /\ el_symbol e = s.
Definition all_known (f : formula) : Prop := forall s, In s (symbols f) -> in_table s.

(** Sum over the periodic table of atomic mass times a number of atoms. *)
Definition weight (n : string -> Z) : Qc :=
  Qcsum (map (fun e => (el_mass e * q_of_Z (n (el_symbol e)))%Qc) element_dictionary).

(** White space around a formula. *)
Definition blank (t : text) : Prop := forallb is_space t = true.
(** [written s f]: the string [s] is the formula [f], possibly surrounded by white space. *)
Definition written (s : string) (f : formula) : Prop :=
  exists l t r, text_of s = l ++ t ++ r /\ blank l /\ blank r /\ gen_compound t f.
(** [proper s f]: a formula the module can evaluate. *)
Definition proper (s : string) (f : formula) : Prop := written s f /\ all_known f.

(** The formula has at least one atom ("H0" has none). *)
Definition has_atoms (f : formula) : Prop := exists s, 0 < atoms s f.

(** * Dictionaries of amounts and masses *)
Definition scale_dict (k : Qc) (d : pydict) : pydict := map (fun kv => (fst kv, (k * snd kv)%Qc)) d.
Definition total (d : pydict) : Qc := Qcsum (map snd d).
(** Every value divided by the total. *)
Definition normalised (d : pydict) : pydict := map (fun kv => (fst kv, (snd kv / total d)%Qc)) d.
(** All keys are formulas with at least one atom. *)
Definition good_keys (d : pydict) : Prop := forall c x, In (c, x) d -> exists f, proper c f /\ has_atoms f.
(** Mass of the element [el] in mass [m] of a formula. *)
Definition element_mass (el : string) (f : formula) (m : Qc) : Qc :=
  (m * (q_of_Z (atoms el f) * weight (fun s => if String.eqb el s then 1%Z else 0%Z)) / weight (fun s => atoms s f))%Qc.

(** A text that is a group (no dotted part, no phase) of known elements. *)
Definition plain (t : text) (g : list item) : Prop := gen_group t g /\ forall s, In s (flat_map item_symbols g) -> in_table s.
