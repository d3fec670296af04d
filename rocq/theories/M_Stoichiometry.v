(** Model of auxi/tools/chemistry/stoichiometry.py.
    Strings are sequences of characters with code points below 256 (Coq's
    [ascii]); numbers are exact rationals instead of binary64.  Not modelled:
    Python's recursion limit and its limit on the digits of [int]. *)
From Verif Require Import Prelude M_Elements.
Local Open Scope string_scope.
Local Open Scope list_scope.
Local Open Scope Z_scope.

(** * Characters *)
Definition code (c : ascii) : Z := Z.of_nat (nat_of_ascii c).
Definition is_upper (c : ascii) : bool := (65 <=? code c) && (code c <=? 90).
Definition is_lower (c : ascii) : bool := (97 <=? code c) && (code c <=? 122).
Definition is_digit (c : ascii) : bool := (48 <=? code c) && (code c <=? 57).
Definition is_alnum (c : ascii) : bool := is_upper c || is_lower c || is_digit c.
(** What Python's str.strip() removes, for code points below 256. *)
Definition is_space (c : ascii) : bool :=
  ((9 <=? code c) && (code c <=? 13)) || ((28 <=? code c) && (code c <=? 32)) || (code c =? 133) || (code c =? 160).

Definition text := list ascii.
Definition text_of (s : string) : text := list_ascii_of_string s.
Definition str_of (t : text) : string := string_of_list_ascii t.

(** Python's str.strip(). *)
Fixpoint lstrip (t : text) : text :=
  match t with c :: t' => if is_space c then lstrip t' else t | [] => [] end.
Definition strip (t : text) : text := rev (lstrip (rev (lstrip t))).

(** A regular expression [class]*, greedy: the longest prefix and the rest. *)
Fixpoint span (p : ascii -> bool) (t : text) : text * text :=
  match t with
  | c :: t' => if p c then let x := span p t' in (c :: fst x, snd x) else ([], t)
  | [] => ([], [])
  end.

(** * The parse tree
    stoichiometry.py:167-178.  One node kind per grammar rule; elements,
    numbers and phases are kept as the matched text. *)
Inductive item :=
| IElement (el : text)                              (* element *)
| ISubElement (el : text) (n : text)                (* subscriptedelement *)
| ISubGroup (g : list item) (n : option text).      (* subscriptedgroup *)
Record formula := mkformula {
  f_group : list item;
  f_dotted : option (option text * list item);
  f_phase : option text }.

(** * The parser: parsimonious' PEG matching of each rule
    A rule returns the tree and the rest of the text, or None. *)

(** stoichiometry.py:175, element = ~r"[A-Z][a-z]*". *)
Definition p_element (t : text) : option (text * text) :=
  match t with
  | c :: t' => if is_upper c then let x := span is_lower t' in Some (c :: fst x, snd x) else None
  | [] => None
  end.

(** stoichiometry.py:177, number = ~r"[0-9]+". *)
Definition p_number (t : text) : option (text * text) :=
  let x := span is_digit t in
  match fst x with [] => None | _ => Some x end.

(** number? *)
Definition p_opt_number (t : text) : option text * text :=
  match p_number t with Some (n, r) => (Some n, r) | None => (None, t) end.

(** stoichiometry.py:176, string = ~r"[A-Za-z0-9]+". *)
Definition p_string (t : text) : option (text * text) :=
  let x := span is_alnum t in
  match fst x with [] => None | _ => Some x end.

(** stoichiometry.py:174, subscriptedelement = element number. *)
Definition p_subscriptedelement (t : text) : option (item * text) :=
  match p_element t with
  | None => None
  | Some (e, r) => match p_number r with None => None | Some (n, r') => Some (ISubElement e n, r') end
  end.

(** A string literal of one character. *)
Definition p_lit (c : ascii) (t : text) : option text :=
  match t with d :: t' => if Ascii.eqb c d then Some t' else None | [] => None end.

(** stoichiometry.py:173, subscriptedgroup = "(" group ")" number?, given the
    matcher of group. *)
Definition p_subscriptedgroup (group : text -> option (list item * text)) (t : text) : option (item * text) :=
  match p_lit "(" t with
  | None => None
  | Some r =>
    match group r with
    | None => None
    | Some (g, r1) =>
      match p_lit ")" r1 with
      | None => None
      | Some r2 => let x := p_opt_number r2 in Some (ISubGroup g (fst x), snd x)
      end
    end
  end.

(** stoichiometry.py:170, the ordered choice
    subscriptedgroup / subscriptedelement / element. *)
Definition p_item (group : text -> option (list item * text)) (t : text) : option (item * text) :=
  match p_subscriptedgroup group t with
  | Some x => Some x
  | None =>
    match p_subscriptedelement t with
    | Some x => Some x
    | None => match p_element t with Some (e, r) => Some (IElement e, r) | None => None end
    end
  end.

(** stoichiometry.py:170, group = ( ... )+, greedy.  [fuel] bounds the
    recursion; one more than the length of the text is always enough
    (P_Stoich.v proves that every string of the grammar is accepted). *)
Fixpoint p_group (fuel : nat) (t : text) : option (list item * text) :=
  match fuel with
  | O => None
  | S f =>
    match p_item (p_group f) t with
    | None => None
    | Some (i, r) =>
      match p_group f r with
      | None => Some ([i], r)
      | Some (g, r') => Some (i :: g, r')
      end
    end
  end.

(** stoichiometry.py:172, dottedgroup = "." number? group. *)
Definition p_dottedgroup (fuel : nat) (t : text) : option ((option text * list item) * text) :=
  match p_lit "." t with
  | None => None
  | Some r =>
    let x := p_opt_number r in
    match p_group fuel (snd x) with None => None | Some (g, r') => Some ((fst x, g), r') end
  end.

(** stoichiometry.py:171, phase = "[" string "]". *)
Definition p_phase (t : text) : option (text * text) :=
  match p_lit "[" t with
  | None => None
  | Some r =>
    match p_string r with
    | None => None
    | Some (s, r1) => match p_lit "]" r1 with None => None | Some r2 => Some (s, r2) end
    end
  end.

Definition p_opt {A} (p : text -> option (A * text)) (t : text) : option A * text :=
  match p t with Some (a, r) => (Some a, r) | None => (None, t) end.

(** stoichiometry.py:169, compound = group dottedgroup? phase?. *)
Definition p_compound (fuel : nat) (t : text) : option (formula * text) :=
  match p_group fuel t with
  | None => None
  | Some (g, r) =>
    let d := p_opt (p_dottedgroup fuel) r in
    let p := p_opt p_phase (snd d) in
    Some (mkformula g (fst d) (fst p), snd p)
  end.

(** stoichiometry.py:184, grammar.parse: the whole text must match, otherwise
    parsimonious raises ParseError (or its subclass IncompleteParseError). *)
Definition grammar_parse (t : text) : res formula :=
  match p_compound (S (length t)) t with
  | Some (f, []) => Ok f
  | _ => Err ParseError
  end.

(** * The objects the visitor builds *)

(** stoichiometry.py:73-88 (Group) and 25-48 (Element). *)
Inductive part :=
| PElement (e : element)
| PGroup (g : list part) (multiplier : Z).
(** stoichiometry.py:96-109 (Compound). *)
Record compound := mkcompound { c_group : list part; c_phase : option text }.

(** stoichiometry.py:157-158, int(node.text) on decimal digits. *)
Definition int_of_text (t : text) : Z := fold_left (fun a c => 10 * a + (code c - 48)) t 0.

(** stoichiometry.py:140-141 and 146-147, [if not number: number = 1]. *)
Definition number_or_one (n : option text) : Z :=
  match n with
  | None => 1
  | Some t => if int_of_text t =? 0 then 1 else int_of_text t
  end.

(** stoichiometry.py:154-155; parsimonious wraps the KeyError in a
    VisitationError. *)
Definition visit_element (t : text) : res element :=
  match find_element (str_of t) with Some e => Ok e | None => Err VisitationError end.

(** stoichiometry.py:131-132, 144-152.  A group is visited child by child;
    Group(group) has multiplier 1. *)
Fixpoint visit_item (i : item) : res part :=
  match i with
  | IElement t => do e <- visit_element t; Ok (PElement e)
  | ISubElement t n => do e <- visit_element t; Ok (PGroup [PElement e] (int_of_text n))
  | ISubGroup g n =>
    do l <- (fix visit_items (l : list item) : res (list part) :=
               match l with
               | [] => Ok []
               | x :: l' => do y <- visit_item x; do ys <- visit_items l'; Ok (y :: ys)
               end) g;
    Ok (PGroup [PGroup l 1] (number_or_one n))
  end.

Definition visit_group (g : list item) : res part :=
  do l <- mapM visit_item g; Ok (PGroup l 1).

(** stoichiometry.py:127-142. *)
Definition visit_compound (f : formula) : res compound :=
  do g <- visit_group (f_group f);
  match f_dotted f with
  | None => Ok (mkcompound [g] (f_phase f))
  | Some (n, d) => do dg <- visit_group d; Ok (mkcompound [g; PGroup [dg] (number_or_one n)] (f_phase f))
  end.

(** stoichiometry.py:181-185.  The cache is transparent: the returned object
    is never modified by this module. *)
Definition parse_compound (t : text) : res compound :=
  do f <- grammar_parse t; visit_compound f.

(** * Counting *)

(** A dictionary from symbols to floats, in insertion order. *)
Definition counts := list (string * Qc).

(** counts[element] += x on a defaultdict(float). *)
Fixpoint add_count (k : string) (x : Qc) (d : counts) : counts :=
  match d with
  | [] => [(k, (0 + x)%Qc)]
  | (k', v) :: d' => if String.eqb k k' then (k', (v + x)%Qc) :: d' else (k', v) :: add_count k x d'
  end.

(** Reading counts[k] of a defaultdict(float). *)
Fixpoint get_count (k : string) (d : counts) : Qc :=
  match d with
  | [] => 0%Qc
  | (k', v) :: d' => if String.eqb k k' then v else get_count k d'
  end.

Definition q_of_Z (z : Z) : Qc := Q2Qc (inject_Z z).

(** stoichiometry.py:68-69, the inner loop. *)
Definition add_counts (m : Z) (c : counts) (d : counts) : counts :=
  fold_left (fun d kv => add_count (fst kv) (snd kv * q_of_Z m)%Qc d) c d.

(** stoichiometry.py:47-48, 57-70, 87-88. *)
Fixpoint part_count (p : part) : counts :=
  match p with
  | PElement e => [(el_symbol e, 1%Qc)]
  | PGroup g m =>
    (fix go (l : list part) (d : counts) : counts :=
       match l with [] => d | x :: l' => go l' (add_counts m (part_count x) d) end) g []
  end.

(** stoichiometry.py:111-112. *)
Definition compound_count (c : compound) : counts := part_count (PGroup (c_group c) 1).

(** stoichiometry.py:114-116, Compound.molar_mass. *)
Definition compound_molar_mass (c : compound) : res Qc :=
  do l <- mapM (fun kv : string * Qc =>
      match find_element (fst kv) with
      | Some e => Ok (el_mass e * snd kv)%Qc
      | None => Err KeyError
      end) (compound_count c);
  Ok (Qcsum l).

(** * The module's functions *)

(** stoichiometry.py:347-366.  [None] is Python's None. *)
Definition molar_mass (c : option string) : res Qc :=
  match c with
  | None => Ok 0%Qc
  | Some s =>
    match text_of s with
    | [] => Ok 0%Qc
    | t => do p <- parse_compound (strip t); compound_molar_mass p
    end
  end.

(** stoichiometry.py:188-199. *)
Definition amount (c : string) (mass : Qc) : res Qc :=
  do mm <- molar_mass (Some c); pydiv mass mm.

(** A Python dictionary from compound strings to numbers: distinct keys in
    insertion order. *)
Definition pydict := list (string * Qc).

(** stoichiometry.py:202-212. *)
Definition amounts (masses : pydict) : res pydict :=
  mapM (fun kv => do n <- amount (fst kv) (snd kv); Ok (fst kv, n)) masses.

(** The division of every value by the total, stoichiometry.py:225-226 and
    266-267. *)
Definition fractions (d : pydict) : res pydict :=
  let total := Qcsum (map snd d) in
  mapM (fun kv => do x <- pydiv (snd kv) total; Ok (fst kv, x)) d.

(** stoichiometry.py:215-226. *)
Definition amount_fractions (masses : pydict) : res pydict :=
  do n <- amounts masses; fractions n.

(** stoichiometry.py:229-240. *)
Definition mass (c : string) (amt : Qc) : res Qc :=
  do mm <- molar_mass (Some c); Ok (amt * mm)%Qc.

(** stoichiometry.py:243-253. *)
Definition masses (amts : pydict) : res pydict :=
  mapM (fun kv => do m <- mass (fst kv) (snd kv); Ok (fst kv, m)) amts.

(** stoichiometry.py:256-267. *)
Definition mass_fractions (amts : pydict) : res pydict :=
  do m <- masses amts; fractions m.

(** stoichiometry.py:369-382. *)
Definition stoichiometry_coefficient (c el : string) : res Qc :=
  do p <- parse_compound (strip (text_of c)); Ok (get_count el (compound_count p)).

(** stoichiometry.py:385-398. *)
Definition stoichiometry_coefficients (c : string) (els : list string) : res (list Qc) :=
  do p <- parse_compound (strip (text_of c)); Ok (map (fun e => get_count e (compound_count p)) els).

(** stoichiometry.py:295-312. *)
Definition element_mass_fraction (c el : string) : res Qc :=
  do coeff <- stoichiometry_coefficient c el;
  if Qc_eq_bool coeff 0 then Ok 0%Qc else
  do fm <- molar_mass (Some c);
  do em <- molar_mass (Some el);
  pydiv (coeff * em)%Qc fm.

(** stoichiometry.py:315-327. *)
Definition element_mass_fractions (c : string) (els : list string) : res (list Qc) :=
  mapM (element_mass_fraction c) els.

(** stoichiometry.py:330-344.  The returned set is represented by the list of
    its members in order of first appearance; unlike the other functions this
    one does not strip. *)
Definition elements (cs : list string) : res (list string) :=
  do ls <- mapM (fun c => do p <- parse_compound (text_of c); Ok (map fst (compound_count p))) cs;
  Ok (nodup string_dec (concat ls)).

(** stoichiometry.py:270-292. *)
Definition convert_compound (m : Qc) (source target el : string) : res Qc :=
  do tf <- element_mass_fraction target el;
  if Qc_eq_bool tf 0 then Ok 0%Qc else
  do sf <- element_mass_fraction source el;
  pydiv (m * sf)%Qc tf.
