(** Model of how auxi objects are written to files and read back: the json and
    jsonpickle calls of auxi/core/objects.py, and the files of compounds of
    auxi/tools/chemistry/thermochemistry.py.
    The two libraries are modelled as they behave with the arguments given here:
    json.dumps with sort_keys and indent=4, json.loads, and the part of jsonpickle
    that handles None, booleans, numbers, strings, lists, dictionaries with string
    keys and instances of classes.  Not modelled: objects that occur twice
    (py/id), the other tags of jsonpickle, characters above U+00FF, and the limit
    on recursion. *)
From Verif Require Import Prelude M_Stoichiometry M_Factsage.
Local Open Scope string_scope.
Local Open Scope list_scope.

(** A parsed JSON document.  Numbers are kept as they are written. *)
Inductive json :=
| JNull
| JBool (b : bool)
| JNum (t : text)
| JStr (t : text)
| JArr (l : list json)
| JObj (l : list (text * json)).

(** Python's str < str: by code points. *)
Fixpoint text_leb (a b : text) : bool :=
  match a, b with
  | [], _ => true
  | _ :: _, [] => false
  | c :: a', d :: b' =>
    if (nat_of_ascii c <? nat_of_ascii d)%nat then true
    else if (nat_of_ascii d <? nat_of_ascii c)%nat then false
    else text_leb a' b'
  end.
(** sorted(dct.items()): the keys of a dictionary are distinct. *)
Fixpoint insert_key {A} (x : text * A) (l : list (text * A)) : list (text * A) :=
  match l with
  | [] => [x]
  | y :: l' => if text_leb (fst x) (fst y) then x :: l else y :: insert_key x l'
  end.
Definition sort_keys {A} (l : list (text * A)) : list (text * A) := fold_right insert_key [] l.

(** * json.dumps(o, sort_keys=True, indent=4, separators=(',', ': ')),
    core/objects.py:24-25. *)
Definition dq : ascii := "034"%char.
Definition bs : ascii := "092"%char.
Definition hex_digit (n : nat) : ascii := ascii_of_nat (if (n <? 10)%nat then 48 + n else 87 + n).
(** json/encoder.py, ESCAPE_ASCII and ESCAPE_DCT. *)
Definition escape (c : ascii) : text :=
  let n := nat_of_ascii c in
  if Ascii.eqb c dq then [bs; dq]
  else if Ascii.eqb c bs then [bs; bs]
  else if (n =? 10)%nat then [bs; "n"%char]
  else if (n =? 13)%nat then [bs; "r"%char]
  else if (n =? 9)%nat then [bs; "t"%char]
  else if (n =? 12)%nat then [bs; "f"%char]
  else if (n =? 8)%nat then [bs; "b"%char]
  else if ((32 <=? n) && (n <=? 126))%nat%bool then [c]
  else [bs; "u"%char; "0"%char; "0"%char; hex_digit (n / 16); hex_digit (n mod 16)].
Definition quote (t : text) : text := dq :: flat_map escape t ++ [dq].
Definition newline (level : nat) : text := nl :: repeat " "%char (4 * level).
Fixpoint join (sep : text) (l : list text) : text :=
  match l with
  | [] => []
  | [x] => x
  | x :: l' => x ++ sep ++ join sep l'
  end.
(** json/encoder.py, _make_iterencode. *)
Fixpoint dumps (level : nat) (v : json) : text :=
  match v with
  | JNull => text_of "null"
  | JBool true => text_of "true"
  | JBool false => text_of "false"
  | JNum t => t
  | JStr t => quote t
  | JArr [] => text_of "[]"
  | JArr l => "["%char :: newline (S level) ++ join (","%char :: newline (S level)) (map (dumps (S level)) l) ++ newline level ++ ["]"%char]
  | JObj [] => text_of "{}"
  | JObj l => "{"%char :: newline (S level) ++
      join (","%char :: newline (S level))
        (map (fun kt => quote (fst kt) ++ text_of ": " ++ snd kt) (sort_keys (map (fun kv => (fst kv, dumps (S level) (snd kv))) l))) ++
      newline level ++ ["}"%char]
  end.

(** * json.loads *)
(** json/decoder.py, WHITESPACE. *)
Definition is_ws (c : ascii) : bool :=
  let n := nat_of_ascii c in ((n =? 32) || (n =? 9) || (n =? 10) || (n =? 13))%nat%bool.
Fixpoint skip_ws (s : text) : text := match s with c :: s' => if is_ws c then skip_ws s' else s | [] => [] end.
(** Four hexadecimal digits of a \u escape; code points above 255 are outside the
    model. *)
Definition hex_value (c : ascii) : option nat :=
  let n := nat_of_ascii c in
  if ((48 <=? n) && (n <=? 57))%nat%bool then Some (n - 48)%nat
  else if ((97 <=? n) && (n <=? 102))%nat%bool then Some (n - 87)%nat
  else if ((65 <=? n) && (n <=? 70))%nat%bool then Some (n - 55)%nat
  else None.
Definition unescape (c : ascii) : option ascii :=
  if Ascii.eqb c dq then Some dq
  else if Ascii.eqb c bs then Some bs
  else if Ascii.eqb c "/"%char then Some "/"%char
  else if Ascii.eqb c "b"%char then Some (ascii_of_nat 8)
  else if Ascii.eqb c "f"%char then Some (ascii_of_nat 12)
  else if Ascii.eqb c "n"%char then Some (ascii_of_nat 10)
  else if Ascii.eqb c "r"%char then Some (ascii_of_nat 13)
  else if Ascii.eqb c "t"%char then Some (ascii_of_nat 9)
  else None.
(** json/decoder.py, py_scanstring (strict), after the opening quote. *)
Fixpoint scanstring (s : text) : res (text * text) :=
  match s with
  | [] => Err ValueError
  | c :: s' =>
    if Ascii.eqb c dq then Ok ([], s')
    else if Ascii.eqb c bs then
      match s' with
      | [] => Err ValueError
      | e :: s2 =>
        if Ascii.eqb e "u"%char then
          match s2 with
          | a :: b :: h :: l :: s3 =>
            match hex_value a, hex_value b, hex_value h, hex_value l with
            | Some 0%nat, Some 0%nat, Some x, Some y => do r <- scanstring s3; Ok (ascii_of_nat (16 * x + y) :: fst r, snd r)
            | _, _, _, _ => Err ValueError
            end
          | _ => Err ValueError
          end
        else match unescape e with
             | Some d => do r <- scanstring s2; Ok (d :: fst r, snd r)
             | None => Err ValueError
             end
      end
    else if (nat_of_ascii c <? 32)%nat then Err ValueError
    else do r <- scanstring s'; Ok (c :: fst r, snd r)
  end.
(** json/scanner.py, NUMBER_RE: -?(?:0|[1-9][0-9]* )(\.[0-9]+)?([eE][-+]?[0-9]+)? *)
Fixpoint digits (s : text) : text * text :=
  match s with
  | c :: s' => if is_digit c then let r := digits s' in (c :: fst r, snd r) else ([], s)
  | [] => ([], [])
  end.
Definition int_part (s : text) : option (text * text) :=
  match s with
  | c :: s' => if Ascii.eqb c "0"%char then Some ([c], s') else if is_digit c then Some (digits s) else None
  | [] => None
  end.
Definition frac_part (s : text) : text * text :=
  match s with
  | c :: s' => if Ascii.eqb c "."%char then match digits s' with ([], _) => ([], s) | (d, r) => (c :: d, r) end else ([], s)
  | [] => ([], [])
  end.
Definition is_exp (c : ascii) : bool := Ascii.eqb c "e"%char || Ascii.eqb c "E"%char.
Definition is_sign (c : ascii) : bool := Ascii.eqb c "+"%char || Ascii.eqb c "-"%char.
Definition exp_part (s : text) : text * text :=
  match s with
  | c :: s' =>
    if is_exp c then
      let '(sg, s2) := match s' with x :: s2 => if is_sign x then ([x], s2) else ([], s') | [] => ([], s') end in
      match digits s2 with ([], _) => ([], s) | (d, r) => (c :: sg ++ d, r) end
    else ([], s)
  | [] => ([], [])
  end.
Definition scan_number (s : text) : res (text * text) :=
  let '(sg, s1) := match s with c :: s' => if Ascii.eqb c "-"%char then ([c], s') else ([], s) | [] => ([], s) end in
  match int_part s1 with
  | None => Err ValueError
  | Some (i, s2) => let f := frac_part s2 in let e := exp_part (snd f) in Ok (sg ++ i ++ fst f ++ fst e, snd e)
  end.
(** A document that begins with a given word. *)
Fixpoint word (w s : text) : option text :=
  match w, s with
  | [], _ => Some s
  | c :: w', d :: s' => if Ascii.eqb c d then word w' s' else None
  | _ :: _, [] => None
  end.
(** json/scanner.py, _scan_once: the constants, then the numbers. *)
Definition scan_scalar (s : text) : res (json * text) :=
  match word (text_of "null") s with
  | Some r => Ok (JNull, r)
  | None =>
  match word (text_of "true") s with
  | Some r => Ok (JBool true, r)
  | None =>
  match word (text_of "false") s with
  | Some r => Ok (JBool false, r)
  | None =>
  match scan_number s with
  | Ok (t, r) => Ok (JNum t, r)
  | Err _ =>
  match word (text_of "NaN") s with
  | Some r => Ok (JNum (text_of "NaN"), r)
  | None =>
  match word (text_of "Infinity") s with
  | Some r => Ok (JNum (text_of "Infinity"), r)
  | None =>
  match word (text_of "-Infinity") s with
  | Some r => Ok (JNum (text_of "-Infinity"), r)
  | None => Err ValueError
  end end end end end end end.
(** dict(pairs): a repeated key keeps its first place and its last value. *)
Definition dict_of {A} (l : list (text * A)) : list (text * A) := fold_left (fun d kv => dput tdec d (fst kv) (snd kv)) l [].
(** json/decoder.py, JSONArray and JSONObject; [n] bounds the calls, and loads
    gives as many as can be needed. *)
Fixpoint scan (n : nat) (s : text) : res (json * text) :=
  match n with
  | O => Err ValueError
  | S n =>
    match s with
    | [] => Err ValueError
    | c :: s' =>
      if Ascii.eqb c dq then do r <- scanstring s'; Ok (JStr (fst r), snd r)
      else if Ascii.eqb c "["%char then
        match skip_ws s' with
        | d :: s2 => if Ascii.eqb d "]"%char then Ok (JArr [], s2) else do r <- scan_items n (d :: s2); Ok (JArr (fst r), snd r)
        | [] => Err ValueError
        end
      else if Ascii.eqb c "{"%char then
        match skip_ws s' with
        | d :: s2 => if Ascii.eqb d "}"%char then Ok (JObj [], s2) else do r <- scan_members n (d :: s2); Ok (JObj (dict_of (fst r)), snd r)
        | [] => Err ValueError
        end
      else scan_scalar s
    end
  end
with scan_items (n : nat) (s : text) : res (list json * text) :=
  match n with
  | O => Err ValueError
  | S n =>
    do r <- scan n s;
    match skip_ws (snd r) with
    | c :: s' =>
      if Ascii.eqb c "]"%char then Ok ([fst r], s')
      else if Ascii.eqb c ","%char then do q <- scan_items n (skip_ws s'); Ok (fst r :: fst q, snd q)
      else Err ValueError
    | [] => Err ValueError
    end
  end
with scan_members (n : nat) (s : text) : res (list (text * json) * text) :=
  match n with
  | O => Err ValueError
  | S n =>
    match s with
    | c :: s0 =>
      if Ascii.eqb c dq then
        do k <- scanstring s0;
        match skip_ws (snd k) with
        | d :: s1 =>
          if Ascii.eqb d ":"%char then
            do r <- scan n (skip_ws s1);
            match skip_ws (snd r) with
            | e :: s' =>
              if Ascii.eqb e "}"%char then Ok ([(fst k, fst r)], s')
              else if Ascii.eqb e ","%char then do q <- scan_members n (skip_ws s'); Ok ((fst k, fst r) :: fst q, snd q)
              else Err ValueError
            | [] => Err ValueError
            end
          else Err ValueError
        | [] => Err ValueError
        end
      else Err ValueError
    | [] => Err ValueError
    end
  end.
Definition loads (s : text) : res json :=
  let s := skip_ws s in
  do r <- scan (2 * length s) s;
  match skip_ws (snd r) with [] => Ok (fst r) | _ :: _ => Err ValueError end.

(** * Objects *)
(** The values an attribute can have; [OMethod] is a bound method. *)
Inductive pyobj :=
| ONone
| OBool (b : bool)
| ONum (x : Qc)
| OStr (t : text)
| OList (l : list pyobj)
| ODict (l : list (text * pyobj))
| OInst (cls : text) (attrs : list (text * pyobj))
| OMethod (name : text).
Definition is_method (o : pyobj) : bool := match o with OMethod _ => true | _ => false end.
Definition py_object : text := text_of "py/object".

Section Numbers.
(** repr(x) of a number. *)
Variable repr : Qc -> text.
(** jsonpickle.encode followed by json.loads, core/objects.py:23: an instance
    becomes a dictionary with its class and its attributes; attributes that are
    methods are left out.  A method in a list becomes null. *)
Fixpoint flatten (o : pyobj) : json :=
  match o with
  | ONone | OMethod _ => JNull
  | OBool b => JBool b
  | ONum x => JNum (repr x)
  | OStr t => JStr t
  | OList l => JArr (map flatten l)
  | ODict d => JObj (flat_map (fun kv => if is_method (snd kv) then [] else [(fst kv, flatten (snd kv))]) d)
  | OInst c a => JObj ((py_object, JStr c) :: flat_map (fun kv => if is_method (snd kv) then [] else [(fst kv, flatten (snd kv))]) a)
  end.
(** core/objects.py:22-26, Object.__str__. *)
Definition object_str (o : pyobj) : text := dumps 0 (flatten o).
End Numbers.

Section Restore.
(** float(str) *)
Variable float_of : text -> res Qc.
(** jsonpickle.decode: a dictionary with a class tag becomes an instance (the
    classes of auxi can be imported), any other one stays a dictionary. *)
Fixpoint restore (v : json) : res pyobj :=
  match v with
  | JNull => Ok ONone
  | JBool b => Ok (OBool b)
  | JNum t => do x <- float_of t; Ok (ONum x)
  | JStr t => Ok (OStr t)
  | JArr l => do r <- (fix go l := match l with [] => Ok [] | x :: l' => do y <- restore x; do q <- go l'; Ok (y :: q) end) l; Ok (OList r)
  | JObj l =>
    do r <- (fix go l := match l with [] => Ok [] | (k, x) :: l' => do y <- restore x; do q <- go l'; Ok ((k, y) :: q) end) l;
    match dget tdec r py_object with
    | Ok (OStr c) => Ok (OInst c (filter (fun kv => if tdec (fst kv) py_object then false else true) r))
    | _ => Ok (ODict r)
    end
  end.
(** core/objects.py:42-45, Object.read without _init. *)
Definition object_read (s : text) : res pyobj := do v <- loads s; restore v.
End Restore.
