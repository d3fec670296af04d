(** Model of how the four material modules read a text file.
    The functions are the same text in chem.py, psd.py, slurry.py and thermo.py
    (auxi/modelling/process/materials); each is modelled once, differences are
    cited. *)
From Verif Require Import Prelude M_Stoichiometry.
Local Open Scope list_scope.

Definition sp : ascii := " "%char.
Definition tab : ascii := "009"%char.

(** line.replace('\t', ' '), chem.py:135. *)
Definition replace_tabs (t : text) : text := map (fun c => if Ascii.eqb c tab then sp else c) t.

(** line.find('  ') > -1, chem.py:138. *)
Fixpoint has_double (t : text) : bool :=
  match t with
  | c :: t' => match t' with
               | d :: _ => (Ascii.eqb c sp && Ascii.eqb d sp) || has_double t'
               | [] => false
               end
  | [] => false
  end.

(** line.replace('  ', ' '), chem.py:139: occurrences are found from left to
    right and do not overlap. *)
Fixpoint replace_double (t : text) : text :=
  match t with
  | c :: t' => match t' with
               | d :: t'' => if Ascii.eqb c sp && Ascii.eqb d sp then sp :: replace_double t'' else c :: replace_double t'
               | [] => [c]
               end
  | [] => []
  end.

(** The while loop, chem.py:138-139.  [None]: still running after [n] rounds. *)
Fixpoint squeeze_loop (n : nat) (t : text) : option text :=
  if has_double t then match n with O => None | S n' => squeeze_loop n' (replace_double t) end else Some t.

(** One line, chem.py:130-141, psd.py:132-140, slurry.py:183-191,
    thermo.py:229-242; [n] bounds the rounds of the loop. *)
Definition prepare_line (n : nat) (t : text) : option text := squeeze_loop n (replace_tabs (strip t)).

(** [_prepare_lines_], chem.py:123-143.  Every line gets as many rounds as it
    has characters; [P_Text] proves that this is always enough, so that [None]
    never comes up here. *)
Definition prepared (t : text) : text := match prepare_line (length t) t with Some r => r | None => [] end.
Definition prepare_lines (ls : list text) : list text := map prepared ls.

(** line.split(' ') *)
Fixpoint split_sp (t : text) : list text :=
  match t with
  | [] => [[]]
  | c :: t' => if Ascii.eqb c sp then [] :: split_sp t'
               else match split_sp t' with w :: ws => (c :: w) :: ws | [] => [[c]] end
  end.

(** * The table of assays
    [float_of] stands for Python's float(str): a number or ValueError.  It is an
    argument, so that what is proved holds for every such function. *)
Definition adict := list (text * list Qc).

(** self.assays[assay_name] = [], chem.py:105-107: a Python dictionary, keys in
    order of first insertion. *)
Definition set_empty (d : adict) (n : text) : adict :=
  if existsb (fun kv => if list_eq_dec ascii_dec (fst kv) n then true else false) d
  then map (fun kv => if list_eq_dec ascii_dec (fst kv) n then (n, []) else kv) d
  else d ++ [(n, [])].
Definition empty_assays (names : list text) : adict := fold_left set_empty names [].

(** self.assays[name].append(x), chem.py:117. *)
Definition append_to (d : adict) (n : text) (x : Qc) : adict :=
  map (fun kv => if list_eq_dec ascii_dec (fst kv) n then (fst kv, snd kv ++ [x]) else kv) d.

Section Reader.
Context {C : Type} (float_of : text -> res Qc) (read_first : text -> res C).

(** chem.py:115-117, psd.py:93-96, slurry.py:130-133, thermo.py:122-129: the
    loop runs over len(self.assays) columns. *)
Definition read_cells (names : list text) (strings : list text) (d : adict) : res adict :=
  foldM (fun d' j =>
      match nth_error names j with
      | None => Err IndexError
      | Some n =>
        match nth_error strings (S j) with
        | None => Err IndexError
        | Some w => do x <- float_of w; Ok (append_to d' n x)
        end
      end) (seq 0 (length d)) d.

(** chem.py:110-117, psd.py:86-96, slurry.py:122-133; [read_first] turns the
    first word into the name of the component: the text itself, or float(...)
    of it for size classes (psd.py:91, slurry.py:128). *)
Definition read_rows (names : list text) (lines : list text) (d : adict) : res (list C * adict) :=
  foldM (fun (s : list C * adict) line =>
      let strings := split_sp line in
      if (length strings <? length names + 1)%nat then Ok s else
      match strings with
      | [] => Err IndexError
      | w :: _ => do c <- read_first w; do d' <- read_cells names strings (snd s); Ok (fst s ++ [c], d')
      end) lines ([], d).

(** chem.py:103-104. *)
Definition assay_names (header : text) : list text := tl (split_sp header).

(** chem.py:100-117 and psd.py:75-96 on the lines of the file. *)
Definition read_table (raw : list text) : res (list C * adict) :=
  match prepare_lines raw with
  | [] => Err IndexError
  | header :: lines => read_rows (assay_names header) lines (empty_assays (assay_names header))
  end.
End Reader.
