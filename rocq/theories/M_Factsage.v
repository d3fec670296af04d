(** Model of the FactSage reader of auxi/tools/chemistry/thermochemistry.py
    (553-653).  [lines] are the lines of the file as readlines returns them, each
    with its newline; [float_of] stands for Python's float(str).  Not modelled:
    opening the file and printing the formula. *)
From Verif Require Import Prelude M_Elements M_Stoichiometry M_Text M_Thermochem.
From Coq Require Import Reals.
Local Open Scope string_scope.
Local Open Scope list_scope.
Local Open Scope Z_scope.

Definition nl : ascii := "010"%char.

(** t.startswith(p) *)
Fixpoint starts_with (p t : text) : bool :=
  match p, t with
  | [], _ => true
  | c :: p', d :: t' => Ascii.eqb c d && starts_with p' t'
  | _ :: _, [] => false
  end.
(** t.replace(p, r) for a non-empty p: from left to right, without overlaps;
    [skip] characters of a match are still to be passed over. *)
Fixpoint replace_from (p r : text) (skip : nat) (t : text) : text :=
  match t with
  | [] => []
  | c :: t' =>
    match skip with
    | S k => replace_from p r k t'
    | O => if starts_with p t then r ++ replace_from p r (pred (length p)) t' else c :: replace_from p r 0 t'
    end
  end.
Definition replace (p r : string) (t : text) : text := replace_from (text_of p) (text_of r) 0 t.
(** The while loop of 581-582: as many rounds as there are characters, which is
    enough (P_Text.v). *)
Definition squeeze (t : text) : text := match squeeze_loop (length t) t with Some r => r | None => [] end.

(** thermochemistry.py:579-585: the strings of a line. *)
Definition fs_strings (line : text) : list text :=
  let line := replace " 298 " " 298.15 " line in
  let line := replace " - " " " line in
  let line := squeeze line in
  let line := replace (String sp (String nl "")) "" line in
  let line := replace (String nl "") "" line in
  split_sp line.

(** The dictionaries that are built. *)
Record fs_record := mkfr { fr_Tmin : Qc; fr_Tmax : Qc; fr_terms : list (Qc * Qc) }.
Record fs_phase := mkfp { fp_symbol : text; fp_DHref : Qc; fp_Sref : Qc; fp_records : list (Qc * fs_record) }.

(** d[k] = v, and the change of a value that is there. *)
Section Dict.
Context {K V : Type} (dec : forall a b : K, {a = b} + {a <> b}).
Fixpoint dput (d : list (K * V)) (k : K) (v : V) : list (K * V) :=
  match d with
  | [] => [(k, v)]
  | (k', v') :: d' => if dec k' k then (k', v) :: d' else (k', v') :: dput d' k v
  end.
Fixpoint dget (d : list (K * V)) (k : K) : res V :=
  match d with [] => Err KeyError | (k', v) :: d' => if dec k' k then Ok v else dget d' k end.
End Dict.
Definition tdec : forall a b : text, {a = b} + {a <> b} := list_eq_dec ascii_dec.
Definition qdec := Qc_eq_dec.

(** The variables of the loop; [st_phase] is phaseold, of which ph is the entry
    once a phase was met; [st_Tmax] is unbound at first. *)
Record fs_state := mkfst { st_phases : list (text * fs_phase); st_phase : text; st_record : text; st_Tmax : option Qc }.

Section Reader.
Context (float_of : text -> res Qc).
(** float(strings[i]) *)
Definition number (ss : list text) (i : nat) : res Qc :=
  match nth_error ss i with Some t => float_of t | None => Err IndexError end.
(** strings[len(strings)-1] and strings[len(strings)-2]; a negative index counts
    from the end again, but there are at least two strings. *)
Definition number_from_end (ss : list text) (i : nat) : res Qc := number ss (length ss - i).

(** The terms at [i]: one, and a second one if there are [n] strings
    (604-610, 612-618, 630-636, 638-644). *)
Definition read_terms (ss : list text) (i n : nat) : res (list (Qc * Qc)) :=
  do c <- number ss i; do e <- number ss (S i);
  if (length ss =? n)%nat
  then do c2 <- number ss (S (S i)); do e2 <- number ss (S (S (S i))); Ok [(c, e); (c2, e2)]
  else Ok [(c, e)].

(** 598-610 and 623-636: a new record of the phase [ph]; the terms are at [i]. *)
Definition new_record (ss : list text) (ph : fs_phase) (i n : nat) : res (fs_phase * Qc) :=
  do tmax <- number_from_end ss 1;
  do tmin <- number_from_end ss 2;
  do terms <- read_terms ss i n;
  Ok (mkfp (fp_symbol ph) (fp_DHref ph) (fp_Sref ph) (dput qdec (fp_records ph) tmax (mkfr tmin tmax terms)), tmax).
(** 612-618 and 638-644: more terms of the record that is being read.  The
    second term is read after the first was appended. *)
Definition old_record (ss : list text) (ph : fs_phase) (tmax : option Qc) : res fs_phase :=
  do c <- number ss 2; do e <- number ss 3;
  match tmax with
  | None => Err NameError
  | Some t =>
    do r <- dget qdec (fp_records ph) t;
    do terms <- read_terms ss 2 8;
    Ok (mkfp (fp_symbol ph) (fp_DHref ph) (fp_Sref ph) (dput qdec (fp_records ph) t (mkfr (fr_Tmin r) (fr_Tmax r) (fr_terms r ++ terms))))
  end.

(** 586-644: one line between the two marks. *)
Definition fs_line (s : fs_state) (ss : list text) : res fs_state :=
  if (length ss <? 2)%nat then Ok s else
  match ss with
  | phase :: record :: _ =>
    if negb (if tdec phase (st_phase s) then true else false) then
      do dh <- number ss 2; do sr <- number ss 3;
      let ph := mkfp phase dh sr [] in
      if negb (if tdec record (st_record s) then true else false) then
        do x <- new_record ss ph 4 10;
        Ok (mkfst (dput tdec (st_phases s) phase (fst x)) phase record (Some (snd x)))
      else
        do ph' <- old_record ss ph (st_Tmax s);
        Ok (mkfst (dput tdec (st_phases s) phase ph') phase record (st_Tmax s))
    else
      do ph <- dget tdec (st_phases s) phase;
      if negb (if tdec record (st_record s) then true else false) then
        do x <- new_record ss ph 2 8;
        Ok (mkfst (dput tdec (st_phases s) phase (fst x)) phase record (Some (snd x)))
      else
        do ph' <- old_record ss ph (st_Tmax s);
        Ok (mkfst (dput tdec (st_phases s) phase ph') phase record (st_Tmax s))
  | _ => Ok s
  end.

(** line.startswith('_') *)
Definition mark (line : text) : bool := match line with c :: _ => Ascii.eqb c "_"%char | [] => false end.
(** The loop of 575-646 once started. *)
Fixpoint fs_body (lines : list text) (s : fs_state) : res fs_state :=
  match lines with
  | [] => Ok s
  | l :: ls => if mark l then Ok s else do s' <- fs_line s (fs_strings l); fs_body ls s'
  end.
(** The loop before it: the lines up to and including the first mark. *)
Fixpoint fs_skip (lines : list text) : list text :=
  match lines with [] => [] | l :: ls => if mark l then ls else fs_skip ls end.

(** min(cprecs.keys()) *)
Fixpoint least (ks : list Qc) : res Qc :=
  match ks with
  | [] => Err ValueError
  | k :: ks' => match least ks' with Ok m => Ok (if Qclt_le_dec m k then m else k) | Err _ => Ok k end
  end.
(** 648-651 for one phase. *)
Definition fs_first (ph : fs_phase) : res fs_phase :=
  do k <- least (map fst (fp_records ph));
  do r <- dget qdec (fp_records ph) k;
  Ok (mkfp (fp_symbol ph) (fp_DHref ph) (fp_Sref ph)
        (dput qdec (fp_records ph) k (mkfr (Q2Qc (29815 # 100)) (fr_Tmax r) (fr_terms r)))).

(** thermochemistry.py:553-653: the formula and the phases. *)
Definition read_factsage (lines : list text) : res (text * list (text * fs_phase)) :=
  match lines with
  | [] => Err IndexError
  | header :: _ =>
    match split_sp header with
    | _ :: formula :: _ =>
      do s <- fs_body (fs_skip lines) (mkfst [] (text_of "zz") (text_of "0") None);
      do phs <- mapM (fun kp => do p <- fs_first (snd kp); Ok (fst kp, p)) (st_phases s);
      Ok (formula, phs)
    | _ => Err IndexError
    end
  end.
End Reader.

(** thermochemistry.py:738, Compound(...) of what was read: 422-442 and 152-190. *)
Definition cp_of_fs (r : fs_record) : cprecord :=
  mkcp (Q2R (this (fr_Tmin r))) (Q2R (this (fr_Tmax r))) (map (fun ce => (Q2R (this (fst ce)), Q2R (this (snd ce)))) (fr_terms r)).
Definition phase_of_fs (p : fs_phase) : phase :=
  mkphase (Q2R (this (fp_DHref p))) (Q2R (this (fp_Sref p)))
    (map (fun kr => (Q2R (this (fst kr)), cp_of_fs (snd kr))) (fp_records p)) None.
Definition load_factsage (float_of : text -> res Qc) (lines : list text) : res tcompound :=
  do x <- read_factsage float_of lines;
  new_compound (str_of (fst x)) (map (fun kp => (str_of (fst kp), phase_of_fs (snd kp))) (snd x)).
