(** Independent vocabulary for C70: what a FactSage listing says. *)
From Verif Require Import Prelude M_Stoichiometry M_Factsage.
Local Open Scope list_scope.

(** * Lines *)
(** A word: at least one character, no space, tab or newline. *)
Definition plain (w : text) : Prop := w <> [] /\ forall c, In c w -> c <> " "%char /\ c <> "009"%char /\ c <> "010"%char.
Definition dash : text := text_of "-".
Definition w298 : text := text_of "298".
(** What a reader takes for a word: "298" means 298.15. *)
Definition read_word (w : text) : text := if list_eq_dec ascii_dec w w298 then text_of "298.15" else w.
(** The words that count: all but dashes. *)
Definition meaning (ws : list text) : list text := map read_word (filter (fun w => if list_eq_dec ascii_dec w dash then false else true) ws).
(** [w] does not follow itself. *)
Fixpoint no_twice (w : text) (ws : list text) : Prop :=
  match ws with
  | a :: ws' => match ws' with b :: _ => ~ (a = w /\ b = w) | [] => a <> w end /\ no_twice w ws'
  | [] => True
  end.
(** The blocks: each word after the first with the number of spaces before it. *)
Definition spaces (n : nat) : text := repeat " "%char n.
Definition blocks (bs : list (nat * text)) : text := concat (map (fun b => spaces (fst b) ++ snd b) bs).
(** [data_line w ws t]: the line [t] shows the word [w] and then the words
    [ws], with any number of spaces between two words, and is ended by any
    number of spaces and a newline (or by the end of the file). *)
Definition data_line (w : text) (ws : list text) (t : text) : Prop :=
  plain w /\ Forall plain ws /\ no_twice dash ws /\ no_twice w298 ws /\
  exists ns tail, length ns = length ws /\ Forall (fun n => (1 <= n)%nat) ns /\
    (tail = [] \/ exists k, tail = spaces k ++ ["010"%char]) /\
    t = w ++ blocks (combine ns ws) ++ tail.

(** * Data: words and what they are read as *)
(** One or two terms (coefficient and exponent). *)
Record trow := mkrow { row_first : text * text; row_second : option (text * text) }.
Definition row_words (r : trow) : list text :=
  [fst (row_first r); snd (row_first r)] ++ match row_second r with Some (c, e) => [c; e] | None => [] end.
(** A record: its number, its range, its rows (at least one). *)
Record trecord := mktrec { rec_no : text; rec_lo : text; rec_hi : text; rec_row : trow; rec_rows : list trow }.
Record tphase := mktph { ph_sym : text; ph_H : text; ph_S : text; ph_rec : trecord; ph_recs : list trecord }.

(** The lines, as lists of words.  Every line repeats the phase, the record and
    the range; the first line of a phase has its enthalpy and entropy too. *)
Definition row_line (sym : text) (extra : list text) (rc : trecord) (r : trow) : list text :=
  sym :: rec_no rc :: extra ++ row_words r ++ [rec_lo rc; rec_hi rc].
Definition record_lines (sym : text) (extra : list text) (rc : trecord) : list (list text) :=
  row_line sym extra rc (rec_row rc) :: map (row_line sym [] rc) (rec_rows rc).
Definition phase_lines (p : tphase) : list (list text) :=
  record_lines (ph_sym p) [ph_H p; ph_S p] (ph_rec p) ++ concat (map (record_lines (ph_sym p) []) (ph_recs p)).
Definition listing (ps : list tphase) : list (list text) := concat (map phase_lines ps).
(** [shows wss lines]: the lines show these words, one line each; blank lines
    may come between them. *)
Inductive shows : list (list text) -> list text -> Prop :=
| sh_nil : shows [] []
| sh_blank n wss ls : shows wss ls -> shows wss ((spaces n ++ ["010"%char]) :: ls)
| sh_line w ws wss l ls : data_line w ws l -> shows wss ls -> shows ((w :: meaning ws) :: wss) (l :: ls).

Section Values.
Context (float_of : text -> res Qc).
Definition term_is (t : text * text) (v : Qc * Qc) : Prop := float_of (fst t) = Ok (fst v) /\ float_of (snd t) = Ok (snd v).
(** All the terms of a record, in order. *)
Definition row_terms (r : trow) : list (text * text) := row_first r :: match row_second r with Some t => [t] | None => [] end.
Definition rec_terms (rc : trecord) : list (text * text) := row_terms (rec_row rc) ++ concat (map row_terms (rec_rows rc)).
(** [record_is rc v]: [v] is what the record says. *)
Definition record_is (rc : trecord) (v : Qc * fs_record) : Prop :=
  float_of (rec_lo rc) = Ok (fr_Tmin (snd v)) /\ float_of (rec_hi rc) = Ok (fr_Tmax (snd v)) /\ fst v = fr_Tmax (snd v) /\
  Forall2 term_is (rec_terms rc) (fr_terms (snd v)).
Definition records_of (p : tphase) : list trecord := ph_rec p :: ph_recs p.
Definition phase_is (p : tphase) (v : text * fs_phase) : Prop :=
  fst v = ph_sym p /\ fp_symbol (snd v) = ph_sym p /\ float_of (ph_H p) = Ok (fp_DHref (snd v)) /\ float_of (ph_S p) = Ok (fp_Sref (snd v)) /\
  Forall2 record_is (records_of p) (fp_records (snd v)) /\ NoDup (map fst (fp_records (snd v))).
End Values.

(** The record with the lowest upper limit starts at 298.15 K, whatever the
    listing says; all else is as it was. *)
Definition anchored_records (rs rs' : list (Qc * fs_record)) : Prop :=
  Forall2 (fun r r' => fst r' = fst r /\ fr_Tmax (snd r') = fr_Tmax (snd r) /\ fr_terms (snd r') = fr_terms (snd r) /\
    ((forall q, In q rs -> (fst r <= fst q)%Qc) -> fr_Tmin (snd r') = Q2Qc (29815 # 100)) /\
    ((exists q, In q rs /\ (fst q < fst r)%Qc) -> fr_Tmin (snd r') = fr_Tmin (snd r))) rs rs'.
Definition anchored_phase (v v' : text * fs_phase) : Prop :=
  fst v' = fst v /\ fp_symbol (snd v') = fp_symbol (snd v) /\ fp_DHref (snd v') = fp_DHref (snd v) /\ fp_Sref (snd v') = fp_Sref (snd v) /\
  anchored_records (fp_records (snd v)) (fp_records (snd v')).

(** The numbers of the records in the order of the listing. *)
Definition numbers (ps : list tphase) : list text := concat (map (fun p => map rec_no (records_of p)) ps).
(** No number is the same as the one before it; the first is not [w]. *)
Fixpoint changing (w : text) (l : list text) : Prop := match l with [] => True | x :: l' => x <> w /\ changing x l' end.

(** A line of underscores starts and ends the listing. *)
Definition underscored (l : text) : Prop := exists l', l = "_"%char :: l'.
(** [factsage_file formula wss lines]: the first line has the formula as its
    second word, with something after it; then come any lines, a line of
    underscores, lines that show the words [wss], and nothing more or another
    line of underscores and anything. *)
Definition factsage_file (formula : text) (wss : list (list text)) (lines : list text) : Prop :=
  exists a more pre mark ls rest,
    ~ In " "%char a /\ ~ In " "%char formula /\
    let header := a ++ " "%char :: formula ++ " "%char :: more in
    Forall (fun l => ~ underscored l) (header :: pre) /\ underscored mark /\ shows wss ls /\
    (rest = [] \/ exists m rest', rest = m :: rest' /\ underscored m) /\
    lines = header :: pre ++ mark :: ls ++ rest.

(** The records follow one another: each starts where the one before it ends,
    and the first ends above 298.15 K. *)
Fixpoint chain (k : Qc) (rs : list (Qc * fs_record)) : Prop :=
  match rs with [] => True | r :: rs' => fr_Tmin (snd r) = k /\ (k < fst r)%Qc /\ chain (fst r) rs' end.
Definition following (rs : list (Qc * fs_record)) : Prop :=
  match rs with [] => False | r :: rs' => (Q2Qc (29815 # 100) < fst r)%Qc /\ chain (fst r) rs' end.
