(** Independent vocabulary for C37: the words of a line. *)
From Verif Require Import Prelude M_Stoichiometry.
Local Open Scope list_scope.

Definition is_sep (c : ascii) : Prop := c = " "%char \/ c = "009"%char.
(** A word: at least one character, no space or tab. *)
Definition word (w : text) : Prop := w <> [] /\ forall c, In c w -> ~ is_sep c.
(** [has_words t ws]: [ws] are the words of [t] in order, a word being a
    longest run of characters that are neither space nor tab. *)
Inductive has_words : text -> list text -> Prop :=
| hw_nil : has_words [] []
| hw_sep c t ws : is_sep c -> has_words t ws -> has_words (c :: t) ws
| hw_word w t ws : word w -> (t = [] \/ exists c t', t = c :: t' /\ is_sep c) -> has_words t ws -> has_words (w ++ t) (w :: ws).
(** Words with one space between them. *)
Fixpoint joined (ws : list text) : text :=
  match ws with [] => [] | w :: ws' => match ws' with [] => w | _ => w ++ [" "%char] ++ joined ws' end end.
(** [core t s]: [s] is [t] without the white space at its ends. *)
Definition core (t s : text) : Prop :=
  exists l r, t = l ++ s ++ r /\ forallb is_space l = true /\ forallb is_space r = true /\
    (forall c u, s = c :: u -> is_space c = false) /\ (forall c u, s = u ++ [c] -> is_space c = false).

(** * Tables
    [table_of float_of read_first names rows cells]: [cells] holds, for every
    line of [rows] (given as its words) with more words than there are names, in
    order, the component read from its first word and the numbers read from the
    following words, one per name; other lines are skipped. *)
Inductive table_of {C} (float_of : text -> res Qc) (read_first : text -> res C) (n : nat) : list (list text) -> list (C * list Qc) -> Prop :=
| to_nil : table_of float_of read_first n [] []
| to_short ws rows cells : (length ws <= n)%nat -> table_of float_of read_first n rows cells -> table_of float_of read_first n (ws :: rows) cells
| to_full w ws rows c xs cells : (n <= length ws)%nat -> read_first w = Ok c ->
    Forall2 (fun t x => float_of t = Ok x) (firstn n ws) xs -> table_of float_of read_first n rows cells ->
    table_of float_of read_first n ((w :: ws) :: rows) ((c, xs) :: cells).
