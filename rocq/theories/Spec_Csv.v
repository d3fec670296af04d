(** Independent vocabulary for C71 and C72: what a csv file says (RFC 4180, with
    either line end, and with or without one at the end of the file). *)
From Verif Require Import Prelude M_Stoichiometry.
Local Open Scope list_scope.

(** [doubled f t]: [t] is [f] with every double quote written twice. *)
Inductive doubled : text -> text -> Prop :=
| db_nil : doubled [] []
| db_quote f t : doubled f t -> doubled (""""%char :: f) (""""%char :: """"%char :: t)
| db_other c f t : c <> """"%char -> doubled f t -> doubled (c :: f) (c :: t).
(** A field may be written bare if it has no comma, quote or line end. *)
Definition bare (f : text) : Prop := forall c, In c f -> c <> ","%char /\ c <> """"%char /\ c <> "010"%char /\ c <> "013"%char.
Inductive field_text : text -> text -> Prop :=
| ft_bare f : bare f -> field_text f f
| ft_quoted f t : doubled f t -> field_text f (""""%char :: t ++ [""""%char]).
Inductive row_text : list text -> text -> Prop :=
| rt_one f t : field_text f t -> row_text [f] t
| rt_more f t r u : field_text f t -> row_text r u -> row_text (f :: r) (t ++ ","%char :: u).
(** An empty line is a row without fields. *)
Definition line_text (r : list text) (t : text) : Prop := (r = [] /\ t = []) \/ (row_text r t /\ t <> []).
Inductive file_text : list (list text) -> text -> Prop :=
| fx_nil : file_text [] []
| fx_last r t : row_text r t -> t <> [] -> file_text [r] t
| fx_line r t e rows u : line_text r t -> e = ["010"%char] \/ e = ["013"%char; "010"%char] -> file_text rows u -> file_text (r :: rows) (t ++ e ++ u).
