(** Independent vocabulary for C99: what a LaTeX table shows. *)
From Verif Require Import Prelude M_Stoichiometry Spec_Text Spec_Tables Spec_Print.
Local Open Scope string_scope.
Local Open Scope list_scope.

(** The characters that do not stand for themselves in a LaTeX text, or not in every
    font. *)
Definition special : list ascii := ["&"; "%"; "$"; "#"; "_"; "{"; "}"; "~"; "^"; "\"; "<"; ">"]%char.
(** [tex_shows s t]: LaTeX sets the source [s] as the characters [t]. *)
Inductive tex_shows : text -> text -> Prop :=
| ts_nil : tex_shows [] []
| ts_plain c s t : ~ In c special -> tex_shows s t -> tex_shows (c :: s) (c :: t)
| ts_escaped c s t : In c ["&"; "%"; "$"; "#"; "_"; "{"; "}"]%char -> tex_shows s t -> tex_shows ("\"%char :: c :: s) (c :: t)
| ts_accent s t : tex_shows s t -> tex_shows (text_of "\^{}" ++ s) ("^"%char :: t)
| ts_tilde s t : tex_shows s t -> tex_shows (text_of "\textasciitilde{}" ++ s) ("~"%char :: t)
| ts_backslash s t : tex_shows s t -> tex_shows (text_of "\textbackslash{}" ++ s) ("\"%char :: t)
| ts_less s t : tex_shows s t -> tex_shows (text_of "\ensuremath{<}" ++ s) ("<"%char :: t)
| ts_greater s t : tex_shows s t -> tex_shows (text_of "\ensuremath{>}" ++ s) (">"%char :: t).
(** A row of a tabular: cells with ampersands between them and two backslashes at the
    end; LaTeX ignores the blanks around a cell. *)
Inductive tex_row : list text -> text -> Prop :=
| tr_last s t c : tex_shows s t -> core t c -> tex_row [c] (s ++ text_of "\\")
| tr_more s t c cs r : tex_shows s t -> core t c -> tex_row cs r -> tex_row (c :: cs) (s ++ "&"%char :: r).
(** [tex_table letters headers cells t]: the text is a tabular whose columns are set flush
    left (l) or right (r) as the letters say, with a row of headers between rules, and a
    row for each row of cells. *)
Definition tex_table (letters : list ascii) (headers : list text) (cells : list (list text)) (t : text) : Prop :=
  exists h ls, lines_are (t ++ ["010"%char]) ((text_of "\begin{tabular}{" ++ letters ++ ["}"%char]) :: text_of "\hline" :: h :: text_of "\hline" :: ls ++ [text_of "\hline"; text_of "\end{tabular}"]) /\
    tex_row headers h /\ Forall2 tex_row cells ls /\ length letters = length headers /\ (forall l, In l letters -> l = "l"%char \/ l = "r"%char).
