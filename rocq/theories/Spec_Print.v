(** Independent vocabulary for C90: what printed materials, packages and streams
    show. *)
From Verif Require Import Prelude M_Stoichiometry Spec_Text Spec_File Spec_Tables.
From Coq Require Import Reals.
Local Open Scope string_scope.
Local Open Scope list_scope.

(** A text that fits into a column [n] wide with a blank after it, and has no
    white space. *)
Definition cell (n : nat) (t : text) : Prop := t <> [] /\ (length t < n)%nat /\ forall c, In c t -> is_space c = false.
(** A text of one line. *)
Definition one_line (t : text) : Prop := forall c, In c t -> c <> "010"%char /\ c <> "013"%char.
(** The lines of a text: each ends with a line feed. *)
Inductive lines_are : text -> list text -> Prop :=
| la_nil : lines_are [] []
| la_line l t ls : one_line l -> lines_are t ls -> lines_are (l ++ "010"%char :: t) (l :: ls).
(** Every line is as described. *)
Definition reads (descriptions : list (text -> Prop)) (t : text) : Prop := exists ls, lines_are t ls /\ Forall2 (fun (P : text -> Prop) l => P l) descriptions ls.

(** * Kinds of lines *)
(** Words, however they are spaced. *)
Definition words_are (ws : list text) (l : text) : Prop := says l ws.
(** A line made of one character. *)
Definition ruled (c : ascii) (l : text) : Prop := l <> [] /\ forall d, In d l -> d = c.
(** A label, blanks, and then a text that may have blanks itself. *)
Definition labelled (label t : text) (l : text) : Prop := exists k, (0 < k)%nat /\ l = label ++ repeat " "%char k ++ t.

(** * Numbers in scientific notation *)
(** [t] is the number with the sign [neg], the nine digits of [m] and the exponent [e]:
    one digit, a point, eight digits, the letter e, a sign and at least two digits. *)
Definition scientific (neg : bool) (m e : Z) (t : text) : Prop :=
  exists d ds s k, t = (if neg then ["-"%char] else []) ++ d :: "."%char :: ds ++ "e"%char :: s :: k /\
    length ds = 8%nat /\ Forall (fun c => is_digit c = true) (d :: ds) /\ value (d :: ds) = m /\
    s = (if (e <? 0)%Z then "-"%char else "+"%char) /\ (2 <= length k)%nat /\ Forall (fun c => is_digit c = true) k /\ value k = Z.abs e.
(** [t] shows [x] to nine significant digits. *)
Definition shows9 (x : R) (t : text) : Prop :=
  x = 0%R /\ scientific false 0 0 t \/
  x <> 0%R /\ exists m e, scientific (if Rlt_dec x 0 then true else false) m e t /\ (10 ^ 8 <= m < 10 ^ 9)%Z /\
    (Rabs (Rabs x - IZR m * powerRZ 10 (e - 8)) <= / 2 * powerRZ 10 (e - 8))%R.
(** A line with a label, a number and a unit. *)
Definition quantity_line (label : list text) (x : R) (unit_ : text) (l : text) : Prop := exists t, shows9 x t /\ says l (label ++ [t; unit_]).
(** The part that [a] is of [total]; nothing has a part of nothing. *)
Definition fraction (a total : R) : R := if Req_EM_T total 0 then 0%R else (a / total)%R.
