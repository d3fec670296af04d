(** Independent vocabulary for C93 and C94: what a printed table shows. *)
From Verif Require Import Prelude M_Stoichiometry M_Tabulate Spec_Text Spec_Tables Spec_Print.
From Coq Require Import Reals.
Local Open Scope string_scope.
Local Open Scope list_scope.

(** * Columns *)
(** [laid_out ws cs t]: the text has fields of the widths [ws] with two blanks
    between them, and the cells [cs] stand in them with nothing but white space around. *)
Inductive laid_out : list nat -> list text -> text -> Prop :=
| lo_last w c f : length f = w -> core f c -> laid_out [w] [c] f
| lo_more w c f ws cs t : length f = w -> core f c -> laid_out ws cs t -> laid_out (w :: ws) (c :: cs) (f ++ " "%char :: " "%char :: t).
(** The same, where blanks at the end of the line are not written. *)
Definition in_columns (ws : list nat) (cs : list text) (l : text) : Prop := exists k, laid_out ws cs (l ++ repeat " "%char k).
(** A line of dashes under each column. *)
Inductive dashes : list nat -> text -> Prop :=
| da_last w : (0 < w)%nat -> dashes [w] (repeat "-"%char w)
| da_more w ws t : (0 < w)%nat -> dashes ws t -> dashes (w :: ws) (repeat "-"%char w ++ " "%char :: " "%char :: t).
(** [shows_table t headers cells]: the lines of the text are the headers, dashes, and
    a line for each row of cells, all in the columns that the dashes mark. *)
Definition shows_table (t : text) (headers : list text) (cells : list (list text)) : Prop :=
  exists ws h d ls, lines_are (t ++ ["010"%char]) (h :: d :: ls) /\ dashes ws d /\ in_columns ws headers h /\ Forall2 (in_columns ws) cells ls.
(** The only white space in a text are blanks. *)
Definition tidy (t : text) : Prop := forall c, In c t -> is_space c = true -> c = " "%char.

(** * Numbers *)
(** [t] is the decimal numeral, perhaps with an exponent, of the number [v]. *)
Definition denotes (t : text) (neg : bool) (v : R) : Prop :=
  exists ip fp ex z, t = (if neg then ["-"%char] else []) ++ ip ++ match fp with [] => [] | _ => "."%char :: fp end ++ ex /\
    ip <> [] /\ Forall (fun c => is_digit c = true) (ip ++ fp) /\ v = (IZR (value (ip ++ fp)) * powerRZ 10 (z - Z.of_nat (length fp)))%R /\
    (ex = [] /\ z = 0%Z \/ exists s k, ex = "e"%char :: s :: k /\ s = (if (z <? 0)%Z then "-"%char else "+"%char) /\ k <> [] /\ Forall (fun c => is_digit c = true) k /\ value k = Z.abs z).
(** [t] shows a number of the size [x] to six significant digits. *)
Definition shows6 (neg : bool) (x : R) (t : text) : Prop :=
  x = 0%R /\ denotes t neg 0 \/
  (0 < x)%R /\ exists m e, (10 ^ 5 <= m < 10 ^ 6)%Z /\ denotes t neg (IZR m * powerRZ 10 (e - 5)) /\ (Rabs (x - IZR m * powerRZ 10 (e - 5)) <= / 2 * powerRZ 10 (e - 5))%R.
(** * How int() and float() read a text (GFin, GInf and GNaN are the Python floats)
    A text that float() takes has a digit, or is an infinity or not a number; what int()
    takes, float() takes too; and an amount in hundredths with two decimals is no int and
    is read as the nearest float, give or take. *)
Definition reads_numbers (int_of : text -> bool) (float_of : text -> option pyfloat) : Prop :=
  (forall t, float_of t <> None -> exists c, In c t /\ (is_digit c = true \/ In c ["i"; "I"; "n"; "N"]%char)) /\
  (forall t, int_of t = true -> float_of t <> None) /\
  (forall t neg n, (0 <= n < 10 ^ 300)%Z -> amount_text neg n t -> int_of t = false /\
     exists s, float_of t = Some (GFin neg s) /\ (0 <= s)%R /\ (Rabs (s - IZR n / 100) <= powerRZ 2 (-53) * (IZR n / 100))%R).
(** [a] is the text of an amount of [n] hundredths as it appears in a column of
    amounts: six digits of the float it is read as, and the amount itself if it is less
    than ten thousand. *)
Definition amount_shown (neg : bool) (n : Z) (a : text) : Prop :=
  (exists x, (Rabs (x - IZR n / 100) <= powerRZ 2 (-53) * (IZR n / 100))%R /\ shows6 neg x a) /\
  ((n < 10 ^ 6)%Z -> denotes a neg (IZR n / 100)).

(** * Numbers that stand under each other *)
(** Where column [j] begins. *)
Definition start (ws : list nat) (j : nat) : nat := fold_right (fun w n => w + 2 + n)%nat 0%nat (firstn j ws).
(** [stands_at ws j p c l]: the number [c] stands in column [j] of the line [l], and its
    whole part - what comes before a point or an exponent - ends at the place [p]. *)
Definition stands_at (ws : list nat) (j p : nat) (c l : text) : Prop :=
  exists a w f r, c = w ++ f /\ l = a ++ c ++ r /\ p = length (a ++ w) /\
    ~ In "."%char w /\ ~ In "e"%char w /\ (f = [] \/ exists u, f = "."%char :: u \/ f = "e"%char :: u) /\
    (start ws j <= length a)%nat /\ (length (a ++ c) <= start ws j + nth j ws 0)%nat.
(** float() takes every numeral and gives no float of a negative size; int() takes no
    text with a point or an exponent. *)
Definition reads_numerals (int_of : text -> bool) (float_of : text -> option pyfloat) : Prop :=
  (forall t neg v, denotes t neg v -> float_of t <> None) /\
  (forall t neg s, float_of t = Some (GFin neg s) -> (0 <= s)%R) /\
  (forall t, int_of t = true -> ~ In "."%char t /\ ~ In "e"%char t).
