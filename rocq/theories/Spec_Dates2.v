(** Independent vocabulary for C73: how a date is written. *)
From Verif Require Import Prelude M_Stoichiometry.
Local Open Scope list_scope.

(** The digit for 0 <= n <= 9. *)
Definition dg (n : Z) : ascii := ascii_of_nat (48 + Z.to_nat n).
Definition year_text (y : Z) (t : text) : Prop := 0 <= y <= 9999 /\ t = [dg (y / 1000); dg (y / 100 mod 10); dg (y / 10 mod 10); dg (y mod 10)].
(** One or two digits. *)
Definition short_text (n : Z) (t : text) : Prop := t = [dg (n / 10); dg (n mod 10)] \/ (n <= 9 /\ t = [dg n]).
Definition month_text (m : Z) (t : text) : Prop := 1 <= m <= 12 /\ short_text m t.
(** A day may also have a space for its first digit. *)
Definition day_text (d : Z) (t : text) : Prop := 1 <= d <= 31 /\ (short_text d t \/ (d <= 9 /\ t = [" "%char; dg d])).
Definition date_text (y m d : Z) (t : text) : Prop :=
  exists ty tm td, year_text y ty /\ month_text m tm /\ day_text d td /\ t = ty ++ "-"%char :: tm ++ "-"%char :: td.
(** What date.isoformat() gives. *)
Definition iso (y m d : Z) : text :=
  [dg (y / 1000); dg (y / 100 mod 10); dg (y / 10 mod 10); dg (y mod 10); "-"%char; dg (m / 10); dg (m mod 10); "-"%char; dg (d / 10); dg (d mod 10)].
