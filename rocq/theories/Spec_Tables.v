(** Independent vocabulary for C75: printed amounts and the balance sheet's
    layout. *)
From Verif Require Import Prelude M_Stoichiometry.
From Coq Require Import Qabs.
Local Open Scope Z_scope.
Local Open Scope list_scope.

(** What a text of digits says. *)
Definition value (t : text) : Z := fold_left (fun a c => 10 * a + (code c - 48)) t 0.
(** [t] is the usual decimal numeral of [n]. *)
Definition numeral (n : Z) (t : text) : Prop :=
  t <> [] /\ Forall (fun c => is_digit c = true) t /\ value t = n /\ (forall u, t = "0"%char :: u -> u = []).
(** [t] is [n] hundredths written with two decimals, with a minus sign if [neg]. *)
Definition amount_text (neg : bool) (n : Z) (t : text) : Prop :=
  exists whole c d, t = (if neg then ["-"%char] else []) ++ whole ++ ["."%char; c; d] /\ numeral (n / 100) whole /\
    is_digit c = true /\ is_digit d = true /\ value [c; d] = n mod 100.
(** [n] is the whole number nearest to [q], the even one if two are. *)
Definition nearest (n : Z) (q : Q) : Prop := (Qabs (q - inject_Z n) <= 1 # 2)%Q /\ ((Qabs (q - inject_Z n) == 1 # 2)%Q -> Z.even n = true).
(** [t] shows the amount [x] to the nearest hundredth. *)
Definition shows (x : Qc) (t : text) : Prop := exists n, 0 <= n /\ nearest n (100 * Qabs x) /\ amount_text (if Qlt_le_dec x 0 then true else false) n t.

(** A list in two parts side by side, the shorter one filled up with blanks. *)
Definition beside {A} (blank_l blank_r : list A) (l r : list (list A)) : list (list A) :=
  map (fun i => nth i l blank_l ++ nth i r blank_r) (seq 0 (Nat.max (length l) (length r))).

(** The lines of a list of amounts. *)
Definition entry (kv : string * Qc) (r : list text) (layout : text -> text -> list text) : Prop := exists a, shows (snd kv) a /\ r = layout (text_of (fst kv)) a.
Definition lines (layout : text -> text -> list text) (d : list (string * Qc)) (rows : list (list text)) : Prop := Forall2 (fun kv r => entry kv r layout) d rows.
