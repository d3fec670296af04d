(** Independent vocabulary for C92: what the listing of the compounds says. *)
From Verif Require Import Prelude M_Stoichiometry M_Thermochem Spec_File Spec_Print.
Local Open Scope string_scope.
Local Open Scope list_scope.

(** Names with a comma and a blank between one and the next. *)
Inductive separated : list string -> text -> Prop :=
| sep_none : separated [] []
| sep_one n : separated [n] (text_of n)
| sep_more n m ns t : separated (m :: ns) t -> separated (n :: m :: ns) (text_of n ++ ","%char :: " "%char :: t).
(** A line that gives a compound and its phases. *)
Definition tells_compound (fo : string) (phs : list string) (l : text) : Prop :=
  exists t, separated phs t /\ l = text_of fo ++ ":"%char :: " "%char :: t.
(** Phase [ph] of compound [fo] is loaded. *)
Definition loaded (db : database) (fo ph : string) : Prop := exists c p, lookup fo db = Some c /\ lookup ph (tc_phases c) = Some p.
(** A dictionary: no key twice, in the database and in each of its compounds. *)
Definition dictionaries (db : database) : Prop := NoDup (map fst db) /\ forall fo c, lookup fo db = Some c -> NoDup (map fst (tc_phases c)).
(** Names that can be told apart in the listing: of one line, without comma
    and colon, and not empty. *)
Definition plain_name (n : string) : Prop := n <> "" /\ forall c, In c (text_of n) -> c <> ","%char /\ c <> ":"%char /\ c <> "010"%char /\ c <> "013"%char.
Definition plain_names (db : database) : Prop := forall fo c, lookup fo db = Some c -> plain_name fo /\ forall ph, In ph (map fst (tc_phases c)) -> plain_name ph.
(** The text is the listing of compounds [cs], with the phases each has. *)
Definition listing (db : database) (cs : list string) (t : text) : Prop :=
  exists ls, lines_are t (text_of "Compounds currently loaded:" :: ls) /\
    Forall2 (fun fo l => exists phs, tells_compound fo phs l /\ in_order phs /\ forall ph, In ph phs <-> loaded db fo ph) cs ls.
(** The text says that compound [fo] has phase [ph]. *)
Definition mentions (t : text) (fo ph : string) : Prop :=
  exists ls phs l, lines_are t ls /\ In l (tl ls) /\ Forall plain_name (fo :: phs) /\ tells_compound fo phs l /\ In ph phs.

(** A data file of the package: its name starts with Compound_ and ends with the extension. *)
Definition data_file (ext name : text) : Prop := exists formula, name = text_of "Compound_" ++ formula ++ ext.
(** [c] is what the last of the files for formula [fo] holds. *)
Definition last_of (read : text -> res tcompound) (ext : text) (files : list (text * text)) (fo : string) (c : tcompound) : Prop :=
  exists before name content after, files = before ++ (name, content) :: after /\ data_file ext name /\ read content = Ok c /\ tc_formula c = fo /\
    forall name' content' c', In (name', content') after -> data_file ext name' -> read content' = Ok c' -> tc_formula c' <> fo.
(** All data files can be read. *)
Definition readable (read : text -> res tcompound) (ext : text) (files : list (text * text)) : Prop :=
  forall name content, In (name, content) files -> data_file ext name -> exists c, read content = Ok c.
