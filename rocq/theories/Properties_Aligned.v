(** C94: numbers in a drawn table stand under each other, and what they show. *)
From Verif Require Import Prelude M_Stoichiometry M_Text M_Csv M_Tables M_Print M_Json M_Tabulate Spec_Text Spec_Tables Spec_Print Spec_Tabulate P_Text P_File P_Tables P_Print P_Print3 P_General P_Tabulate P_Draw P_Draw2 P_Draw4 P_Draw5.
From Coq Require Import Reals Lra Lia.
Local Open Scope string_scope.
Local Open Scope list_scope.

(** In every table with rows as long as its header, the whole parts of the numbers in a
    column of numbers end at the same place in all lines, inside the column that the
    dashes mark. *)
Theorem C94_aligned : forall int_of float_of headers rows j, reads_numbers int_of float_of -> reads_numerals int_of float_of ->
  headers <> [] -> Forall tidy headers -> Forall (fun r => length r = length headers /\ Forall tidy r) rows -> (j < length headers)%nat ->
  (forall r, In r rows -> float_of (nth j r []) <> None /\ strip (nth j r []) = nth j r []) ->
  exists ws h d ls cells p, lines_are (tabulate int_of float_of (headers :: rows) ++ ["010"%char]) (h :: d :: ls) /\ dashes ws d /\ in_columns ws (map strip headers) h /\ Forall2 (in_columns ws) cells ls /\
    length cells = length rows /\ Forall2 (fun c l => stands_at ws j p (nth j c []) l) cells ls.
Proof.
  intros int_of float_of headers rows j RN RD N TH TR L NUM. destruct (tabulate_parts int_of float_of headers rows N TH TR) as (h & d & A & B & C & D). destruct RN as (R1 & R2 & _).
  destruct (numbers_stand int_of float_of RD headers rows j) as [p P]; auto.
  { intros t F ->. destruct (R1 [] F) as (c & [] & _). }
  exists (map (fun c => snd (fst c)) (columns_of int_of float_of headers rows)), h, d, (lines_of int_of float_of headers rows), (map (shown_row int_of float_of rows) rows), p. split; [exact A|]. split; [exact B|]. split; [exact C|]. split; [exact D|]. split; [apply map_length|exact P].
Qed.
Print Assumptions C94_aligned.

(** A column of whole numbers shows them as they are; a column of numbers with one that
    is not whole shows six digits of each. *)
Theorem C94_numbers : forall int_of float_of headers rows, reads_numbers int_of float_of -> reads_numerals int_of float_of ->
  headers <> [] -> Forall tidy headers -> Forall (fun r => length r = length headers /\ Forall tidy r) rows ->
  exists cells, shows_table (tabulate int_of float_of (headers :: rows)) (map strip headers) cells /\
    Forall2 (fun r c => length c = length r /\ forall j, (j < length r)%nat ->
      ((forall r', In r' rows -> int_of (nth j r' []) = true) -> nth j c [] = strip (nth j r [])) /\
      ((forall r', In r' rows -> float_of (nth j r' []) <> None) -> (exists r', In r' rows /\ int_of (nth j r' []) = false) ->
        forall neg s, float_of (nth j r []) = Some (GFin neg s) -> shows6 neg s (nth j c []))) rows cells.
Proof.
  intros int_of float_of headers rows RN RD N TH TR. destruct RN as (_ & RI & _). destruct RD as (_ & RP & _). exists (map (shown_row int_of float_of rows) rows). split; [now apply tabulate_shows|].
  apply forall2_map. intros r IR. split; [unfold shown_row; rewrite map_length, combine_length, seq_length; unfold row, text; lia|]. intros j J. rewrite nth_numbered by exact J.
  assert (CO : forall P : text -> Prop, (forall r', In r' rows -> P (nth j r' [])) -> forall s, In s (column rows j) -> P s) by (intros P H s I; unfold column in I; apply in_map_iff in I; destruct I as (r' & <- & I); auto).
  split.
  - intros AI. destruct (number_column int_of float_of (column rows j) RI) as [[-> _]|[_ (s & I & F)]]; [apply (CO (fun s => float_of s <> None)); intros r' I; apply RI; auto|reflexivity|]. exfalso. pose proof (CO (fun s => int_of s = true) AI s I) as K. cbn beta in K. congruence.
  - intros AF (r' & I' & F') neg s FS. destruct (number_column int_of float_of (column rows j) RI) as [[_ X]|[-> _]].
    + apply (CO (fun s => float_of s <> None)). auto.
    + exfalso. assert (K : In (nth j r' []) (column rows j)) by (unfold column; apply in_map_iff; eauto). specialize (X _ K). unfold row, text in *. congruence.
    + unfold format_cell. cbn [Z.eqb Pos.eqb]. unfold row, text in *. rewrite FS. rewrite no_space_strip by apply format_g_no_space. apply format_g_shows. eauto.
Qed.
Print Assumptions C94_numbers.

(** There is a reader of numbers of both kinds, and a table with numbers with and without
    decimals. *)
Example C94_aligned_case : exists int_of float_of, reads_numbers int_of float_of /\ reads_numerals int_of float_of /\
  (forall r, In r [[text_of "12.5"; text_of "7"]; [text_of "7"; text_of "12"]; [text_of "0.25"; text_of "-3"]] -> float_of (nth 0 r []) <> None /\ strip (nth 0 r []) = nth 0 r []) /\
  int_of (text_of "12.5") = false /\ int_of (text_of "7") = true /\ int_of (text_of "12") = true /\ int_of (text_of "-3") = true.
Proof.
  exists read_int, read_numeral. split; [exact numbers_ok|]. split; [exact numerals_ok|]. split; [|repeat split].
  assert (G : forall t neg ip fp, t = (if neg : bool then ["-"%char] else []) ++ ip ++ match fp with [] => [] | _ => "."%char :: fp end -> ip <> [] -> Forall (fun c => is_digit c = true) (ip ++ fp) -> read_numeral t <> None).
  { intros t neg ip fp E NI D. rewrite (read_numeral_eq t neg (IZR (value (ip ++ fp)) * powerRZ 10 (0 - Z.of_nat (length fp)))); [discriminate|]. exists ip, fp, [], 0%Z. rewrite app_nil_r. repeat (split; [now auto|]). left. auto. }
  intros r [<-|[<-|[<-|[]]]]; (split; [|reflexivity]); cbn [nth].
  - apply (G _ false (text_of "12") (text_of "5")); [reflexivity|discriminate|repeat constructor].
  - apply (G _ false (text_of "7") []); [reflexivity|discriminate|repeat constructor].
  - apply (G _ false (text_of "0") (text_of "25")); [reflexivity|discriminate|repeat constructor].
Qed.
