(** C88: files of objects. *)
From Verif Require Import Prelude M_Stoichiometry M_Thermochem M_Text M_Factsage M_Json M_JsonFiles Spec_Json Spec_JsonFiles P_Json P_Json2 P_Json3 P_Json4 P_JsonFiles P_JsonFiles2.
From Coq Require Import Permutation Reals.
Local Open Scope string_scope.
Local Open Scope list_scope.

(** An object that is written and read has the same data, and is written as the
    same text again. *)
Theorem C88_object_reads_back : forall repr float_of o, plain (faithful repr float_of) o ->
  exists o', object_read float_of (object_str repr o) = Ok o' /\ same o o' /\ object_str repr o' = object_str repr o.
Proof.
  intros repr float_of o P. exists (osort o). split; [now apply read_str|]. assert (S := osort_same repr float_of o P). split; auto.
  unfold object_str. symmetry. now apply (same_text repr float_of).
Qed.
Print Assumptions C88_object_reads_back.
(** The text (and with it the hash) depends on the data only, and determines it. *)
Theorem C88_text_is_the_data : forall repr float_of o o', plain (faithful repr float_of) o -> plain (faithful repr float_of) o' ->
  (same o o' -> object_str repr o = object_str repr o') /\
  (object_str repr o = object_str repr o' -> exists d, same o d /\ same o' d).
Proof.
  intros repr float_of o o' P P'. split.
  - intros S. unfold object_str. now apply (same_text repr float_of).
  - intros E. exists (osort o). split; [now apply (osort_same repr float_of)|].
    assert (R := read_str repr float_of o P). rewrite E, (read_str repr float_of o' P') in R. injection R as R. rewrite <- R. now apply (osort_same repr float_of).
Qed.
Print Assumptions C88_text_is_the_data.
(** A file that was not written to its end is never read as something else. *)
Theorem C88_cut_off : forall repr float_of c a p q, plain (faithful repr float_of) (OInst c a) ->
  object_str repr (OInst c a) = p ++ q -> q <> [] -> object_read float_of p = Err ValueError.
Proof.
  intros repr float_of c a p q P E N. unfold object_read.
  assert (O : opens (dumps 0 (flatten repr (OInst c a)))) by (cbn; tauto).
  now rewrite (cut_off _ p q (flat_good repr float_of _ P) O E N).
Qed.
Print Assumptions C88_cut_off.

(** A compound read from its file gives the same heat capacity, enthalpy, entropy
    and Gibbs energy for every phase and temperature. *)
Theorem C88_compound_reads_back : forall repr float_of c, compound_ok repr float_of c ->
  exists o t t', read_compound float_of (object_str repr (compound_obj c)) = Ok o /\ object_str repr o = object_str repr (compound_obj c) /\
    compound_data float_of (compound_obj c) = Ok t /\ compound_data float_of o = Ok t' /\ same_thermo t t'.
Proof.
  intros repr float_of c O. destruct (read_back repr float_of c O) as (o & R & S & t & T & _ & Sm).
  exists o, (cmp_data float_of c), t. split; auto. split; auto. split; [now apply (compound_data_self repr)|auto].
Qed.
Print Assumptions C88_compound_reads_back.
(** A directory: whatever order the files are listed in, the functions of the
    module give for every compound, temperature and mass what they gave before. *)
Theorem C88_directory : forall repr float_of cs dir files, Forall (compound_ok repr float_of) cs -> NoDup (map ac_formula cs) ->
  foldM (write_compound repr) (map compound_obj cs) [] = Ok dir -> Permutation files dir ->
  exists db0 db, mapM (fun c => do t <- compound_data float_of (compound_obj c); Ok (tc_formula t, t)) cs = Ok db0 /\ load_data_auxi float_of files = Ok db /\
    forall f, In f [phase_Cp; phase_H; phase_S; phase_G] -> forall s T mass, thermo f db s T mass = thermo f db0 s T mass.
Proof. exact directory. Qed.
Print Assumptions C88_directory.
(** write followed by read fails for the classes with a __str__ of their own. *)
Theorem C88_phase_refuted : forall repr float_of record_str p, object_read float_of (phase_str repr record_str p) = Err ValueError.
Proof.
  intros repr float_of record_str p. unfold object_read.
  assert (H : forall n s, scan (S n) (text_of "PHASE: " ++ s) = Err ValueError) by reflexivity.
  assert (E : exists s, phase_str repr record_str p = tab :: text_of "PHASE: " ++ s) by (eexists; unfold phase_str; cbn [app]; rewrite <- !app_assoc; reflexivity).
  destruct E as [s ->]. unfold loads. change (skip_ws (tab :: text_of "PHASE: " ++ s)) with (text_of "PHASE: " ++ s).
  change (2 * length (text_of "PHASE: " ++ s))%nat with (S (pred (2 * length (text_of "PHASE: " ++ s)))). now rewrite H.
Qed.
Print Assumptions C88_phase_refuted.

(** Printable ASCII characters other than the quote and the backslash are written
    as they are, and escapes are read in either case. *)
Theorem C88_printable_text : forall repr t, Forall (fun c => (32 <= nat_of_ascii c <= 126)%nat /\ c <> "034"%char /\ c <> "092"%char) t ->
  object_str repr (OStr t) = "034"%char :: t ++ ["034"%char].
Proof.
  intros repr t H. unfold object_str. cbn [flatten dumps]. unfold quote. f_equal. f_equal. induction H as [|c t (B & Q & S) H IH]; cbn [flat_map]; [reflexivity|]. rewrite IH. change (c :: t) with ([c] ++ t). f_equal. unfold escape.
  destruct (Ascii.eqb_spec c dq) as [E|_]; [contradiction|]. destruct (Ascii.eqb_spec c bs) as [E|_]; [contradiction|].
  repeat match goal with |- context [(nat_of_ascii c =? ?n)%nat] => destruct (Nat.eqb_spec (nat_of_ascii c) n); [lia|] end.
  destruct (Nat.leb_spec 32 (nat_of_ascii c)); [|lia]. destruct (Nat.leb_spec (nat_of_ascii c) 126); [reflexivity|lia].
Qed.
Print Assumptions C88_printable_text.
Definition hex_char (upper : bool) (n : nat) : ascii := ascii_of_nat (if (n <? 10)%nat then 48 + n else if upper then 55 + n else 87 + n).
Theorem C88_escapes : forall float_of u v x y, (x < 16)%nat -> (y < 16)%nat ->
  object_read float_of ("034"%char :: "092"%char :: text_of "u00" ++ [hex_char u x; hex_char v y; "034"%char]) = Ok (OStr [ascii_of_nat (16 * x + y)]).
Proof.
  intros float_of u v x y X Y. assert (H : forall u n, (n < 16)%nat -> hex_value (hex_char u n) = Some n).
  { intros w n L. do 16 (destruct n as [|n]; [destruct w; reflexivity|]). lia. }
  pose proof (H u x X) as Hx. pose proof (H v y Y) as Hy. revert Hx Hy. generalize (hex_char u x) as a. generalize (hex_char v y) as b. intros b a Hx Hy. clear -Hx Hy.
  unfold object_read, loads. change (skip_ws ("034"%char :: ?r)) with ("034"%char :: r). cbv zeta. set (w := "034"%char :: "092"%char :: _). change w with ("034"%char :: "092"%char :: text_of "u00" ++ [a; b; "034"%char]). change (2 * length _)%nat with (S 15).
  change (scan (S 15) _) with (do q <- scanstring ("092"%char :: text_of "u00" ++ [a; b; "034"%char]); Ok (JStr (fst q), snd q)).
  assert (E : scanstring ("092"%char :: text_of "u00" ++ [a; b; "034"%char]) = Ok ([ascii_of_nat (16 * x + y)], [])); [|rewrite E; reflexivity].
  change (scanstring ("092"%char :: text_of "u00" ++ [a; b; "034"%char])) with
    (match Some 0%nat, Some 0%nat, hex_value a, hex_value b with Some 0%nat, Some 0%nat, Some x, Some y => do r <- scanstring ["034"%char]; Ok (ascii_of_nat (16 * x + y) :: fst r, snd r) | _, _, _, _ => Err ValueError end).
  rewrite Hx, Hy. reflexivity.
Qed.
Print Assumptions C88_escapes.
(** Files with other names are left alone; a file that holds no compound stops the loading. *)
Theorem C88_other_files : forall float_of a name s b, (forall r, name <> text_of "Compound_" ++ r ++ text_of ".json") ->
  load_data_auxi float_of (a ++ (name, s) :: b) = load_data_auxi float_of (a ++ b).
Proof.
  intros float_of a name s b N. unfold load_data_auxi. rewrite !filter_app. cbn [filter fst]. destruct (is_compound_file name) eqn:E; [|reflexivity]. exfalso. unfold is_compound_file in E.
  destruct (word (text_of "Compound_") name) as [r|] eqn:W; [|discriminate]. apply word_app in W. unfold starts in E. destruct (word (rev (text_of ".json")) (rev r)) as [r'|] eqn:V; [|discriminate]. apply word_app in V.
  apply (N (rev r')). rewrite W. f_equal. rewrite <- (rev_involutive r), V, rev_app_distr, rev_involutive. reflexivity.
Qed.
Print Assumptions C88_other_files.
Theorem C88_no_compound : forall float_of name r s o b, name = text_of "Compound_" ++ r ++ text_of ".json" -> object_read float_of s = Ok o ->
  match o with OInst _ a => ~ In (text_of "_phases") (map fst a) | _ => True end -> load_data_auxi float_of ((name, s) :: b) = Err AttributeError.
Proof.
  intros float_of name r s o b N O H. assert (E : is_compound_file name = true).
  { subst name. unfold is_compound_file. rewrite word_self. unfold starts. rewrite rev_app_distr, word_self. reflexivity. }
  unfold load_data_auxi. cbn [filter fst]. rewrite E. cbn [foldM snd]. unfold read_compound. rewrite O. cbn [bind]. assert (G : get_attr o "_phases" = Err AttributeError); [|unfold init_compound; rewrite G; reflexivity].
  unfold get_attr. destruct o as [| | | | | |c a|]; auto. rewrite dget_absent; auto.
Qed.
Print Assumptions C88_no_compound.

(** * Silver, as in data/rao/Compound_Ag.json *)
Definition q (a : Z) (b : positive) : Qc := Q2Qc (a # b).
Definition table : list (string * Qc) :=
  [("8936.0", q 8936 1); ("47.187", q 47187 1000); ("298.15", q 29815 100); ("3000.0", q 3000 1); ("30.543", q 30543 1000); ("0.0", q 0 1);
   ("42.55", q 4255 100); ("21.297", q 21297 1000); ("0.008535", q 8535 1000000); ("150600.0", q 150600 1); ("1.0", q 1 1); ("-2.0", q (-2) 1); ("0.1078682", q 1078682 10000000)].
Definition repr_ (x : Qc) : text := match find (fun e => Qc_eq_bool x (snd e)) table with Some e => text_of (fst e) | None => [] end.
Definition float_ (t : text) : res Qc := match find (fun e => String.eqb (str_of t) (fst e)) table with Some e => Ok (snd e) | None => Err ValueError end.
Definition silver : acompound :=
  mkac (text_of "Ag") (q 1078682 10000000)
    [(text_of "S", mkap (text_of "S") (text_of "S") (q 29815 100) (q 0 1) (q 4255 100)
        [(text_of "3000.0", mkar (q 29815 100) (q 3000 1) [q 21297 1000; q 8535 1000000; q 150600 1] [q 0 1; q 1 1; q (-2) 1])]);
     (text_of "L", mkap (text_of "L") (text_of "L") (q 29815 100) (q 8936 1) (q 47187 1000)
        [(text_of "3000.0", mkar (q 29815 100) (q 3000 1) [q 30543 1000] [q 0 1])])]
    (text_of "rao1985").
Definition ag_file : string := "{
    ""_phases"": {
        ""L"": {
            ""DHref"": 8936.0,
            ""Sref"": 47.187,
            ""Tref"": 298.15,
            ""_Cp_records"": {
                ""3000.0"": {
                    ""Tmax"": 3000.0,
                    ""Tmin"": 298.15,
                    ""_coefficients"": [
                        30.543
                    ],
                    ""_exponents"": [
                        0.0
                    ],
                    ""py/object"": ""auxi.tools.chemistry.thermochemistry.CpRecord""
                }
            },
            ""name"": ""L"",
            ""py/object"": ""auxi.tools.chemistry.thermochemistry.Phase"",
            ""symbol"": ""L""
        },
        ""S"": {
            ""DHref"": 0.0,
            ""Sref"": 42.55,
            ""Tref"": 298.15,
            ""_Cp_records"": {
                ""3000.0"": {
                    ""Tmax"": 3000.0,
                    ""Tmin"": 298.15,
                    ""_coefficients"": [
                        21.297,
                        0.008535,
                        150600.0
                    ],
                    ""_exponents"": [
                        0.0,
                        1.0,
                        -2.0
                    ],
                    ""py/object"": ""auxi.tools.chemistry.thermochemistry.CpRecord""
                }
            },
            ""name"": ""S"",
            ""py/object"": ""auxi.tools.chemistry.thermochemistry.Phase"",
            ""symbol"": ""S""
        }
    },
    ""formula"": ""Ag"",
    ""molar_mass"": 0.1078682,
    ""py/object"": ""auxi.tools.chemistry.thermochemistry.Compound"",
    ""reference"": ""rao1985""
}".

Lemma table_ok : Forall (fun e => faithful repr_ float_ (snd e)) table.
Proof.
  assert (L : forall t, scan_number t = Ok (t, []) -> literal t) by (intros t H; exact (number_literal t t [] H)).
  unfold table. repeat (constructor; [split; [apply L; vm_compute; reflexivity|vm_compute; f_equal; apply Qc_is_canon; reflexivity]|]). constructor.
Qed.
Lemma table_in x : existsb (fun e => Qc_eq_bool x (snd e)) table = true -> faithful repr_ float_ x.
Proof. intros H. apply existsb_exists in H as (e & I & E). apply Qc_eq_bool_correct in E. subst. revert e I. apply Forall_forall, table_ok. Qed.
Example C88_silver : compound_ok repr_ float_ silver /\ object_str repr_ (compound_obj silver) = text_of ag_file.
Proof.
  split; [|vm_compute; reflexivity]. 
  assert (P : Forall (fun kp => phase_ok repr_ float_ (snd kp)) (ac_phases silver)).
  { repeat constructor; try (apply table_in; vm_compute; reflexivity); try (cbn; intuition discriminate); try (exists [q 3000 1]; split; [vm_compute; do 2 f_equal; apply Qc_is_canon; reflexivity|repeat constructor; auto]). }
  constructor; auto; [apply table_in; vm_compute; reflexivity|]. split; [repeat constructor; cbn; intuition discriminate|cbn; intuition discriminate].
Qed.
