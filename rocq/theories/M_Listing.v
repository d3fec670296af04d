(** auxi/tools/chemistry/thermochemistry.py: the listing of the loaded compounds,
    and the references of the data files. *)
From Verif Require Import Prelude M_Stoichiometry M_Chem M_Thermochem M_Json M_Csv M_Factsage M_JsonFiles.
Local Open Scope string_scope.
Local Open Scope list_scope.

(** thermochemistry.py:457-464, Compound.get_phase_list.  Sorting strings is
    [M_Chem.sorted] (by characters). *)
Definition get_phase_list (c : tcompound) : list string := M_Chem.sorted (map fst (tc_phases c)).

(** The end of a line that print writes. *)
Definition line_feed : text := ["010"%char].
(** thermochemistry.py:772-773: the line of one compound of the dictionary. *)
Definition compound_line (db : database) (compound : string) : res text :=
  match M_Thermochem.lookup compound db with
  | None => Err KeyError
  | Some c => Ok (text_of compound ++ text_of ": " ++ M_Json.join (text_of ", ") (map text_of (get_phase_list c)) ++ line_feed)
  end.
(** thermochemistry.py:764-773, list_compounds: the text printed. *)
Definition list_compounds (db : database) : res text :=
  do ls <- mapM (compound_line db) (M_Chem.sorted (map fst db));
  Ok (text_of "Compounds currently loaded:" ++ line_feed ++ concat ls).

(** thermochemistry.py:778-783, get_datafile_references: the file
    data/references.json of the package. *)
Definition get_datafile_references : list (string * string) :=
  [("rao1985", "Rao, Y.K. (1985). Stoichiometry and Thermodynamics of Metallurgical Processes. Cambridge, UK: Cambridge University. ISBN: 0-521-25856-1.");
   ("chase1998", "Chase, M.W., Jr., (1998), NIST-JANAF Themochemical Tables, Fourth Edition, J. Phys. Chem. Ref. Data, Monograph 9, 1998, 1-1951.")].
(** thermochemistry.py:466-469, Compound.get_reference; [r] is the attribute
    reference. *)
Definition get_reference (r : option string) : res string :=
  match r with
  | None => Ok ""
  | Some k => if String.eqb k "" then Ok "" else match M_Thermochem.lookup k get_datafile_references with Some t => Ok t | None => Err KeyError end
  end.

(** * Loading
    The global dictionary [compounds] (thermochemistry.py:883) before and after;
    a directory is [None] when the path does not exist, and otherwise its files,
    in the order in which glob gives them, with their content.  The path '' stands
    for the default one (729-730, 751-752): that is a choice of the directory. *)
(** glob.glob('Compound_*' + ext), thermochemistry.py:735 and 757. *)
Definition is_file_of (ext name : text) : bool :=
  match word (text_of "Compound_") name with Some r => starts (rev ext) (rev r) | None => false end.
(** thermochemistry.py:737-739 and 759-761: one file after the other; those
    before a file that cannot be read stay loaded. *)
Fixpoint load_each (read : text -> res tcompound) (db : database) (files : list (text * text)) : database * res unit :=
  match files with
  | [] => (db, Ok tt)
  | f :: files' =>
    match read (snd f) with
    | Ok c => load_each read (dput string_dec db (tc_formula c) c) files'
    | Err e => (db, Err e)
    end
  end.
(** thermochemistry.py:727-739 and 749-761. *)
Definition load_from (read : text -> res tcompound) (ext : text) (dir : option (list (text * text))) (db : database) : database * res unit :=
  match dir with
  | None => ([], Ok tt)
  | Some files => load_each read [] (filter (fun f => is_file_of ext (fst f)) files)
  end.
(** thermochemistry.py:742-761, load_data_auxi. *)
Definition load_auxi (float_of : text -> res Qc) := load_from (fun s => do o <- read_compound float_of s; compound_data float_of o) (text_of ".json").
(** thermochemistry.py:720-739, load_data_factsage. *)
Definition load_fs (float_of : text -> res Qc) := load_from (fun s => load_factsage float_of (lines_of s)) (text_of ".txt").
