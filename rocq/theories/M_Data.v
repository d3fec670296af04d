(** The thermochemical data files, as rational numbers, and their reading. *)
From Verif Require Import Prelude M_Elements M_Stoichiometry M_Thermochem.
From Coq Require Import Reals Qreals.

(** The content of a data file (auxi/tools/chemistry/data/rao/Compound_*.json): attributes
    of CpRecord, Phase and Compound objects written by jsonpickle. *)
Record qrecord := mkqr { qr_Tmin : Q; qr_Tmax : Q; qr_terms : list (Q * Q) }.
Record qphase := mkqp { qp_DHref : Q; qp_Sref : Q; qp_records : list (Q * qrecord) }.
Record qcompound := mkqc { qc_formula : string; qc_molar_mass : Q; qc_phases : list (string * qphase) }.

(** core/objects.py:41-47, Object.read: the attributes are restored as they
    are in the file; Phase._init and CpRecord._init only compute the magnetic
    methods, which are Zero_mag as no file has magnetic data. *)
Definition read_record (r : qrecord) : cprecord :=
  mkcp (Q2R (qr_Tmin r)) (Q2R (qr_Tmax r)) (map (fun ce => (Q2R (fst ce), Q2R (snd ce))) (qr_terms r)).
Definition read_phase (p : qphase) : phase :=
  mkphase (Q2R (qp_DHref p)) (Q2R (qp_Sref p)) (map (fun kr => (Q2R (fst kr), read_record (snd kr))) (qp_records p)) None.
Definition read_compound (c : qcompound) : tcompound :=
  mktc (qc_formula c) (Q2R (qc_molar_mass c)) (map (fun np => (fst np, read_phase (snd np))) (qc_phases c)).

(** thermochemistry.py:742-761, load_data_auxi (the order of the files does not
    matter as their formulas are distinct). *)
Definition load_data (l : list qcompound) : database := map (fun c => (qc_formula c, read_compound c)) l.
