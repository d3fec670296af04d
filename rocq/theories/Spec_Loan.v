(** Vocabulary for stating properties of loans. *)
From Verif Require Import Prelude M_Dates M_Accounts M_Ledger M_Business Spec_Dates Spec_Accounts Spec_Ledger Spec_Business.

(** What is still owed after k payments [pay] when the interest per period is r. *)
Fixpoint outstanding (amount r pay : Qc) (k : nat) : Qc :=
  match k with O => amount | S j => (outstanding amount r pay j * (1 + r) - pay)%Qc end.

(** Interest charged by the first k payments. *)
Fixpoint interest_sum (amount r pay : Qc) (k : nat) : Qc :=
  match k with O => 0%Qc | S j => (interest_sum amount r pay j + outstanding amount r pay j * r)%Qc end.

(** The activity's run method called for each clock in turn. *)
Definition run_at (cs : list clock) (l : ledger) (a : activity) : res (ledger * activity) :=
  foldM (fun st c => run_activity c (fst st) (snd st)) cs (l, a).

(** How many of these calls find the activity due. *)
Definition executions (a : activity) (cs : list clock) : nat :=
  length (filter (fun c => criteria a (ck_ix c)) cs).

(** The loan's payment belongs to its amount, rate and duration. *)
Definition consistent_loan (l : loan) : Prop :=
  ln_mrate l = (ln_rate l / twelve)%Qc /\
  monthly_payment (ln_amount l) (ln_rate l / twelve)%Qc (ln_duration l) = Ok (ln_payment l).

(** The clocks of the periods 0, 1, ..., n-1 of a run. *)
Definition periods (c : clock) (n : Z) : list clock := map (fun i => clock_at c (Z.of_nat i)) (seq 0 (Z.to_nat n)).

(** w is the window of the k-th year of the model's run, and the run reaches the
    start of the following year. *)
Definition closed_year (m : tbm) (k : nat) (w : datetime * datetime) : Prop :=
  year_window (ck_start (md_clock m)) k w /\
  exists next last, year_start (ck_start (md_clock m)) (S k) = Ok next /\
    datetime_at (md_clock m) (md_count m - 1) = Ok last /\ dt_leb next last = true.

(** The entity's accounts were built by these operations on the default
    structure, with proper and distinct names. *)
Definition good_structure (e : entity) (ops : list gls_op) : Prop :=
  l_structure (en_gl e) = built ops /\ forallb op_names_ok ops = true /\ names_distinct (built ops).

(** Assigning the start_datetime attribute (structure.py:43). *)
Definition act_set_start (t : datetime) (a : activity) : activity :=
  mkact (ac_name a) (ac_desc a) (ac_ppath a) (ac_path a) t (ac_end a) (ac_interval a)
        (ac_start_ix a) (ac_end_ix a) (ac_count a) (ac_kind a).
