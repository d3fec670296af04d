(** Model of auxi/modelling/business/structure.py, basic.py and models.py.
    Amounts and rates are exact rationals instead of floats.  Every activity
    and component belongs to one parent ([M_Shared] has activity
    objects with several owners).  When a call raises, the model returns the
    exception and not the partially updated objects ([M_Interrupt] has them). *)
From Verif Require Import Prelude M_Dates M_Accounts M_Ledger.
Open Scope string_scope.

(** basic.py:166-198 the fields of BasicLoanActivity *)
Record loan := mkloan {
  ln_bank : string; ln_loan : string; ln_interest : string;
  ln_amount : Qc; ln_rate : Qc; ln_mrate : Qc; ln_payment : Qc;
  ln_duration : Z; ln_months : Z; ln_left : Qc }.

(** The two activity classes of basic.py; the abstract base Activity and user
    defined sub classes are not modelled. *)
Inductive akind :=
| KBasic (dt cr : string) (amount : Qc)
| KLoan (l : loan).

(** structure.py:37-48 the fields of Activity *)
Record activity := mkact {
  ac_name : string; ac_desc : option string; ac_ppath : string; ac_path : string;
  ac_start : datetime; ac_end : datetime; ac_interval : Z;
  ac_start_ix : Z; ac_end_ix : Z; ac_count : Z; ac_kind : akind }.

Definition with_ixs (a : activity) (s e n : Z) : activity :=
  mkact (ac_name a) (ac_desc a) (ac_ppath a) (ac_path a) (ac_start a) (ac_end a) (ac_interval a) s e n (ac_kind a).
Definition with_kind (a : activity) (k : akind) : activity :=
  mkact (ac_name a) (ac_desc a) (ac_ppath a) (ac_path a) (ac_start a) (ac_end a) (ac_interval a)
        (ac_start_ix a) (ac_end_ix a) (ac_count a) k.

(** structure.py:37-48 Activity.__init__ (the name setter sets the path); a
    start or end given as a string is taken as the datetime strptime gives. *)
Definition new_activity (name : string) (start fin : datetime) (interval : Z) (desc : option string)
  (k : akind) : activity :=
  mkact name desc "" ("" ++ "/" ++ name) start fin interval (-1) (-1) (-1) k.

(** structure.py:56-64 Activity.set_parent_path *)
Definition act_set_parent (v : string) (a : activity) : activity :=
  mkact (ac_name a) (ac_desc a) v (v ++ "/" ++ ac_name a) (ac_start a) (ac_end a) (ac_interval a)
        (ac_start_ix a) (ac_end_ix a) (ac_count a) (ac_kind a).

(** structure.py:70-73 Activity.name setter *)
Definition act_set_name (n : string) (a : activity) : activity :=
  mkact n (ac_desc a) (ac_ppath a) (ac_ppath a ++ "/" ++ n) (ac_start a) (ac_end a) (ac_interval a)
        (ac_start_ix a) (ac_end_ix a) (ac_count a) (ac_kind a).

(** basic.py:36-55 BasicActivity.__init__ *)
Definition new_basic (name dt cr : string) (amount : Qc) (start fin : datetime) (interval : Z)
  (desc : option string) : activity :=
  new_activity name start fin interval desc (KBasic dt cr amount).

(** Python's pow(x, n) for an integer n. *)
Definition pypow (x : Qc) (n : Z) : res Qc :=
  if (0 <=? n)%Z then Ok (Qcpower x (Z.to_nat n)) else pydiv 1%Qc (Qcpower x (Z.to_nat (- n))).

(** basic.py:194-198 _update_monthly_payment_ *)
Definition monthly_payment (amount mrate : Qc) (duration : Z) : res Qc :=
  do p <- pypow (1 + mrate)%Qc duration;
  do d <- pydiv 1%Qc p;
  pydiv (amount * mrate)%Qc (1 - d)%Qc.

Definition twelve : Qc := Q2Qc 12.

(** basic.py:166-192 BasicLoanActivity.__init__ (interest_rate setter 213-217);
    end is start plus duration+1 months. *)
Definition new_loan (name bank loan_acc interest : string) (amount rate : Qc) (start : datetime)
  (duration interval : Z) (desc : option string) : res activity :=
  do fin <- add_months start (duration + 1);
  let mrate := (rate / twelve)%Qc in
  do pay <- monthly_payment amount mrate duration;
  Ok (new_activity name start fin interval desc
        (KLoan (mkloan bank loan_acc interest amount rate mrate pay duration 0 amount))).

(** basic.py:204-207 amount setter; 213-217 interest_rate setter; the duration
    is a plain attribute. *)
Definition loan_set_amount (v : Qc) (l : loan) : res loan :=
  do pay <- monthly_payment v (ln_mrate l) (ln_duration l);
  Ok (mkloan (ln_bank l) (ln_loan l) (ln_interest l) v (ln_rate l) (ln_mrate l) pay (ln_duration l) (ln_months l) (ln_left l)).
Definition loan_set_rate (v : Qc) (l : loan) : res loan :=
  let m := (v / twelve)%Qc in
  do pay <- monthly_payment (ln_amount l) m (ln_duration l);
  Ok (mkloan (ln_bank l) (ln_loan l) (ln_interest l) (ln_amount l) v m pay (ln_duration l) (ln_months l) (ln_left l)).
Definition loan_set_duration (v : Z) (l : loan) : loan :=
  mkloan (ln_bank l) (ln_loan l) (ln_interest l) (ln_amount l) (ln_rate l) (ln_mrate l) (ln_payment l) v (ln_months l) (ln_left l).

(** [x > 0] for numbers *)
Definition qpos (x : Qc) : bool := match (this x ?= 0)%Q with Gt => true | _ => false end.
Definition qneg (x : Qc) : bool := match (this x ?= 0)%Q with Lt => true | _ => false end.
Definition qabs (x : Qc) : Qc := if qneg x then (- x)%Qc else x.

(** structure.py:75-79 Activity._meet_execution_criteria; Z's mod agrees with
    Python's % for every non-zero interval. *)
Definition criteria_base (a : activity) (ix : Z) : bool :=
  if negb (ac_interval a =? 0)%Z && negb ((ix + 1) mod ac_interval a =? 0)%Z then false
  else (ac_start_ix a <=? ix)%Z && (ix + ac_interval a <=? ac_end_ix a)%Z.

(** basic.py:57-59 and 219-221 *)
Definition criteria (a : activity) (ix : Z) : bool :=
  criteria_base a ix &&
  match ac_kind a with
  | KBasic _ _ amount => qpos amount
  | KLoan l => qpos (ln_amount l) && (0 <? ln_duration l)%Z
  end.

(** structure.py:93-96, 101-104: [for i in range(i0, i0+n)]: the first i whose
    datetime is strictly after t. *)
Fixpoint first_after (c : clock) (t : datetime) (i : Z) (n : nat) : res (option Z) :=
  match n with
  | O => Ok None
  | S n' => do d <- datetime_at c i; if dt_ltb t d then Ok (Some i) else first_after c t (i + 1) n'
  end.

(** structure.py:81-108 Activity.prepare_to_run *)
Definition prepare_base (c : clock) (n : Z) (a : activity) : res activity :=
  do f <- (if (ac_start_ix a =? -1)%Z && negb (dt_eqb (ac_start a) dt_min)
           then first_after c (ac_start a) 0 (Z.to_nat n) else Ok None);
  let s := match f with Some i => i | None => ac_start_ix a end in
  let s := if (s =? -1)%Z then 0%Z else s in
  do g <- (if (ac_count a =? -1)%Z && negb (dt_eqb (ac_end a) dt_max)
           then first_after c (ac_end a) 0 (Z.to_nat n) else Ok None);
  let k := match g with Some i => (i - s)%Z | None => ac_count a end in
  let e := if (k =? -1)%Z then (s + n)%Z else (s + k)%Z in
  Ok (with_ixs a s e k).

(** basic.py:223-236 BasicLoanActivity.prepare_to_run *)
Definition prepare_kind (k : akind) : akind :=
  match k with
  | KBasic _ _ _ => k
  | KLoan l => KLoan (mkloan (ln_bank l) (ln_loan l) (ln_interest l) (ln_amount l) (ln_rate l) (ln_mrate l)
                             (ln_payment l) (ln_duration l) 0 (ln_amount l))
  end.
Definition prepare_activity (c : clock) (n : Z) (a : activity) : res activity :=
  do b <- prepare_base c n a; Ok (with_kind b (prepare_kind (ac_kind b))).

Definition act_tx_name (a : activity) : string := match ac_desc a with Some d => d | None => ac_name a end.

(** basic.py:61-81 BasicActivity.run and 238-289 BasicLoanActivity.run *)
Definition run_activity (c : clock) (l : ledger) (a : activity) : res (ledger * activity) :=
  if negb (criteria a (ck_ix c)) then Ok (l, a) else
  do now <- get_datetime c;
  match ac_kind a with
  | KBasic dt cr amount =>
      Ok (fst (create_transaction l (act_tx_name a) (Some "") (PDateTime now) (Some dt) (Some cr) (Some (ac_path a)) amount), a)
  | KLoan n =>
      if (ln_months n =? 0)%Z then
        Ok (fst (create_transaction l (act_tx_name a) (Some "Make a loan") (PDateTime now)
                   (Some (ln_bank n)) (Some (ln_loan n)) (Some (ac_path a)) (ln_amount n)),
            with_kind a (KLoan (mkloan (ln_bank n) (ln_loan n) (ln_interest n) (ln_amount n) (ln_rate n) (ln_mrate n)
                                       (ln_payment n) (ln_duration n) (ln_months n + ac_interval a) (ln_left n))))
      else
        let interest := (ln_left n * ln_rate n / twelve)%Qc in
        let l1 := fst (create_transaction l (act_tx_name a) (Some "Consider interest") (PDateTime now)
                   (Some (ln_interest n)) (Some (ln_loan n)) (Some (ac_path a)) interest) in
        let l2 := fst (create_transaction l1 (act_tx_name a) (Some "Pay principle") (PDateTime now)
                   (Some (ln_loan n)) (Some (ln_bank n)) (Some (ac_path a)) (ln_payment n)) in
        Ok (l2, with_kind a (KLoan (mkloan (ln_bank n) (ln_loan n) (ln_interest n) (ln_amount n) (ln_rate n) (ln_mrate n)
                                       (ln_payment n) (ln_duration n) (ln_months n + ac_interval a)
                                       (ln_left n + (interest - ln_payment n))%Qc)))
  end.

(** basic.py:83-90 and 291-301 get_referenced_accounts *)
Definition referenced_accounts (a : activity) : list string :=
  match ac_kind a with
  | KBasic dt cr _ => [dt; cr]
  | KLoan l => [ln_bank l; ln_loan l; ln_interest l]
  end.

(** structure.py:129-135 Component *)
Inductive comp := Comp (name ppath path : string) (subs : list comp) (acts : list activity).
Definition c_name (k : comp) := let 'Comp n _ _ _ _ := k in n.
Definition c_path (k : comp) := let 'Comp _ _ p _ _ := k in p.
Definition c_subs (k : comp) := let 'Comp _ _ _ s _ := k in s.
Definition c_acts (k : comp) := let 'Comp _ _ _ _ a := k in a.

(** structure.py:129-135, 164-168 Component.__init__ (through the name setter) *)
Definition new_component (name : string) : comp := Comp name "" ("" ++ "/" ++ name) [] [].

(** structure.py:143-158 Component.set_parent_path *)
Fixpoint comp_set_parent (v : string) (k : comp) : comp :=
  let 'Comp n _ _ ss aa := k in
  let p := v ++ "/" ++ n in
  Comp n v p (map (comp_set_parent p) ss) (map (act_set_parent p) aa).

(** structure.py:164-168 Component.name setter *)
Definition comp_set_name (n : string) (k : comp) : comp :=
  let 'Comp _ pp _ ss aa := k in
  let p := pp ++ "/" ++ n in
  Comp n pp p (map (comp_set_parent p) ss) (map (act_set_parent p) aa).

(** Python's list.remove of the last object that satisfies the test (the loops
    of remove_component and remove_entity keep the last match; removal is by
    identity). *)
Fixpoint remove_last {A} (f : A -> bool) (l : list A) : list A :=
  match l with
  | [] => []
  | x :: r => if f x && negb (existsb f r) then r else x :: remove_last f r
  end.

(** structure.py:170-183, 185-197 create_component, remove_component *)
Definition create_component (n : string) (k : comp) : comp :=
  let 'Comp nm pp p ss aa := k in Comp nm pp p (ss ++ [comp_set_parent p (new_component n)])%list aa.
Definition remove_component (n : string) (k : comp) : comp :=
  let 'Comp nm pp p ss aa := k in Comp nm pp p (remove_last (fun s => c_name s =? n) ss) aa.

(** structure.py:199-208, 222-231 get_component, get_activity *)
Definition get_component (n : string) (k : comp) : res comp :=
  match filter (fun s => c_name s =? n) (c_subs k) with x :: _ => Ok x | [] => Err IndexError end.
Definition get_activity (n : string) (k : comp) : res activity :=
  match filter (fun s => ac_name s =? n) (c_acts k) with x :: _ => Ok x | [] => Err IndexError end.

(** structure.py:210-220 add_activity; [g] is the structure of the entity's
    ledger, which all its components share. *)
Definition add_activity (g : gls) (a : activity) (k : comp) : res comp :=
  do _ <- validate_account_names g (referenced_accounts a);
  let 'Comp nm pp p ss aa := k in Ok (Comp nm pp p ss (aa ++ [act_set_parent p a])%list).

(** structure.py:233-246 Component.prepare_to_run *)
Fixpoint prepare_comp (c : clock) (n : Z) (k : comp) : res comp :=
  let 'Comp nm pp p ss aa := k in
  do ss' <- mapM (prepare_comp c n) ss;
  do aa' <- mapM (prepare_activity c n) aa;
  Ok (Comp nm pp p ss' aa').

(** structure.py:248-261 Component.run *)
Fixpoint run_comp (c : clock) (l : ledger) (k : comp) : res (ledger * comp) :=
  let 'Comp nm pp p ss aa := k in
  do x <- traverse (fun l s => run_comp c l s) ss l;
  do y <- traverse (run_activity c) aa (fst x);
  Ok (fst y, Comp nm pp p (snd x) (snd y)).

(** ** The year-end procedure *)

(** An OrderedDict keyed by account objects (identity). *)
Definition wdict := list (acct * Qc).
Definition same_obj (a b : acct) : bool := Nat.eqb (a_id a) (a_id b).
Fixpoint wupd (k : acct) (delta init : Qc) (d : wdict) : wdict :=
  match d with
  | [] => [(k, init)]
  | (k', v) :: r => if same_obj k' k then (k', (v + delta)%Qc) :: r else (k', v) :: wupd k delta init r
  end.
Definition whas (k : acct) (d : wdict) : bool := existsb (fun kv => same_obj (fst kv) k) d.
Definition in_accs (o : option acct) (l : list acct) : bool :=
  match o with None => false | Some a => existsb (same_obj a) l end.
Definition type_of (o : option acct) : res atype :=
  match o with None => Err AttributeError | Some a => Ok (a_type a) end.
Definition is_type (o : option acct) (T : atype) : res bool := do t <- type_of o; Ok (atype_eqb t T).

(** structure.py:412-458: the if/elif chain for one transaction; the first
    component holds the gross profit write-offs, the second the income summary
    write-offs. *)
Definition ye_step (g : gls) (sales cos : list acct) (s : wdict * wdict) (t : tx) : res (wdict * wdict) :=
  do cr <- get_account_o g (tx_cr t);
  do dt <- get_account_o g (tx_dt t);
  let v := tx_amount t in
  let add (o : option acct) (x : Qc) (d : wdict) : wdict := match o with Some a => wupd a x x d | None => d end in
  if in_accs cr sales then Ok (add cr v (fst s), snd s)
  else if in_accs dt sales then Ok (add dt (- v)%Qc (fst s), snd s)
  else if in_accs cr cos then Ok (add cr v (fst s), snd s)
  else if in_accs dt cos then Ok (add dt (- v)%Qc (fst s), snd s)
  else
    do b1 <- is_type cr Revenue;
    if b1 : bool then Ok (fst s, add cr v (snd s))
    else
      do b2 <- is_type dt Revenue;
      if b2 : bool then
        match dt with
        | Some a => if whas a (snd s) then Ok (fst s, add dt (- v)%Qc (snd s)) else Err KeyError
        | None => Err AttributeError
        end
      else
        do b3 <- is_type cr Expense;
        if b3 : bool then Ok (fst s, add cr (- v)%Qc (snd s))
        else
          do b4 <- is_type dt Expense;
          if b4 : bool then Ok (fst s, add dt v (snd s)) else Ok s.

(** A closing entry (the four create_tx helpers, 485-496, 514-524, 541-551,
    577-588): the closing flag of the credit account is set. *)
Definition closing_tx (path name : string) (ye : datetime) (dt cr : string) (amount : Qc) : tx :=
  mktx name (Some name) (PDateTime ye) (Some dt) (Some cr) (Some path) amount false true.
Definition settle (p : string) : string := "Settle the '" ++ p ++ "' Account".

(** structure.py:507-531 _perform_year_end_gross_profit *)
Definition ye_gross_profit (path gp : string) (ye : datetime) (d : wdict) : list tx :=
  flat_map (fun kv => let '(a, v) := kv in
    if qpos v then [closing_tx path (settle (a_path a)) ye gp (a_path a) (qabs v)]
    else if qneg v then [closing_tx path (settle (a_path a)) ye (a_path a) gp (qabs v)]
    else []) d.
Definition ye_gross_profit_sum (d : wdict) : Qc := Qcsum (map snd d).

(** structure.py:533-567 _perform_year_end_income_summary *)
Definition ye_income_summary (path is_ : string) (ye : datetime) (d : wdict) : list tx :=
  flat_map (fun kv => let '(a, v) := kv in
    let ex := atype_eqb (a_type a) Expense in
    if qpos v then
      [closing_tx path (settle (a_path a)) ye (if ex then is_ else a_path a) (if ex then a_path a else is_) (qabs v)]
    else if qneg v then
      [closing_tx path (settle (a_path a)) ye (if ex then a_path a else is_) (if ex then is_ else a_path a) (qabs v)]
    else []) d.
Definition ye_income_summary_amount (gross : Qc) (d : wdict) : Qc :=
  fold_left (fun s kv => let '(a, v) := (kv : acct * Qc) in
    if qpos v || qneg v then (if atype_eqb (a_type a) Expense then s - v else s + v)%Qc else s) d gross.

(** structure.py:485-503 settling the gross profit account *)
Definition ye_settle_gross (path gp is_ : string) (ye : datetime) (gross : Qc) : list tx :=
  if qpos gross then [closing_tx path (settle gp) ye gp is_ (qabs gross)]
  else if qneg gross then [closing_tx path (settle gp) ye is_ gp (qabs gross)]
  else [].

(** structure.py:574-596 _perform_year_end_retained_earnings: the amount is not
    made positive. *)
Definition ye_retained (path is_ re : string) (ye : datetime) (amount : Qc) : list tx :=
  let name := settle is_ ++ ", adjust Retained Earnings accordingly." in
  if qpos amount then [closing_tx path name ye is_ re amount]
  else if qneg amount then [closing_tx path name ye re is_ amount]
  else [].

(** structure.py:404-469: all closing entries for the window [ys, ye]; the
    income tax hook (569-572) is the identity.  The references
    gls._acci_sales_, _acci_cos_, _acci_gross_prof_, _acci_inc_sum_ and
    _accb_ret_earnings_acc_ are looked up by identity; removing one of these
    accounts from the structure is outside the model ([PyException]). *)
Definition close_year (g : gls) (path : string) (txs : list tx) (ys ye : datetime) : res (list tx) :=
  match deref g id_sales, deref g id_cos, deref g id_gross_profit, deref g id_inc_sum, deref g id_ret_earnings with
  | Some sa, Some co, Some gp, Some is_, Some re =>
      let step acc t :=
        do b <- py_between (PDateTime ys) (tx_date t) (PDateTime ye);
        Ok (if b : bool then acc ++ [t] else acc)%list in
      do year <- foldM step txs [];
      do w <- foldM (ye_step g (account_descendants sa) (account_descendants co)) year ([], []);
      let gross := ye_gross_profit_sum (fst w) in
      let amount := ye_income_summary_amount gross (snd w) in
      Ok (ye_gross_profit path (a_path gp) ye (fst w) ++
          ye_income_summary path (a_path is_) ye (snd w) ++
          ye_settle_gross path (a_path gp) (a_path is_) ye gross ++
          ye_retained path (a_path is_) (a_path re) ye amount)%list
  | _, _, _, _, _ => Err PyException
  end.

(** structure.py:277-290 Entity *)
Record entity := mkent {
  en_name : string; en_ppath : string; en_path : string; en_gl : ledger; en_comps : list comp;
  en_count : Z; en_prev : datetime; en_curr : datetime; en_exec : datetime }.

(** structure.py:277-290, 314-318 *)
Definition new_entity (name : string) (g : gls) : entity :=
  mkent name "" ("" ++ "/" ++ name) (mkledger g []) [] (-1) dt_min dt_min dt_min.

Definition with_comps (e : entity) (cs : list comp) : entity :=
  mkent (en_name e) (en_ppath e) (en_path e) (en_gl e) cs (en_count e) (en_prev e) (en_curr e) (en_exec e).

(** structure.py:295-308 Entity.set_parent_path; 314-318 name setter *)
Definition ent_set_parent (v : string) (e : entity) : entity :=
  let p := v ++ "/" ++ en_name e in
  mkent (en_name e) v p (en_gl e) (map (comp_set_parent p) (en_comps e)) (en_count e) (en_prev e) (en_curr e) (en_exec e).
Definition ent_set_name (n : string) (e : entity) : entity :=
  let p := en_ppath e ++ "/" ++ n in
  mkent n (en_ppath e) p (en_gl e) (map (comp_set_parent p) (en_comps e)) (en_count e) (en_prev e) (en_curr e) (en_exec e).

(** structure.py:320-333, 335-347 *)
Definition ent_create_component (n : string) (e : entity) : entity :=
  with_comps e (en_comps e ++ [comp_set_parent (en_path e) (new_component n)])%list.
Definition ent_remove_component (n : string) (e : entity) : entity :=
  with_comps e (remove_last (fun s => c_name s =? n) (en_comps e)).

(** structure.py:349-373 Entity.prepare_to_run *)
Definition prepare_entity (c : clock) (n : Z) (e : entity) : res entity :=
  do ex <- datetime_at c n;
  do cu <- add_years (ck_start c) 1;
  do cs <- mapM (prepare_comp c n) (en_comps e);
  Ok (mkent (en_name e) (en_ppath e) (en_path e) (mkledger (l_structure (en_gl e)) []) cs n (ck_start c) cu ex).

(** structure.py:391-402 and 460-469 _perform_year_end_procedure *)
Definition year_end (c : clock) (e : entity) : res entity :=
  do now <- get_datetime c;
  if dt_leb (en_curr e) now || (ck_ix c =? en_count e)%Z then
    do ye <- add_us (en_curr e) (-1000000);
    do nx <- add_years (en_curr e) 1;
    let nx := if dt_ltb (en_exec e) nx then en_exec e else nx in
    do closing <- close_year (l_structure (en_gl e)) (en_path e) (l_txs (en_gl e)) (en_prev e) ye;
    Ok (mkent (en_name e) (en_ppath e) (en_path e)
          (mkledger (l_structure (en_gl e)) (l_txs (en_gl e) ++ closing)%list)
          (en_comps e) (en_count e) (en_curr e) nx (en_exec e))
  else Ok e.

(** structure.py:375-389 Entity.run *)
Definition run_entity (c : clock) (e : entity) : res entity :=
  if (en_count e <=? ck_ix c)%Z then Ok e else
  do x <- traverse (run_comp c) (en_comps e) (en_gl e);
  year_end c (mkent (en_name e) (en_ppath e) (en_path e) (fst x) (snd x) (en_count e) (en_prev e) (en_curr e)
                    (en_exec e)).

(** models.py:38-50 TimeBasedModel; the start is a datetime (models.py:46
    turns a string into a date, see the notes on C12). *)
Record tbm := mktbm { md_name : string; md_clock : clock; md_count : Z; md_ents : list entity }.
Definition new_model (name : string) (start : datetime) (p : period) (n : Z) : tbm :=
  mktbm name (new_clock start p) n [].

(** models.py:52-63 name setter *)
Definition md_set_name (n : string) (m : tbm) : tbm :=
  mktbm n (md_clock m) (md_count m) (map (ent_set_parent n) (md_ents m)).
(** models.py:65-78: the new entity does not get the model's name as parent
    path; 80-92 *)
Definition md_create_entity (n : string) (g : gls) (m : tbm) : tbm :=
  mktbm (md_name m) (md_clock m) (md_count m) (md_ents m ++ [new_entity n g])%list.
Definition md_remove_entity (n : string) (m : tbm) : tbm :=
  mktbm (md_name m) (md_clock m) (md_count m) (remove_last (fun e => en_name e =? n) (md_ents m)).

(** models.py:94-101 prepare_to_run *)
Definition prepare_model (m : tbm) : res tbm :=
  let c := reset (md_clock m) in
  do es <- mapM (prepare_entity c (md_count m)) (md_ents m);
  Ok (mktbm (md_name m) c (md_count m) es).

(** models.py:109-112 the loop body, n times *)
Fixpoint run_periods (n : nat) (m : tbm) : res tbm :=
  match n with
  | O => Ok m
  | S n' => do es <- mapM (run_entity (md_clock m)) (md_ents m);
            run_periods n' (mktbm (md_name m) (tick (md_clock m)) (md_count m) es)
  end.

(** models.py:103-112 run *)
Definition run_model (m : tbm) : res tbm :=
  do p <- prepare_model m; run_periods (Z.to_nat (md_count m)) p.
