(** TimeBasedModel.run of auxi/modelling/business with the state that is left
    when an exception escapes: the functions of M_Business.v again, each giving
    the objects as they stand when it returns or raises, and the exception if
    any. *)
From Verif Require Import Prelude M_Dates M_Accounts M_Ledger M_Business.
Local Open Scope string_scope.

Definition out (A : Type) : Type := (A * option exn)%type.

Section Each.
  Context {A : Type} (f : A -> out A).
  (** Python's [for x in l: f(x)] where f updates x in place. *)
  Fixpoint each (l : list A) : out (list A) :=
    match l with
    | [] => ([], None)
    | x :: r => match f x with
                | (x', Some e) => (x' :: r, Some e)
                | (x', None) => let y := each r in (x' :: fst y, snd y)
                end
    end.
End Each.
Section EachWith.
  Context {A S : Type} (f : S -> A -> out (S * A)).
  (** The same where f also updates a shared object s. *)
  Fixpoint each_with (l : list A) (s : S) : out (S * list A) :=
    match l with
    | [] => ((s, []), None)
    | x :: r => match f s x with
                | ((s', x'), Some e) => ((s', x' :: r), Some e)
                | ((s', x'), None) => let y := each_with r s' in ((fst (fst y), x' :: snd (fst y)), snd y)
                end
    end.
End EachWith.

(** structure.py:81-108 Activity.prepare_to_run and basic.py:223-236: the start
    index is assigned before the end is looked for; the loan's progress is reset
    after the indices. *)
Definition prepare_activity_out (c : clock) (n : Z) (a : activity) : out activity :=
  match (if (ac_start_ix a =? -1)%Z && negb (dt_eqb (ac_start a) dt_min)
         then first_after c (ac_start a) 0 (Z.to_nat n) else Ok None) with
  | Err e => (a, Some e)
  | Ok f =>
      let s := match f with Some i => i | None => ac_start_ix a end in
      let s := if (s =? -1)%Z then 0%Z else s in
      let a1 := with_ixs a s (ac_end_ix a) (ac_count a) in
      match (if (ac_count a =? -1)%Z && negb (dt_eqb (ac_end a) dt_max)
             then first_after c (ac_end a) 0 (Z.to_nat n) else Ok None) with
      | Err e => (a1, Some e)
      | Ok g =>
          let k := match g with Some i => (i - s)%Z | None => ac_count a end in
          let e := if (k =? -1)%Z then (s + n)%Z else (s + k)%Z in
          let a2 := with_ixs a s e k in
          (with_kind a2 (prepare_kind (ac_kind a2)), None)
      end
  end.

(** structure.py:233-246 Component.prepare_to_run *)
Fixpoint prepare_comp_out (c : clock) (n : Z) (k : comp) : out comp :=
  let 'Comp nm pp p ss aa := k in
  match each (prepare_comp_out c n) ss with
  | (ss', Some e) => (Comp nm pp p ss' aa, Some e)
  | (ss', None) => let y := each (prepare_activity_out c n) aa in (Comp nm pp p ss' (fst y), snd y)
  end.

(** structure.py:349-373 Entity.prepare_to_run: the number of periods and the
    dates are assigned first, then the transactions are deleted, then the
    components are prepared. *)
Definition prepare_entity_out (c : clock) (n : Z) (e : entity) : out entity :=
  let e0 := mkent (en_name e) (en_ppath e) (en_path e) (en_gl e) (en_comps e) n (en_prev e) (en_curr e) (en_exec e) in
  match datetime_at c n with
  | Err x => (e0, Some x)
  | Ok ex =>
      let e1 := mkent (en_name e) (en_ppath e) (en_path e) (en_gl e) (en_comps e) n (ck_start c) (en_curr e) ex in
      match add_years (ck_start c) 1 with
      | Err x => (e1, Some x)
      | Ok cu =>
          let y := each (prepare_comp_out c n) (en_comps e) in
          (mkent (en_name e) (en_ppath e) (en_path e) (mkledger (l_structure (en_gl e)) []) (fst y) n (ck_start c) cu ex, snd y)
      end
  end.

(** basic.py:61-81 and 238-289: nothing is changed before the clock has given
    the date; after that nothing fails. *)
Definition run_activity_out (c : clock) (l : ledger) (a : activity) : out (ledger * activity) :=
  match run_activity c l a with Ok x => (x, None) | Err e => ((l, a), Some e) end.

(** structure.py:248-261 Component.run *)
Fixpoint run_comp_out (c : clock) (l : ledger) (k : comp) : out (ledger * comp) :=
  let 'Comp nm pp p ss aa := k in
  match each_with (fun l s => run_comp_out c l s) ss l with
  | ((l1, ss'), Some e) => ((l1, Comp nm pp p ss' aa), Some e)
  | ((l1, ss'), None) => let y := each_with (run_activity_out c) aa l1 in
                         ((fst (fst y), Comp nm pp p ss' (snd (fst y))), snd y)
  end.

(** structure.py:391-469: the year boundaries are moved (399-402) before the
    transactions of the year are looked at. *)
Definition year_end_out (c : clock) (e : entity) : out entity :=
  match get_datetime c with
  | Err x => (e, Some x)
  | Ok now =>
      if dt_leb (en_curr e) now || (ck_ix c =? en_count e)%Z then
        match add_us (en_curr e) (-1000000) with
        | Err x => (e, Some x)
        | Ok ye =>
            let at_ gl prev curr := mkent (en_name e) (en_ppath e) (en_path e) gl (en_comps e) (en_count e) prev curr (en_exec e) in
            match add_years (en_curr e) 1 with
            | Err x => (at_ (en_gl e) (en_curr e) (en_curr e), Some x)
            | Ok nx =>
                let nx := if dt_ltb (en_exec e) nx then en_exec e else nx in
                match close_year (l_structure (en_gl e)) (en_path e) (l_txs (en_gl e)) (en_prev e) ye with
                | Err x => (at_ (en_gl e) (en_curr e) nx, Some x)
                | Ok closing => (at_ (mkledger (l_structure (en_gl e)) (l_txs (en_gl e) ++ closing)%list) (en_curr e) nx, None)
                end
            end
        end
      else (e, None)
  end.

(** structure.py:375-389 Entity.run *)
Definition run_entity_out (c : clock) (e : entity) : out entity :=
  if (en_count e <=? ck_ix c)%Z then (e, None) else
  let x := each_with (run_comp_out c) (en_comps e) (en_gl e) in
  let e1 := mkent (en_name e) (en_ppath e) (en_path e) (fst (fst x)) (snd (fst x)) (en_count e) (en_prev e) (en_curr e) (en_exec e) in
  match snd x with
  | Some er => (e1, Some er)
  | None => year_end_out c e1
  end.

(** models.py:94-101 prepare_to_run *)
Definition prepare_model_out (m : tbm) : out tbm :=
  let c := reset (md_clock m) in
  let y := each (prepare_entity_out c (md_count m)) (md_ents m) in
  (mktbm (md_name m) c (md_count m) (fst y), snd y).

(** models.py:109-112 the loop body, n times *)
Fixpoint run_periods_out (n : nat) (m : tbm) : out tbm :=
  match n with
  | O => (m, None)
  | S n' => let y := each (run_entity_out (md_clock m)) (md_ents m) in
            match snd y with
            | Some e => (mktbm (md_name m) (md_clock m) (md_count m) (fst y), Some e)
            | None => run_periods_out n' (mktbm (md_name m) (tick (md_clock m)) (md_count m) (fst y))
            end
  end.

(** models.py:103-112 run *)
Definition run_out (m : tbm) : out tbm :=
  match prepare_model_out m with
  | (p, Some e) => (p, Some e)
  | (p, None) => run_periods_out (Z.to_nat (md_count m)) p
  end.
