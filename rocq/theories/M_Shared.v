(** Model of auxi/modelling/business with activity and ledger structure objects
    that several owners hold: components refer to activities and entities to
    structures by address.  The activities' and the entities' own steps are those
    of M_Business and M_Accounts. *)
From Verif Require Import Prelude M_Dates M_Accounts M_Ledger M_Business.
Local Open Scope string_scope.
Local Open Scope list_scope.

(** The activity objects, by address. *)
Definition heap := list activity.
Definition nobody : activity := new_activity "" dt_min dt_max 1 None (KBasic "" "" 0%Qc).
Definition hget (h : heap) (i : nat) : activity := nth i h nobody.
Fixpoint hset (h : heap) (i : nat) (a : activity) : heap :=
  match h, i with [], _ => [] | _ :: r, O => a :: r | b :: r, S j => b :: hset r j a end.

(** structure.py:129-135 Component: self.activities is a list of references. *)
Inductive scomp := SComp (name ppath path : string) (subs : list scomp) (acts : list nat).
Definition sc_name (k : scomp) := let 'SComp n _ _ _ _ := k in n.
Definition sc_path (k : scomp) := let 'SComp _ _ p _ _ := k in p.
Definition sc_subs (k : scomp) := let 'SComp _ _ _ ss _ := k in ss.
Definition sc_acts (k : scomp) := let 'SComp _ _ _ _ aa := k in aa.

(** structure.py:143-158 Component.set_parent_path: the component with its
    descendants, and what is assigned to the activities, in that order. *)
Fixpoint scomp_set_parent (v : string) (k : scomp) : scomp :=
  let 'SComp n _ _ ss aa := k in
  let p := (v ++ "/" ++ n)%string in SComp n v p (map (scomp_set_parent p) ss) aa.
Fixpoint parents (k : scomp) : list (nat * string) :=
  let 'SComp _ _ p ss aa := k in flat_map parents ss ++ map (fun i => (i, p)) aa.
Definition assign (ws : list (nat * string)) (h : heap) : heap :=
  fold_left (fun h w => hset h (fst w) (act_set_parent (snd w) (hget h (fst w)))) ws h.
(** structure.py:164-168 Component.name setter: the component's children only. *)
Definition scomp_set_name (n : string) (k : scomp) : scomp :=
  let 'SComp _ pp _ ss aa := k in
  let p := (pp ++ "/" ++ n)%string in SComp n pp p (map (scomp_set_parent p) ss) aa.
(** structure.py:129-135, 164-183. *)
Definition new_scomp (name : string) : scomp := SComp name "" ("" ++ "/" ++ name)%string [] [].
Definition s_create_component (n : string) (k : scomp) : scomp :=
  let 'SComp nm pp p ss aa := k in SComp nm pp p (ss ++ [scomp_set_parent p (new_scomp n)]) aa.
(** structure.py:185-197. *)
Definition s_remove_component (n : string) (k : scomp) : scomp :=
  let 'SComp nm pp p ss aa := k in SComp nm pp p (remove_last (fun s => (sc_name s =? n)%string) ss) aa.

(** structure.py:233-246 Component.prepare_to_run and 248-261 Component.run. *)
Definition prepare_ref (c : clock) (n : Z) (h : heap) (i : nat) : res heap :=
  do a <- prepare_activity c n (hget h i); Ok (hset h i a).
Fixpoint prepare_scomp (c : clock) (n : Z) (h : heap) (k : scomp) : res heap :=
  let 'SComp _ _ _ ss aa := k in
  do h1 <- foldM (fun h s => prepare_scomp c n h s) ss h; foldM (prepare_ref c n) aa h1.
Definition run_ref (c : clock) (x : ledger * heap) (i : nat) : res (ledger * heap) :=
  do y <- run_activity c (fst x) (hget (snd x) i); Ok (fst y, hset (snd x) i (snd y)).
Fixpoint run_scomp (c : clock) (x : ledger * heap) (k : scomp) : res (ledger * heap) :=
  let 'SComp _ _ _ ss aa := k in
  do x1 <- foldM (fun x s => run_scomp c x s) ss x; foldM (run_ref c) aa x1.

(** structure.py:277-290 Entity; [se_book] is the address of self.gl.structure.
    The components' gl is the entity's. *)
Record sentity := mksent {
  se_name : string; se_ppath : string; se_path : string; se_book : nat; se_txs : list tx; se_comps : list scomp;
  se_count : Z; se_prev : datetime; se_curr : datetime; se_exec : datetime }.
Definition new_sentity (name : string) (b : nat) : sentity :=
  mksent name "" ("" ++ "/" ++ name)%string b [] [] (-1) dt_min dt_min dt_min.
Definition with_scomps (e : sentity) (cs : list scomp) : sentity :=
  mksent (se_name e) (se_ppath e) (se_path e) (se_book e) (se_txs e) cs (se_count e) (se_prev e) (se_curr e) (se_exec e).
(** structure.py:295-318. *)
Definition sent_set_parent (v : string) (e : sentity) : sentity :=
  let p := (v ++ "/" ++ se_name e)%string in
  mksent (se_name e) v p (se_book e) (se_txs e) (map (scomp_set_parent p) (se_comps e)) (se_count e) (se_prev e) (se_curr e) (se_exec e).
Definition sent_set_name (n : string) (e : sentity) : sentity :=
  let p := (se_ppath e ++ "/" ++ n)%string in
  mksent n (se_ppath e) p (se_book e) (se_txs e) (map (scomp_set_parent p) (se_comps e)) (se_count e) (se_prev e) (se_curr e) (se_exec e).
(** structure.py:320-347. *)
Definition sent_create_component (n : string) (e : sentity) : sentity :=
  with_scomps e (se_comps e ++ [scomp_set_parent (se_path e) (new_scomp n)]).
Definition sent_remove_component (n : string) (e : sentity) : sentity :=
  with_scomps e (remove_last (fun s => (sc_name s =? n)%string) (se_comps e)).
(** The entity of M_Business without components; structure.py:391-469 does not
    look at them. *)
Definition frame_of (g : gls) (txs : list tx) (e : sentity) : entity :=
  mkent (se_name e) (se_ppath e) (se_path e) (mkledger g txs) [] (se_count e) (se_prev e) (se_curr e) (se_exec e).

(** models.py:38-50 TimeBasedModel with the objects. *)
Record shared := mkshared {
  sh_name : string; sh_clock : clock; sh_count : Z; sh_acts : heap; sh_books : list gls; sh_ents : list sentity }.
Definition book (bs : list gls) (b : nat) : gls := nth b bs empty_gls.

(** structure.py:349-373 Entity.prepare_to_run. *)
Definition prepare_sentity (c : clock) (n : Z) (h : heap) (e : sentity) : res (heap * sentity) :=
  do ex <- datetime_at c n;
  do cu <- add_years (ck_start c) 1;
  do h1 <- foldM (prepare_scomp c n) (se_comps e) h;
  Ok (h1, mksent (se_name e) (se_ppath e) (se_path e) (se_book e) [] (se_comps e) n (ck_start c) cu ex).
(** structure.py:375-389 Entity.run. *)
Definition run_sentity (c : clock) (bs : list gls) (h : heap) (e : sentity) : res (heap * sentity) :=
  if (se_count e <=? ck_ix c)%Z then Ok (h, e) else
  do x <- foldM (run_scomp c) (se_comps e) (mkledger (book bs (se_book e)) (se_txs e), h);
  do y <- year_end c (frame_of (l_structure (fst x)) (l_txs (fst x)) e);
  Ok (snd x, mksent (se_name e) (se_ppath e) (se_path e) (se_book e) (l_txs (en_gl y)) (se_comps e) (en_count y) (en_prev y) (en_curr y) (en_exec y)).
(** models.py:94-112. *)
Definition prepare_shared (s : shared) : res shared :=
  let c := reset (sh_clock s) in
  do x <- traverse (prepare_sentity c (sh_count s)) (sh_ents s) (sh_acts s);
  Ok (mkshared (sh_name s) c (sh_count s) (fst x) (sh_books s) (snd x)).
Fixpoint run_shared_periods (n : nat) (s : shared) : res shared :=
  match n with
  | O => Ok s
  | S n' => do x <- traverse (run_sentity (sh_clock s) (sh_books s)) (sh_ents s) (sh_acts s);
            run_shared_periods n' (mkshared (sh_name s) (tick (sh_clock s)) (sh_count s) (fst x) (sh_books s) (snd x))
  end.
Definition run_shared (s : shared) : res shared :=
  do p <- prepare_shared s; run_shared_periods (Z.to_nat (sh_count s)) p.

(** ** Building *)
Section At.
Context {A : Type} (f : A -> A).
Fixpoint at_nth (i : nat) (l : list A) : list A :=
  match l, i with [], _ => [] | x :: r, O => f x :: r | x :: r, S j => x :: at_nth j r end.
End At.
Fixpoint scomp_at (addr : list nat) (f : scomp -> scomp) (k : scomp) : scomp :=
  match addr with
  | [] => f k
  | i :: r => let 'SComp nm pp p ss aa := k in SComp nm pp p (at_nth (scomp_at r f) i ss) aa
  end.
Fixpoint scomp_find (addr : list nat) (ss : list scomp) (i : nat) : option scomp :=
  match nth_error ss i, addr with
  | None, _ => None
  | Some k, [] => Some k
  | Some (SComp _ _ _ ss' _), j :: r => scomp_find r ss' j
  end.
(** What the user does.  Components are addressed by the position of their
    entity, their own and those of their sub components. *)
Inductive shared_op :=
| SNewActivity (a : activity) | SActName (i : nat) (n : string)
| SNewBook | SBook (b : nat) (o : gls_op)
| SName (n : string) | SCreateEntity (n : string) (b : nat) | SRemoveEntity (n : string)
| SEntName (e : nat) (n : string) | SCreate (e : nat) (n : string) | SRemove (e : nat) (n : string)
| SCompName (e i : nat) (addr : list nat) (n : string) | SSubCreate (e i : nat) (addr : list nat) (n : string)
| SSubRemove (e i : nat) (addr : list nat) (n : string)
| SAdd (e i : nat) (addr : list nat) (a : nat).
Definition with_ents (s : shared) (h : heap) (es : list sentity) : shared :=
  mkshared (sh_name s) (sh_clock s) (sh_count s) h (sh_books s) es.
Definition at_comp (e i : nat) (addr : list nat) (f : scomp -> scomp) (s : shared) : list sentity :=
  at_nth (fun x => with_scomps x (at_nth (scomp_at addr f) i (se_comps x))) e (sh_ents s).
Definition comp_of (e i : nat) (addr : list nat) (s : shared) : option scomp :=
  match nth_error (sh_ents s) e with Some x => scomp_find addr (se_comps x) i | None => None end.
(** structure.py:210-220 Component.add_activity; when it raises nothing is
    changed.  There is no activity to add, or structure to give to an entity, at an
    unused address. *)
Definition shared_step (s : shared) (o : shared_op) : shared :=
  match o with
  | SNewActivity a => with_ents s (sh_acts s ++ [a]) (sh_ents s)
  | SActName i n => with_ents s (hset (sh_acts s) i (act_set_name n (hget (sh_acts s) i))) (sh_ents s)
  | SNewBook => mkshared (sh_name s) (sh_clock s) (sh_count s) (sh_acts s) (sh_books s ++ [default_gls]) (sh_ents s)
  | SBook b o => mkshared (sh_name s) (sh_clock s) (sh_count s) (sh_acts s) (at_nth (fun g => gls_step g o) b (sh_books s)) (sh_ents s)
  | SName n =>
      let es := map (sent_set_parent n) (sh_ents s) in
      mkshared n (sh_clock s) (sh_count s) (assign (flat_map (fun e => flat_map parents (se_comps e)) es) (sh_acts s)) (sh_books s) es
  | SCreateEntity n b => if Nat.ltb b (length (sh_books s)) then with_ents s (sh_acts s) (sh_ents s ++ [new_sentity n b]) else s
  | SRemoveEntity n => with_ents s (sh_acts s) (remove_last (fun e => (se_name e =? n)%string) (sh_ents s))
  | SEntName e n =>
      let es := at_nth (sent_set_name n) e (sh_ents s) in
      with_ents s (assign (match nth_error es e with Some x => flat_map parents (se_comps x) | None => [] end) (sh_acts s)) es
  | SCreate e n => with_ents s (sh_acts s) (at_nth (sent_create_component n) e (sh_ents s))
  | SRemove e n => with_ents s (sh_acts s) (at_nth (sent_remove_component n) e (sh_ents s))
  | SCompName e i addr n =>
      match comp_of e i addr s with
      | Some k => with_ents s (assign (parents (scomp_set_name n k)) (sh_acts s)) (at_comp e i addr (scomp_set_name n) s)
      | None => s
      end
  | SSubCreate e i addr n => with_ents s (sh_acts s) (at_comp e i addr (s_create_component n) s)
  | SSubRemove e i addr n => with_ents s (sh_acts s) (at_comp e i addr (s_remove_component n) s)
  | SAdd e i addr a =>
      match nth_error (sh_ents s) e, comp_of e i addr s with
      | Some x, Some k =>
          if negb (Nat.ltb a (length (sh_acts s))) then s else
          match validate_account_names (book (sh_books s) (se_book x)) (referenced_accounts (hget (sh_acts s) a)) with
          | Ok _ => with_ents s (assign [(a, sc_path k)] (sh_acts s))
                      (at_comp e i addr (fun k => let 'SComp nm pp p ss aa := k in SComp nm pp p ss (aa ++ [a])) s)
          | Err _ => s
          end
      | _, _ => s
      end
  end.
Definition shared_built (name : string) (start : datetime) (p : period) (n : Z) (ops : list shared_op) : shared :=
  fold_left shared_step ops (mkshared name (new_clock start p) n [] [] []).
