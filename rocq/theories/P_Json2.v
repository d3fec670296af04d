(** Documents written and read (C88). *)
From Verif Require Import Prelude M_Stoichiometry M_Factsage M_Json Spec_Json P_Json.
From Coq Require Import Permutation Sorted Lia.
Local Open Scope list_scope.

Section Ind.
Variable P : json -> Prop.
Hypothesis Hnull : P JNull.
Hypothesis Hbool : forall b, P (JBool b).
Hypothesis Hnum : forall t, P (JNum t).
Hypothesis Hstr : forall t, P (JStr t).
Hypothesis Harr : forall l, Forall P l -> P (JArr l).
Hypothesis Hobj : forall l, Forall (fun kv => P (snd kv)) l -> P (JObj l).
Fixpoint json_ind' (v : json) : P v :=
  match v with
  | JNull => Hnull | JBool b => Hbool b | JNum t => Hnum t | JStr t => Hstr t
  | JArr l => Harr l ((fix go l : Forall P l := match l with [] => Forall_nil _ | x :: l' => Forall_cons _ (json_ind' x) (go l') end) l)
  | JObj l => Hobj l ((fix go l : Forall (fun kv => P (snd kv)) l := match l with [] => Forall_nil _ | x :: l' => Forall_cons _ (json_ind' (snd x)) (go l') end) l)
  end.
End Ind.

(** The document with sorted keys; what it is to be a document that dumps writes. *)
Fixpoint jsort (v : json) : json :=
  match v with
  | JArr l => JArr (map jsort l)
  | JObj l => JObj (sort_keys (map (fun kv => (fst kv, jsort (snd kv))) l))
  | _ => v
  end.
Inductive jgood : json -> Prop :=
| jgood_null : jgood JNull
| jgood_bool : forall b, jgood (JBool b)
| jgood_num : forall t, literal t -> jgood (JNum t)
| jgood_str : forall t, jgood (JStr t)
| jgood_arr : forall l, Forall jgood l -> jgood (JArr l)
| jgood_obj : forall l, NoDup (map fst l) -> Forall (fun kv => jgood (snd kv)) l -> jgood (JObj l).
Fixpoint size (v : json) : nat :=
  match v with
  | JArr l => S (list_sum (map (fun x => S (size x)) l))
  | JObj l => S (list_sum (map (fun kv => S (size (snd kv))) l))
  | _ => 1
  end.

Lemma list_sum_perm l m : Permutation l m -> list_sum l = list_sum m.
Proof. induction 1; cbn [list_sum fold_right] in *; unfold list_sum in *; cbn; lia. Qed.

(** What dumps writes for a non-empty list and a non-empty dictionary. *)
Definition entry (L : nat) (kv : text * json) : text := quote (fst kv) ++ text_of ": " ++ dumps L (snd kv).
Definition comma (L : nat) : text := ","%char :: newline L.
Lemma dumps_arr L x l : dumps L (JArr (x :: l)) = "["%char :: newline (S L) ++ join (comma (S L)) (map (dumps (S L)) (x :: l)) ++ newline L ++ ["]"%char].
Proof. reflexivity. Qed.
Lemma dumps_obj L l : l <> [] -> dumps L (JObj l) = "{"%char :: newline (S L) ++ join (comma (S L)) (map (entry (S L)) (sort_keys l)) ++ newline L ++ ["}"%char].
Proof.
  intros N. destruct l as [|x l]; [contradiction|]. unfold entry.
  change (dumps L (JObj (x :: l))) with ("{"%char :: newline (S L) ++ join (comma (S L)) (map (fun kt => quote (fst kt) ++ text_of ": " ++ snd kt) (sort_keys (map (fun kv => (fst kv, dumps (S L) (snd kv))) (x :: l)))) ++ newline L ++ ["}"%char]).
  now rewrite (sort_map (dumps (S L))), map_map.
Qed.

(** The first character of a document. *)
Definition doc_head (c : ascii) : Prop := scalar_head c \/ In c ["n"; "t"; "f"; dq; "["; "{"]%char.
Lemma dumps_head L v : jgood v -> exists c s, dumps L v = c :: s /\ doc_head c.
Proof.
  intros [|[]|t H|t|l F|l N F].
  - eexists _, _. split; [reflexivity|right; cbn; tauto].
  - eexists _, _. split; [reflexivity|right; cbn; tauto].
  - eexists _, _. split; [reflexivity|right; cbn; tauto].
  - destruct (literal_head t H) as (c & t' & -> & Hc). exists c, t'. split; [reflexivity|left; auto].
  - eexists _, _. split; [reflexivity|right; cbn; tauto].
  - destruct l; eexists _, _; (split; [reflexivity|right; cbn; tauto]).
  - destruct l; eexists _, _; (split; [reflexivity|right; cbn; tauto]).
Qed.
Lemma head_facts c : doc_head c -> is_ws c = false /\ c <> "]"%char /\ c <> "}"%char.
Proof.
  intros [[H|[-> | [-> | ->]]]|H].
  - assert (forall d : ascii, (nat_of_ascii d < 48 \/ 57 < nat_of_ascii d)%nat -> c <> d) by (intros d D ->; lia).
    split; [|split; apply H0; cbn; lia]. unfold is_ws. repeat match goal with |- context [(?u =? ?v)%nat] => destruct (Nat.eqb_spec u v); [lia|] end. reflexivity.
  - split; [reflexivity|split; discriminate].
  - split; [reflexivity|split; discriminate].
  - split; [reflexivity|split; discriminate].
  - cbn in H. destruct H as [<-|[<-|[<-|[<-|[<-|[<-|[]]]]]]]; (split; [reflexivity|split; discriminate]).
Qed.
Lemma skip_newline L s : match s with c :: _ => is_ws c = false | [] => False end -> skip_ws (newline L ++ s) = s.
Proof.
  intros H. unfold newline. cbn [app skip_ws]. change (is_ws nl) with true. cbn iota.
  induction (4 * L)%nat as [|k IH]; cbn [repeat app].
  - destruct s as [|c s]; [contradiction|]. cbn [skip_ws]. now rewrite H.
  - cbn [skip_ws]. change (is_ws " ") with true. exact IH.
Qed.
Lemma newline_cons L : exists s, newline L = nl :: s.
Proof. now eexists. Qed.
Lemma stops_newline L s : stops (newline L ++ s).
Proof. repeat split; discriminate. Qed.
Lemma stops_comma L s : stops (comma L ++ s).
Proof. repeat split; discriminate. Qed.
Lemma skip_ws_nonws c s : is_ws c = false -> skip_ws (c :: s) = c :: s.
Proof. intros H. cbn [skip_ws]. now rewrite H. Qed.

Lemma join_head (sep x : text) l : exists s, join sep (x :: l) = x ++ s.
Proof. destruct l; [exists []; cbn; now rewrite app_nil_r|]. eexists. reflexivity. Qed.
Definition reads (v : json) : Prop := forall L n r, (size v <= n)%nat -> stops r -> scan n (dumps L v ++ r) = Ok (jsort v, r).
Lemma items_ok L l n r : l <> [] -> Forall jgood l -> Forall reads l -> (list_sum (map (fun x => S (size x)) l) <= n)%nat ->
  scan_items n (join (comma L) (map (dumps L) l) ++ newline (pred L) ++ "]"%char :: r) = Ok (map jsort l, r).
Proof.
  intros N G F. revert n N. induction F as [|x l Hx F IH]; intros n N Hn; [contradiction|]. inversion_clear G as [|? ? Gx Gl].
  change (list_sum (map (fun x => S (size x)) (x :: l))) with (S (size x) + list_sum (map (fun x => S (size x)) l))%nat in Hn.
  destruct n as [|n]; [lia|]. destruct l as [|y l].
  - cbn [map join]. cbn [scan_items]. rewrite Hx; [|cbn in Hn; lia|apply stops_newline]. cbn [bind fst snd]. rewrite skip_newline by reflexivity. reflexivity.
  - change (join (comma L) (map (dumps L) (x :: y :: l))) with (dumps L x ++ comma L ++ join (comma L) (map (dumps L) (y :: l))).
    rewrite <- !app_assoc. cbn [scan_items]. rewrite Hx; [|lia|apply stops_comma]. cbn [bind fst snd]. unfold comma at 1. rewrite <- app_comm_cons.
    rewrite skip_ws_nonws by reflexivity. cbn iota. change (Ascii.eqb "," "]") with false. change (Ascii.eqb "," ",") with true. cbn iota.
    rewrite skip_newline.
    + rewrite IH; auto; [discriminate|]. lia.
    + inversion_clear Gl as [|? ? Gy _]. destruct (dumps_head L y Gy) as (c & s & E & Hc). cbn [map join]. rewrite E.
      destruct (map (dumps L) l); cbn [app]; apply head_facts, Hc.
Qed.
Lemma members_ok L l n r : l <> [] -> Forall (fun kv => jgood (snd kv)) l -> Forall (fun kv => reads (snd kv)) l -> (list_sum (map (fun kv => S (size (snd kv))) l) <= n)%nat ->
  scan_members n (join (comma L) (map (entry L) l) ++ newline (pred L) ++ "}"%char :: r) = Ok (map (fun kv => (fst kv, jsort (snd kv))) l, r).
Proof.
  intros N G F. revert n N. induction F as [|[k x] l Hx F IH]; intros n N Hn; [contradiction|]. inversion_clear G as [|? ? Gx Gl]. cbn [fst snd] in *.
  change (list_sum (map (fun kv => S (size (snd kv))) ((k, x) :: l))) with (S (size x) + list_sum (map (fun kv => S (size (snd kv))) l))%nat in Hn.
  destruct n as [|n]; [lia|].
  assert (H : forall rest, scan_members (S n) (entry L (k, x) ++ rest) =
    (do r0 <- scan n (dumps L x ++ rest);
     match skip_ws (snd r0) with
     | e :: s' => if Ascii.eqb e "}"%char then Ok ([(k, fst r0)], s') else if Ascii.eqb e ","%char then do q <- scan_members n (skip_ws s'); Ok ((k, fst r0) :: fst q, snd q) else Err ValueError
     | [] => Err ValueError end)).
  { intros rest. unfold entry. cbn [fst snd]. rewrite <- !app_assoc. rewrite quote_app. cbn [scan_members].
    rewrite Ascii.eqb_refl. rewrite scanstring_ok. cbn [bind fst snd].
    change (text_of ": " ++ dumps L x ++ rest) with (":"%char :: " "%char :: dumps L x ++ rest).
    rewrite (skip_ws_nonws ":"%char) by reflexivity. cbn iota. change (Ascii.eqb ":" ":") with true. cbn iota.
    destruct (dumps_head L x Gx) as (c & s & E & Hc). rewrite E. cbn [app].
    assert (skip_ws (" "%char :: c :: s ++ rest) = c :: s ++ rest) as ->.
    { cbn [skip_ws]. change (is_ws " ") with true. cbn iota. now rewrite (proj1 (head_facts c Hc)). }
    reflexivity. }
  destruct l as [|y l].
  - cbn [map join]. rewrite H. rewrite Hx; [|cbn in Hn; lia|apply stops_newline]. cbn [bind fst snd]. rewrite skip_newline by reflexivity. reflexivity.
  - change (join (comma L) (map (entry L) ((k, x) :: y :: l))) with (entry L (k, x) ++ comma L ++ join (comma L) (map (entry L) (y :: l))).
    rewrite <- !app_assoc. rewrite H. rewrite Hx; [|lia|apply stops_comma]. cbn [bind fst snd]. unfold comma at 1. rewrite <- app_comm_cons.
    rewrite skip_ws_nonws by reflexivity. cbn iota. change (Ascii.eqb "," "}") with false. change (Ascii.eqb "," ",") with true. cbn iota.
    rewrite skip_newline.
    + rewrite IH; auto; [discriminate|]. lia.
    + cbn [map]. destruct (join_head (comma L) (entry L y) (map (entry L) l)) as [s' ->]. unfold entry. rewrite <- !app_assoc, quote_app. reflexivity.
Qed.
Lemma dput_new {A} (d : list (text * A)) k v : ~ In k (map fst d) -> dput tdec d k v = d ++ [(k, v)].
Proof.
  induction d as [|[k' v'] d IH]; cbn [dput map fst app In]; auto. intros N. destruct (tdec k' k); [tauto|]. rewrite IH; tauto.
Qed.
Lemma dict_of_distinct {A} (l : list (text * A)) : NoDup (map fst l) -> dict_of l = l.
Proof.
  unfold dict_of. intros N. enough (H : forall d, NoDup (map fst (d ++ l)) -> fold_left (fun d kv => dput tdec d (fst kv) (snd kv)) l d = d ++ l) by (apply H; exact N).
  clear N. induction l as [|[k v] l IH]; intros d N; cbn [fold_left fst snd]; [now rewrite app_nil_r|].
  rewrite dput_new.
  - rewrite IH, <- app_assoc; [reflexivity|]. now rewrite <- app_assoc.
  - rewrite map_app in N. cbn [map fst] in N. apply NoDup_remove_2 in N. rewrite in_app_iff in N. tauto.
Qed.
Lemma scan_scalar_start n c s : ~ In c [dq; "["%char; "{"%char] -> scan (S n) (c :: s) = scan_scalar (c :: s).
Proof.
  cbn [In]. intros H. cbn [scan]. destruct (Ascii.eqb_spec c dq); [symmetry in e; tauto|]. destruct (Ascii.eqb_spec c "["%char); [symmetry in e; tauto|].
  destruct (Ascii.eqb_spec c "{"%char); [symmetry in e; tauto|]. reflexivity.
Qed.
Lemma scalar_start c : scalar_head c -> ~ In c [dq; "["%char; "{"%char].
Proof. cbn. intros Hc [H|[H|[H|[]]]]; subst c; destruct Hc as [H|[H|[H|H]]]; try discriminate; cbn in H; lia. Qed.
Lemma scan_arr L x l n r : scan (S n) (dumps L (JArr (x :: l)) ++ r) =
  match skip_ws (newline (S L) ++ join (comma (S L)) (map (dumps (S L)) (x :: l)) ++ newline L ++ "]"%char :: r) with
  | d :: s2 => if Ascii.eqb d "]"%char then Ok (JArr [], s2) else do r <- scan_items n (d :: s2); Ok (JArr (fst r), snd r)
  | [] => Err ValueError
  end.
Proof. rewrite dumps_arr. rewrite <- app_comm_cons, <- !app_assoc. reflexivity. Qed.
Lemma scan_obj L l n r : l <> [] -> scan (S n) (dumps L (JObj l) ++ r) =
  match skip_ws (newline (S L) ++ join (comma (S L)) (map (entry (S L)) (sort_keys l)) ++ newline L ++ "}"%char :: r) with
  | d :: s2 => if Ascii.eqb d "}"%char then Ok (JObj [], s2) else do r <- scan_members n (d :: s2); Ok (JObj (dict_of (fst r)), snd r)
  | [] => Err ValueError
  end.
Proof. intros N. rewrite dumps_obj by auto. rewrite <- app_comm_cons, <- !app_assoc. reflexivity. Qed.
Lemma reads_all v : jgood v -> reads v.
Proof.
  induction v as [|b|t|t|l IH|l IH] using json_ind'; intros G L n r Hn S; destruct n as [|n]; try (cbn in Hn; lia).
  - reflexivity.
  - destruct b; reflexivity.
  - inversion_clear G as [| |? Hl| | |]. cbn [dumps jsort]. destruct (literal_head t Hl) as (c & t' & -> & Hc). cbn [app].
    rewrite scan_scalar_start by now apply scalar_start. rewrite app_comm_cons. now apply scan_literal.
  - cbn [dumps jsort]. rewrite quote_app. cbn [scan]. rewrite Ascii.eqb_refl, scanstring_ok. reflexivity.
  - inversion_clear G as [| | | |? F|]. destruct l as [|x l]; [reflexivity|]. rewrite scan_arr.
    assert (F2 : Forall reads (x :: l)) by (rewrite Forall_forall in *; auto).
    assert (K := items_ok (Datatypes.S L) (x :: l) n r ltac:(discriminate) F F2 ltac:(cbn [size] in Hn; lia)). cbn [pred] in K.
    inversion_clear F as [|? ? Fx _]. destruct (dumps_head (Datatypes.S L) x Fx) as (c & s & E & Hc).
    destruct (join_head (comma (Datatypes.S L)) (dumps (Datatypes.S L) x) (map (dumps (Datatypes.S L)) l)) as [s' J].
    destruct (head_facts c Hc) as (W & B & _). cbn [map] in *. rewrite J, E in *. cbn [app] in *.
    rewrite skip_newline by exact W. destruct (Ascii.eqb_spec c "]"%char); [contradiction|]. rewrite K. reflexivity.
  - inversion_clear G as [| | | | |? N F]. destruct l as [|x l]; [reflexivity|]. rewrite scan_obj by discriminate.
    set (m := x :: l) in *. assert (P := sort_perm m).
    assert (M : sort_keys m <> []) by (intros Z; rewrite Z in P; symmetry in P; apply Permutation_nil in P; discriminate).
    assert (F2 : Forall (fun kv => reads (snd kv)) m) by (rewrite Forall_forall in *; auto).
    assert (K := members_ok (Datatypes.S L) (sort_keys m) n r M (Permutation_Forall P F) (Permutation_Forall P F2)). cbn [pred] in K.
    rewrite <- (list_sum_perm _ _ (Permutation_map (fun kv => Datatypes.S (size (snd kv))) P)) in K. specialize (K ltac:(cbn [size] in Hn; lia)).
    destruct (sort_keys m) as [|y s] eqn:Es; [contradiction|].
    destruct (join_head (comma (Datatypes.S L)) (entry (Datatypes.S L) y) (map (entry (Datatypes.S L)) s)) as [s' J].
    cbn [map] in *. rewrite J in *. unfold entry in *. rewrite <- !app_assoc in *. rewrite quote_app in *.
    rewrite skip_newline by reflexivity. change (Ascii.eqb dq "}") with false. cbn iota. rewrite K. cbn [bind fst snd jsort].
    rewrite (sort_map jsort), Es. cbn [map]. rewrite dict_of_distinct; [reflexivity|].
    rewrite <- (map_cons (fun kv => (fst kv, jsort (snd kv)))), map_map, <- Es. cbn [fst].
    rewrite Es. eapply Permutation_NoDup; [apply Permutation_map, P|exact N].
Qed.

(** The number of calls suffices. *)
Lemma join_length (sep : text) l : (list_sum (map (@length ascii) l) <= length (join sep l))%nat.
Proof.
  induction l as [|x l IH]; [cbn; lia|]. change (list_sum (map (length (A:=ascii)) (x :: l))) with (length x + list_sum (map (@length ascii) l))%nat.
  destruct l as [|y l]; [cbn; lia|]. change (join sep (x :: y :: l)) with (x ++ sep ++ join sep (y :: l)). rewrite !app_length. lia.
Qed.
Lemma size_length v : jgood v -> forall L, (S (size v) <= 2 * length (dumps L v))%nat.
Proof.
  induction v as [|b|t|t|l IH|l IH] using json_ind'; intros G L.
  - cbn. lia.
  - destruct b; cbn; lia.
  - inversion_clear G as [| |? Hl| | |]. destruct (literal_head t Hl) as (c & t' & -> & _). cbn. lia.
  - cbn [dumps size]. unfold quote. cbn [length]. rewrite app_length. cbn. lia.
  - inversion_clear G as [| | | |? F|]. destruct l as [|x l]; [cbn; lia|]. rewrite dumps_arr. cbn [length size]. rewrite !app_length.
    assert (J := join_length (comma (S L)) (map (dumps (S L)) (x :: l))).
    assert (H : (list_sum (map (fun x => S (size x)) (x :: l)) <= 2 * list_sum (map (@length ascii) (map (dumps (S L)) (x :: l))))%nat).
    { revert IH F. generalize (x :: l). clear. induction 1 as [|y l Hy IH IHl]; [cbn; lia|]. intros F. inversion_clear F as [|? ? Fy Fl].
      cbn [map list_sum fold_right]. specialize (Hy Fy (S L)). specialize (IHl Fl). unfold list_sum in IHl. lia. }
    cbn [newline length]. lia.
  - inversion_clear G as [| | | | |? N F]. destruct l as [|x l]; [cbn; lia|]. rewrite dumps_obj by discriminate. cbn [size].
    assert (P := sort_perm (x :: l)). rewrite (list_sum_perm _ _ (Permutation_map (fun kv => S (size (snd kv))) P)).
    apply (Permutation_Forall P) in IH. apply (Permutation_Forall P) in F. cbn [length]. rewrite !app_length.
    assert (J := join_length (comma (S L)) (map (entry (S L)) (sort_keys (x :: l)))).
    assert (H : (list_sum (map (fun kv => S (size (snd kv))) (sort_keys (x :: l))) <= 2 * list_sum (map (@length ascii) (map (entry (S L)) (sort_keys (x :: l)))))%nat).
    { revert IH F. generalize (sort_keys (x :: l)). clear. induction 1 as [|y l Hy IH IHl]; [cbn; lia|]. intros F. inversion_clear F as [|? ? Fy Fl].
      cbn [map list_sum fold_right]. specialize (Hy Fy (S L)). specialize (IHl Fl). unfold list_sum in IHl. unfold entry at 1. rewrite !app_length. lia. }
    cbn [newline length]. lia.
Qed.
Lemma loads_dumps v : jgood v -> loads (dumps 0 v) = Ok (jsort v).
Proof.
  intros G. unfold loads. destruct (dumps_head 0 v G) as (c & s & E & Hc).
  assert (skip_ws (dumps 0 v) = dumps 0 v) as -> by (rewrite E; apply skip_ws_nonws, head_facts, Hc).
  rewrite <- (app_nil_r (dumps 0 v)) at 2. assert (Z := size_length v G 0). rewrite (reads_all v G 0%nat); [reflexivity|lia|exact I].
Qed.
