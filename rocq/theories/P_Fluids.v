(** Proofs about the fluids shipped with auxi. *)
From Verif Require Import Prelude M_Lists M_Thermochem M_ThermoMat M_Coals M_Stoichiometry M_Physical M_Data_Fluids M_Fluids Spec_Physical P_Content P_Convert P_Poly P_Physical.
From Coq Require Import Reals Qreals Lra Lia.
Local Open Scope list_scope.
Local Open Scope R_scope.

Lemma read_poly_ok p T : Q2R (qp_min p) <= T <= Q2R (qp_max p) -> poly_calculate (read_poly p) (at_T T) = Ok (ev (rev (qp_coeffs p)) T).
Proof. intros H. rewrite poly_ok; cbn [read_poly pm_min pm_max pm_coeffs]; [now rewrite ev_rev|lra|]. intros hi E. injection E as <-. lra. Qed.
Lemma read_poly_inv p T v : poly_calculate (read_poly p) (at_T T) = Ok v -> Q2R (qp_min p) <= T <= Q2R (qp_max p) /\ v = ev (rev (qp_coeffs p)) T.
Proof.
  intros H. unfold poly_calculate in H. rewrite check_T in H. cbn [at_T lookup String.eqb Ascii.eqb Bool.eqb] in H. cbn [read_poly pm_min pm_max pm_coeffs] in H.
  destruct (Rlt_dec T (Q2R (qp_min p))) as [A|A]; [destruct (forallb _ _) in H; discriminate|].
  destruct (Rlt_dec (Q2R (qp_max p)) T) as [B|B]; [destruct (forallb _ _) in H; discriminate|].
  assert (C : Q2R (qp_min p) <= T <= Q2R (qp_max p)) by lra. split; auto.
  assert (E := read_poly_ok p T C). unfold poly_calculate in E. rewrite check_T in E. cbn [at_T lookup String.eqb Ascii.eqb Bool.eqb] in E. cbn [read_poly pm_min pm_max pm_coeffs] in E.
  destruct (Rlt_dec T (Q2R (qp_min p))); [lra|]. destruct (Rlt_dec (Q2R (qp_max p)) T); [lra|]. rewrite E in H. congruence.
Qed.
Definition file_pos (p : qpoly) : bool := pos_on 12 (rev (qp_coeffs p)) (qp_min p) (qp_max p).
Definition file_inc (p : qpoly) : bool := pos_on 12 (pder 1 (tl (rev (qp_coeffs p)))) (qp_min p) (qp_max p).
Lemma all_positive : forallb (fun fp => String.eqb (fst fp) "water-beta" || file_pos (snd fp))%bool fluid_data = true.
Proof. vm_compute. reflexivity. Qed.
Lemma file_positive f p T : In (f, p) fluid_data -> f <> "water-beta"%string -> Q2R (qp_min p) <= T <= Q2R (qp_max p) -> 0 < ev (rev (qp_coeffs p)) T.
Proof.
  intros I N H. assert (A := proj1 (forallb_forall _ _) all_positive _ I). cbn [fst snd] in A. apply orb_prop in A. destruct A as [A|A]; [now apply String.eqb_eq in A|]. exact (pos_on_sound _ _ _ _ _ A H).
Qed.
Lemma lookup_In {A} k (d : list (string * A)) v : lookup k d = Some v -> In (k, v) d.
Proof. induction d as [|[k' w] d IH]; cbn [lookup]; [discriminate|]. destruct (String.eqb_spec k k'); [intros E; injection E as ->; left; congruence|right; auto]. Qed.
Lemma poly_file_inv f T v : poly_file f (at_T T) = Ok v -> exists p, lookup f fluid_data = Some p /\ Q2R (qp_min p) <= T <= Q2R (qp_max p) /\ v = ev (rev (qp_coeffs p)) T.
Proof. unfold poly_file. destruct (lookup f fluid_data) as [p|]; [|discriminate]. intros H. exists p. split; auto. now apply read_poly_inv. Qed.
Lemma poly_file_pos f T v : f <> "water-beta"%string -> poly_file f (at_T T) = Ok v -> 0 < v.
Proof. intros N H. destruct (poly_file_inv _ _ _ H) as (p & L & R & ->). apply (file_positive f); auto. now apply lookup_In. Qed.
Definition gas_names : list string := ["air"; "argon"; "ammonia"; "carbon-dioxide"; "carbon-monoxide"; "nitrogen"; "oxygen"; "water-vapour"]%string.
Definition gas_file_name (gas prop : string) : string :=
  String.append gas (String.append "-" (String.append prop (String.append "-polynomialmodelt-dataset-" (String.append gas "-lienhard2018")))).
Lemma gas_file_eq gas prop : gas_file gas prop = poly_file (gas_file_name gas prop). Proof. reflexivity. Qed.
Lemma gas_increasing_check : forallb (fun g => forallb (fun pr => match lookup (gas_file_name g pr) fluid_data with Some p => file_inc p | None => false end) ["mu"; "k"]%string) gas_names = true.
Proof. vm_compute. reflexivity. Qed.
Lemma gas_name_beta : forallb (fun g => forallb (fun pr => negb (String.eqb (gas_file_name g pr) "water-beta")) ["cp"; "mu"; "k"; "rho"]%string) gas_names = true.
Proof. vm_compute. reflexivity. Qed.
Lemma gas_file_pos g pr T v : In g gas_names -> In pr ["cp"; "mu"; "k"; "rho"]%string -> gas_file g pr (at_T T) = Ok v -> 0 < v.
Proof.
  intros G P H. rewrite gas_file_eq in H. apply poly_file_pos in H; auto. intros E.
  assert (A := proj1 (forallb_forall _ _) gas_name_beta _ G). cbv beta in A. assert (B := proj1 (forallb_forall _ _) A _ P). cbv beta in B. rewrite E in B. discriminate.
Qed.
Lemma gas_file_inc g pr T1 T2 v1 v2 : In g gas_names -> In pr ["mu"; "k"]%string -> gas_file g pr (at_T T1) = Ok v1 -> gas_file g pr (at_T T2) = Ok v2 -> T1 < T2 -> v1 < v2.
Proof.
  intros G P H1 H2 T. rewrite gas_file_eq in H1, H2. assert (A := proj1 (forallb_forall _ _) gas_increasing_check _ G). cbv beta in A. assert (B := proj1 (forallb_forall _ _) A _ P). cbv beta in B.
  destruct (poly_file_inv _ _ _ H1) as (p & L & R1 & ->). destruct (poly_file_inv _ _ _ H2) as (q & L' & R2 & ->). rewrite L in B, L'. injection L' as <-. unfold file_inc in B. apply (ev_increasing 12 _ (qp_min p) (qp_max p) T1 T2 B); lra.
Qed.
Lemma number_T T : number_of "T" (at_T T) = Ok T. Proof. reflexivity. Qed.
Lemma beta_inv T v : beta_T (at_T T) = Ok v -> 0 < T /\ v = 1 / T.
Proof.
  unfold beta_T, positive_number. rewrite check_T. cbn [at_T lookup String.eqb Ascii.eqb Bool.eqb forallb fst]. destruct (string_dec "T" "T"); [|contradiction]. destruct (Rlt_dec T 0); cbn [bind andb]; [discriminate|].
  rewrite number_T. cbn [bind]. unfold rdiv. destruct (Req_EM_T T 0); [discriminate|]. intros E. injection E as <-. split; lra.
Qed.
Lemma beta_ok T : 0 < T -> beta_T (at_T T) = Ok (1 / T).
Proof.
  intros P. unfold beta_T, positive_number. rewrite check_T. cbn [at_T lookup String.eqb Ascii.eqb Bool.eqb forallb fst]. destruct (string_dec "T" "T"); [|contradiction]. destruct (Rlt_dec T 0); [lra|]. cbn [bind andb]. rewrite number_T. cbn [bind].
  apply rdiv_ok. lra.
Qed.
Lemma rho_T_inv m P T v : rho_T m P (at_T T) = Ok v -> 0 < T /\ v = m / 1000 * P / gas_constant / T.
Proof.
  unfold rho_T, positive_number. rewrite check_T. cbn [at_T lookup String.eqb Ascii.eqb Bool.eqb forallb fst]. destruct (string_dec "T" "T"); [|contradiction]. destruct (Rlt_dec T 0); cbn [bind andb]; [discriminate|].
  rewrite number_T. cbn [bind]. unfold rdiv. destruct (Req_EM_T T 0); [discriminate|]. intros E. injection E as <-. split; lra.
Qed.
Lemma rho_T_ok m P T : 0 < T -> rho_T m P (at_T T) = Ok (m / 1000 * P / gas_constant / T).
Proof.
  intros H. unfold rho_T, positive_number. rewrite check_T. cbn [at_T lookup String.eqb Ascii.eqb Bool.eqb forallb fst]. destruct (string_dec "T" "T"); [|contradiction]. destruct (Rlt_dec T 0); [lra|]. cbn [bind andb]. rewrite number_T. cbn [bind].
  apply rdiv_ok. lra.
Qed.
Lemma gas_constant_pos : 0 < gas_constant. Proof. unfold gas_constant. lra. Qed.
Lemma ideal_rho_pos fo T v : In fo ["Ar"; "CO"; "N2"; "O2"; "H2O"]%string -> ideal_rho fo (at_T T) = Ok v -> 0 < v.
Proof.
  intros I H. unfold ideal_rho in H. assert (M : exists m, mm fo = Ok m /\ 0 < m).
  { assert (Q : forall m, molar_mass (Some fo) = Ok m -> (0 < m)%Qc -> exists r, mm fo = Ok r /\ 0 < r).
    { intros m E P. unfold mm. rewrite E. cbn [bind]. eexists. split; [reflexivity|]. rewrite <- Q2R_0. apply Qlt_Rlt. exact P. }
    cbn [In] in I. repeat destruct I as [<-|I]; [..|contradiction]; (eapply Q; [vm_compute; reflexivity|vm_compute; reflexivity]). }
  destruct M as (m & E & P). rewrite E in H. cbn [bind] in H. apply rho_T_inv in H. destruct H as [Tp ->]. pose proof gas_constant_pos. apply Rdiv_lt_0_compat; auto. apply Rdiv_lt_0_compat; auto. apply Rmult_lt_0_compat; lra.
Qed.
Inductive gas_shape : fluid -> Prop :=
| gs_ideal g r : In g gas_names -> (forall T v, r (at_T T) = Ok v -> 0 < v) -> gas_shape (gas_ideal g r)
| gs_poly g : In g gas_names -> gas_shape (gas_poly g).
Lemma gases_shape g m : In (g, m) gases -> gas_shape m.
Proof.
  unfold gases. intros I. cbn [In] in I. repeat destruct I as [I|I]; try contradiction; injection I as <- <-;
    (apply gs_poly || (apply gs_ideal; [|intros T v H; first [now apply (ideal_rho_pos _ T v) in H; [exact H|cbn; tauto] | idtac]])); try (cbn; tauto).
  apply rho_T_inv in H. destruct H as [Tp ->]. pose proof gas_constant_pos. apply Rdiv_lt_0_compat; auto. apply Rdiv_lt_0_compat; auto. lra.
Qed.
Lemma gas_positive m pr T v : gas_shape m -> In pr ["rho"; "beta"; "Cp"; "mu"; "k"]%string -> property m pr (at_T T) = Ok v -> 0 < v.
Proof.
  intros S P H. assert (B : forall T v, beta_T (at_T T) = Ok v -> 0 < v) by (intros t w E; apply beta_inv in E; destruct E as [E ->]; apply Rdiv_lt_0_compat; lra).
  destruct S as [g r G R|g G]; cbn [In] in P; destruct P as [<-|[<-|[<-|[<-|[<-|[]]]]]];
    unfold property, gas_ideal, gas_poly in H; cbn [lookup String.eqb Ascii.eqb Bool.eqb] in H; eauto; eapply gas_file_pos; eauto; cbn; tauto.
Qed.
Lemma gas_mu_k m pr T1 T2 v1 v2 : gas_shape m -> In pr ["mu"; "k"]%string -> property m pr (at_T T1) = Ok v1 -> property m pr (at_T T2) = Ok v2 -> T1 < T2 -> v1 < v2.
Proof.
  intros S P H1 H2 L. destruct S as [g r G R|g G]; cbn [In] in P; destruct P as [<-|[<-|[]]];
    unfold property, gas_ideal, gas_poly in H1, H2; cbn [lookup String.eqb Ascii.eqb Bool.eqb] in H1, H2; eapply gas_file_inc; eauto; cbn; tauto.
Qed.
