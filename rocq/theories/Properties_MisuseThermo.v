(** Property C87 for thermo packages. *)
From Verif Require Import Prelude M_Lists M_Thermochem M_ThermoMat Spec_Thermo Spec_ThermoMat Spec_MisuseThermo P_ThermoMat P_MisuseThermo M_Data M_Data_Rao P_Data Properties_ThermoMat.
From Coq Require Import Reals Lra.
Local Open Scope list_scope.
Local Open Scope R_scope.

Theorem C87_thermo_extract : forall db p a e, sound db p -> (forall m, a = AMaterial m -> known db m /\ NoDup (tm_compounds m)) ->
  (snd (extract db p a) = Err e <-> Spec_MisuseThermo.extract_fault p a e).
Proof. exact P_MisuseThermo.extract_failure. Qed.
Print Assumptions C87_thermo_extract.
(** The only other way to fail is that no temperature is found. *)
Theorem C87_thermo_add : forall db p a e, sound db p ->
  (forall o, a = APackage o -> wf o /\ (tm_id (tp_material p) = tm_id (tp_material o) -> tp_material o = tp_material p)) -> e <> NonFinite ->
  (add db p a = Err e <-> Spec_MisuseThermo.add_fault p a e).
Proof. exact P_MisuseThermo.add_failure. Qed.
Print Assumptions C87_thermo_add.
Theorem C87_thermo_scale : forall db p k e, sound db p -> (mul db p k = Err e <-> k < 0 /\ e = PyException).
Proof.
  intros db p k e (W & K & _). destruct (Rlt_dec k 0) as [L|L].
  - unfold mul. destruct (Rlt_dec k 0); [|contradiction]. split; [intros [= <-]; auto|]. intros [_ ->]. auto.
  - destruct (mul_ok db p k K W ltac:(lra)) as (r & -> & _). split; [discriminate|]. intros [H _]. contradiction.
Qed.
Print Assumptions C87_thermo_scale.
Theorem C87_thermo_create : forall db m n mass P T norm e, known db m -> NoDup (tm_compounds m) ->
  (forall a, lookup n (tm_assays m) = Some a -> length a = length (tm_compounds m)) -> ~ In "IsCoal"%string (tm_properties m) ->
  (create_package db m (Some n) mass P T norm = Err e <-> create_fault m n mass norm e).
Proof. exact create_failure. Qed.
Print Assumptions C87_thermo_create.
(** An assay that was added by the program, not read from the file, has no custom
    properties, and no package can be made of it. *)
Theorem C87_thermo_added_assay_refuted : exists m m', known rao m /\ add_assay m "B" [1; 1] = Ok m' /\ forall mass P T norm, create_package rao m' (Some "B"%string) mass P T norm = Err KeyError.
Proof.
  exists metals, (mktm 1 ["Ag[L]"%string; "Al[L]"%string] [("A"%string, [1; 3]); ("B"%string, [1; 1])] [] [("A"%string, [])] ["Ag"%string; "Al"%string]).
  split; [apply metals_known|]. split; [reflexivity|]. intros mass P T norm. apply (P_MisuseThermo.create_failure); [apply metals_known|apply metals_nodup|intros a H; injection H as <-; reflexivity|intros []|].
  eapply create_no_properties; [reflexivity| |cbn; intros [H|[]]; discriminate]. intros _. right. cbn. lra.
Qed.
Print Assumptions C87_thermo_added_assay_refuted.

Example C87_thermo_case : sound rao (charge 1 3 25) /\ snd (extract rao (charge 1 3 25) (AMass 5)) = Err PyException /\
  is_ok (snd (extract rao (charge 1 3 25) (AMass 4))) = true /\ add rao (charge 1 3 25) (APair "Cu[L]" 1) = Err ValueError /\
  is_ok (snd (extract rao (charge 1 3 25) (AStr "Cu[L]"))) = true /\ mul rao (charge 1 3 25) (-1) = Err PyException.
Proof.
  assert (S : sound rao (charge 1 3 25)) by (split; [apply charge_wf|split; [apply metals_known|split; [reflexivity|apply charge_consistent]]]). split; [exact S|].
  assert (M := charge_mass 1 3 25). split; [|split; [|split; [|split]]].
  - apply C87_thermo_extract; auto; [discriminate|]. constructor. lra.
  - destruct (snd (extract rao (charge 1 3 25) (AMass 4))) as [r|e] eqn:E; auto. apply C87_thermo_extract in E; auto; [|discriminate]. inversion E; lra.
  - apply C87_thermo_add; auto; [discriminate|discriminate|]. constructor. cbn. intros [H|[H|[]]]; discriminate.
  - destruct (snd (extract rao (charge 1 3 25) (AStr "Cu[L]"))) as [r|e] eqn:E; auto. apply C87_thermo_extract in E; auto; [|discriminate]. inversion E.
  - apply C87_thermo_scale; auto. split; [lra|reflexivity].
Qed.
